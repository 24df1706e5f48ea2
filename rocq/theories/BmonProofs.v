(** Proofs about the monitors: one neutron and runs. *)
From Coq Require Import Reals List Lra Lia ZArith.
From Verif Require Import Base RotModel ChanModel ShapeModel ChanProofs GridProofs KxmlProofs OptModel OptSpec OptProofs BmonModel BmonSpec.
Import ListNotations.
Open Scope R_scope.

Lemma add_length h : forall i p, List.length (add_at h i p) = List.length h.
Proof. induction h; intros [|i] p; cbn; [reflexivity..|rewrite IHh; reflexivity]. Qed.
Lemma add_same h : forall i p c, nth_error h i = Some c -> nth_error (add_at h i p) i = Some (add c p).
Proof. induction h; intros [|i] p c H; cbn in *; [discriminate..|congruence|apply IHh, H]. Qed.
Lemma add_other h : forall i k p, k <> i -> nth_error (add_at h i p) k = nth_error h k.
Proof. induction h; intros [|i] [|k] p H; cbn; try reflexivity; [contradiction|apply IHh; congruence]. Qed.
Lemma tally_ok h i p h' : tally h i p = Ok h' -> exists k, i = Z.of_nat k /\ (k < List.length h)%nat /\ h' = add_at h k p.
Proof.
  unfold tally. destruct (i <? 0)%Z eqn:A; [discriminate|]. destruct (Z.of_nat (List.length h) <=? i)%Z eqn:B; [discriminate|]. cbn.
  apply Z.ltb_ge in A. apply Z.leb_gt in B. intros [= <-]. exists (Z.to_nat i). repeat split; lia.
Qed.
Lemma tally_in h k p : (k < List.length h)%nat -> tally h (Z.of_nat k) p = Ok (add_at h k p).
Proof.
  intros H. unfold tally. destruct (Z.ltb_spec (Z.of_nat k) 0); [lia|]. destruct (Z.leb_spec (Z.of_nat (List.length h)) (Z.of_nat k)); [lia|].
  cbn. rewrite Nat2Z.id. reflexivity.
Qed.

Lemma total_add P f rs s r : total P f rs s -> P r -> total P f (r :: rs) (s + f r).
Proof. intros. now constructor. Qed.
Lemma total_eq P f rs s s' : total P f rs s -> s = s' -> total P f rs s'.
Proof. now intros ? <-. Qed.
Lemma total_ext P f g rs s : (forall r, f r = g r) -> total P f rs s -> total P g rs s.
Proof. intros E H. induction H; [constructor|rewrite E; now constructor|now constructor]. Qed.

Section Run.
Context {A : Type}.
Variables (trace : A -> ray -> result (A * ray)) (cells : A -> list cell) (n : nat) (B : nat -> ray -> Prop).
Definition step_ok (good : ray -> Prop) := forall a r a' r', good r -> List.length (cells a) = n -> trace a r = Ok (a', r') ->
  r' = prop_z0 None r /\
  ((exists k, (k < n)%nat /\ B k r /\ cells a' = add_at (cells a) k (r_p r)) \/ (cells a' = cells a /\ forall k, (k < n)%nat -> ~ B k r)).
Variable good : ray -> Prop.
Hypothesis step : step_ok good.
Hypothesis one : forall r k k', good r -> (k < n)%nat -> (k' < n)%nat -> B k r -> B k' r -> k = k'.

Lemma step_length a r a' r' : good r -> List.length (cells a) = n -> trace a r = Ok (a', r') -> List.length (cells a') = n.
Proof. intros G L H. destruct (step a r a' r' G L H) as [_ [(k & _ & _ & ->)|[-> _]]]; [rewrite add_length|]; exact L. Qed.
Lemma run_length rs : forall a a' rs', Forall good rs -> List.length (cells a) = n -> run trace a rs = Ok (a', rs') -> List.length (cells a') = n.
Proof.
  induction rs as [|r rs IH]; intros a a' rs' G L H; cbn in H; [now injection H as <- _|].
  destruct (trace a r) as [[a1 r1]|e] eqn:E; cbn in H; [|discriminate].
  destruct (run trace a1 rs) as [[a2 rs2]|e] eqn:E2; cbn in H; [|discriminate]. injection H as <- _.
  inversion_clear G. eapply IH; [eassumption| |exact E2]. eapply step_length; [|exact L|exact E]. assumption.
Qed.
Lemma run_out rs : forall a a' rs', Forall good rs -> List.length (cells a) = n -> run trace a rs = Ok (a', rs') -> rs' = map (prop_z0 None) rs.
Proof.
  induction rs as [|r rs IH]; intros a a' rs' G L H; cbn in H; [now injection H as _ <-|].
  destruct (trace a r) as [[a1 r1]|e] eqn:E; cbn in H; [|discriminate].
  destruct (run trace a1 rs) as [[a2 rs2]|e] eqn:E2; cbn in H; [|discriminate]. injection H as _ <-.
  inversion_clear G as [|? ? G1 G2]. cbn. f_equal.
  - destruct (step a r a1 r1 G1 L E) as [-> _]. reflexivity.
  - eapply IH; [exact G2| |exact E2]. exact (step_length a r a1 r1 G1 L E).
Qed.
Lemma run_cells rs : forall a a' rs', Forall good rs -> List.length (cells a) = n -> run trace a rs = Ok (a', rs') ->
  forall k c, nth_error (cells a) k = Some c -> exists c', nth_error (cells a') k = Some c' /\ holds (B k) rs (c_N c' - c_N c) (c_p c' - c_p c) (c_p2 c' - c_p2 c).
Proof.
  induction rs as [|r rs IH]; intros a a' rs' G L H k c K; cbn in H.
  - injection H as <- _. exists c. split; [exact K|]. repeat split; eapply total_eq; try constructor; ring.
  - destruct (trace a r) as [[a1 r1]|e] eqn:E; cbn in H; [|discriminate].
    destruct (run trace a1 rs) as [[a2 rs2]|e] eqn:E2; cbn in H; [|discriminate]. injection H as <- _.
    inversion_clear G as [|? ? G1 G2]. pose proof (step_length a r a1 r1 G1 L E) as L1.
    destruct (step a r a1 r1 G1 L E) as [_ [(i & I1 & I2 & EQ)|[EQ NO]]].
    + destruct (Nat.eq_dec k i) as [-> |NE].
      * destruct (IH a1 a2 rs2 G2 L1 E2 i (add c (r_p r))) as (c' & C1 & C2 & C3 & C4); [rewrite EQ; apply add_same, K|]. cbn in C2, C3, C4.
        exists c'. split; [exact C1|].
        repeat split.
        -- eapply total_eq; [apply total_in; [exact I2|exact C2]|]. cbn. ring.
        -- eapply total_eq; [apply total_in; [exact I2|exact C3]|]. cbn. ring.
        -- eapply total_eq; [apply total_in; [exact I2|exact C4]|]. cbn. ring.
      * destruct (IH a1 a2 rs2 G2 L1 E2 k c) as (c' & C1 & C2 & C3 & C4); [rewrite EQ, add_other by exact NE; exact K|].
        exists c'. split; [exact C1|]. assert (KN : (k < n)%nat). { rewrite <- L. apply nth_error_Some. rewrite K. discriminate. }
        assert (NB : ~ B k r) by (intros X; exact (NE (one r k i G1 KN I1 X I2))).
        repeat split; apply total_out; assumption.
    + destruct (IH a1 a2 rs2 G2 L1 E2 k c) as (c' & C1 & C2 & C3 & C4); [rewrite EQ; exact K|].
      exists c'. split; [exact C1|]. assert (NB : ~ B k r). { apply NO. rewrite <- L. apply nth_error_Some. rewrite K. discriminate. }
      repeat split; apply total_out; assumption.
Qed.
Lemma run_from_empty rs a a' rs' : Forall good rs -> cells a = empty n -> run trace a rs = Ok (a', rs') ->
  List.length (cells a') = n /\ rs' = map (prop_z0 None) rs /\
  forall k, (k < n)%nat -> exists c, nth_error (cells a') k = Some c /\ holds (B k) rs (c_N c) (c_p c) (c_p2 c).
Proof.
  intros G E H. assert (L : List.length (cells a) = n) by (rewrite E; apply repeat_length).
  split; [exact (run_length rs a a' rs' G L H)|]. split; [exact (run_out rs a a' rs' G L H)|].
  intros k K. destruct (run_cells rs a a' rs' G L H k (mkCell 0 0 0)) as (c & C1 & C2 & C3 & C4).
  { rewrite E. unfold empty. apply nth_error_repeat, K. }
  exists c. split; [exact C1|]. cbn in C2, C3, C4. rewrite Rminus_0_r in C2, C3, C4. repeat split; assumption.
Qed.
Lemma run_total rs : (forall a r, good r -> List.length (cells a) = n -> exists x, trace a r = Ok x) ->
  forall a, Forall good rs -> List.length (cells a) = n -> exists x, run trace a rs = Ok x.
Proof.
  intros P. induction rs as [|r rs IH]; intros a G L; cbn; [eauto|]. inversion_clear G as [|? ? G1 G2].
  destruct (P a r G1 L) as ([a1 r1] & E). rewrite E. cbn. destruct (IH a1 G2 (step_length a r a1 r1 G1 L E)) as ([a2 rs2] & E2). rewrite E2. cbn. eauto.
Qed.
End Run.

(* the plane *)
Definition moving (r : ray) : Prop := vz (r_vel r) <> 0.
Lemma z0_at r : moving r -> at_plane r (prop_z0 None r).
Proof. intros M. destruct (z0_none r M) as [F Z]. eexists. split; [exact F|exact Z]. Qed.
Lemma z0_fields r : moving r -> r_vel (prop_z0 None r) = r_vel r /\ r_p (prop_z0 None r) = r_p r /\ arrives r (r_t (prop_z0 None r)) /\
  meets r (vx (r_pos (prop_z0 None r))) (vy (r_pos (prop_z0 None r))).
Proof.
  intros M. unfold moving in M. cbn. unfold prop_z0_nogravity. rewrite (proj2 (Reqb_f _ _) M). unfold prop_dt_nogravity. cbn [r_vel r_p r_t r_pos vx vy vz].
  assert (Z : coordinate 0 (vz (r_vel r)) (vz (r_pos r)) (- vz (r_pos r) / vz (r_vel r)) = 0) by (unfold coordinate; field; exact M).
  split; [reflexivity|]. split; [reflexivity|]. split.
  - exists (- vz (r_pos r) / vz (r_vel r)). split; [exact Z|reflexivity].
  - exists (- vz (r_pos r) / vz (r_vel r)). split; [exact Z|]. unfold coordinate. split; field; exact M.
Qed.
Lemma meets_one r x y x' y' : moving r -> meets r x y -> meets r x' y' -> x = x' /\ y = y'.
Proof.
  intros M (s & Z & -> & ->) (s' & Z' & -> & ->). apply (crossing_unique _ _ _ M) in Z. apply (crossing_unique _ _ _ M) in Z'. subst. split; reflexivity.
Qed.
Lemma arrives_one r t t' : moving r -> arrives r t -> arrives r t' -> t = t'.
Proof. intros M (s & Z & ->) (s' & Z' & ->). apply (crossing_unique _ _ _ M) in Z. apply (crossing_unique _ _ _ M) in Z'. subst. reflexivity. Qed.
Lemma in_area_iff o r : in_area o r = true <-> (xmin o < vx (r_pos r) < xmax o /\ ymin o < vy (r_pos r) < ymax o).
Proof. unfold in_area. rewrite !Bool.andb_true_iff, !Rltb_t. tauto. Qed.
Lemma area_through o r : moving r -> (in_area o (prop_z0 None r) = true <-> through o r).
Proof.
  intros M. rewrite in_area_iff. destruct (z0_fields r M) as (_ & _ & _ & E). split.
  - intros H. eexists _, _. split; [exact E|exact H].
  - intros (x & y & E' & H). destruct (meets_one r _ _ _ _ M E E') as [-> ->]. exact H.
Qed.
Lemma v2_speed r r' : r_vel r' = r_vel r -> v2 r' = speed r ^ 2.
Proof.
  intros E. unfold v2, speed. rewrite E. rewrite <- Rsqr_pow2. rewrite Rsqr_sqrt; [ring|].
  pose proof (pow2_ge_0 (vx (r_vel r))). pose proof (pow2_ge_0 (vy (r_vel r))). pose proof (pow2_ge_0 (vz (r_vel r))). lra.
Qed.
Lemma speed_pos r : moving r -> 0 < speed r.
Proof.
  intros M. unfold speed, moving in *. apply sqrt_lt_R0. pose proof (pow2_ge_0 (vx (r_vel r))). pose proof (pow2_ge_0 (vy (r_vel r))).
  assert (0 < vz (r_vel r) ^ 2). { rewrite <- Rsqr_pow2. apply Rsqr_pos_lt, M. } lra.
Qed.

(* indices *)
Lemma cint_int z i : cint (IZR z) = Ok i -> i = z.
Proof.
  unfold cint. assert (T : truncZ (IZR z) = z).
  { unfold truncZ. destruct (Rlt_dec (IZR z) 0); [|apply floor_IZR]. rewrite <- opp_IZR, floor_IZR. lia. }
  rewrite T. destruct ((- 2 ^ 31 <=? z) && (z <? 2 ^ 31))%Z%bool; [congruence|discriminate].
Qed.
Lemma cint_small z : (- 2 ^ 31 <= z < 2 ^ 31)%Z -> cint (IZR z) = Ok z.
Proof.
  intros H. unfold cint. assert (T : truncZ (IZR z) = z).
  { unfold truncZ. destruct (Rlt_dec (IZR z) 0); [|apply floor_IZR]. rewrite <- opp_IZR, floor_IZR. lia. }
  rewrite T. destruct (Z.leb_spec (- 2 ^ 31) z); [|lia]. destruct (Z.ltb_spec z (2 ^ 31)); [reflexivity|lia].
Qed.
Lemma bin_val a lo hi n i : lo < hi -> bin a lo hi n = Ok i -> i = floorZ ((a - lo) * n / (hi - lo)).
Proof.
  intros L. unfold bin, quot. assert (N : hi - lo <> 0) by lra. rewrite (proj2 (Reqb_f _ _) N). cbn. apply cint_int.
Qed.
Lemma bin_ok a lo hi n : lo < hi -> (- 2 ^ 31 <= floorZ ((a - lo) * n / (hi - lo)) < 2 ^ 31)%Z -> bin a lo hi n = Ok (floorZ ((a - lo) * n / (hi - lo))).
Proof.
  intros L H. unfold bin, quot. assert (N : hi - lo <> 0) by lra. rewrite (proj2 (Reqb_f _ _) N). cbn. apply cint_small, H.
Qed.
Lemma in_bin_floor lo hi n k a : lo < hi -> (0 < n)%Z -> (in_bin lo hi n k a <-> floorZ ((a - lo) * IZR n / (hi - lo)) = Z.of_nat k).
Proof.
  intros L N. apply IZR_lt in N. rewrite floor_iff, <- INR_IZR_INZ. unfold in_bin. rewrite plus_INR. change (INR 1) with 1.
  set (q := (a - lo) * IZR n / (hi - lo)). assert (E : a = lo + (hi - lo) * q / IZR n) by (unfold q; field; lra).
  assert (P : 0 < (hi - lo) / IZR n) by (apply Rdiv_lt_0_compat; lra).
  assert (M : forall u, (hi - lo) * u / IZR n = (hi - lo) / IZR n * u) by (intros u; unfold Rdiv; ring).
  rewrite E at 1 2. clear E. clearbody q. rewrite !M. split; intros [A B]; split.
  - apply (Rmult_le_reg_l ((hi - lo) / IZR n)); lra.
  - apply (Rmult_lt_reg_l ((hi - lo) / IZR n)); lra.
  - apply Rplus_le_compat_l, Rmult_le_compat_l; lra.
  - apply Rplus_lt_compat_l, Rmult_lt_compat_l; lra.
Qed.
Lemma in_bin_one lo hi n k k' a : lo < hi -> (0 < n)%Z -> in_bin lo hi n k a -> in_bin lo hi n k' a -> k = k'.
Proof. intros L N H H'. apply (in_bin_floor _ _ _ _ _ L N) in H. apply (in_bin_floor _ _ _ _ _ L N) in H'. lia. Qed.
(* a coordinate strictly inside gives an index in range *)
Lemma inside_range a lo hi n : lo < a < hi -> (0 < n)%Z -> (0 <= floorZ ((a - lo) * IZR n / (hi - lo)) < n)%Z.
Proof.
  intros H N. apply IZR_lt in N. destruct (floor_bounds ((a - lo) * IZR n / (hi - lo))) as [F1 F2].
  assert (P : 0 < (a - lo) * IZR n / (hi - lo) < IZR n).
  { split; [apply Rdiv_lt_0_compat; [apply Rmult_lt_0_compat; lra|lra]|].
    apply (Rmult_lt_reg_r (hi - lo)); [lra|]. unfold Rdiv. rewrite Rmult_assoc, Rinv_l by lra. rewrite Rmult_1_r, (Rmult_comm (IZR n)). apply Rmult_lt_compat_r; lra. }
  split; [|apply lt_IZR; lra]. assert (-1 < floorZ ((a - lo) * IZR n / (hi - lo)))%Z by (apply lt_IZR; lra). lia.
Qed.
