From Coq Require Import Reals Lra Psatz.
From Coquelicot Require Import Coquelicot.
From Verif Require Import Base RotModel DetModel ChanModel ShapeModel ScatModel UnitModel KinModel GridModel PhonModel GridSpec PhonSpec ChanProofs GridProofs PhonProofs.
Open Scope R_scope.

Lemma nth_div a Z i : nth i (map (fun z => z / a) Z) 0 = nth i Z 0 / a.
Proof. replace 0 with (0 / a) at 1 by (unfold Rdiv; ring). apply (map_nth (fun z => z / a)). Qed.
Lemma residual_div f e0 de a Z : a <> 0 ->
  residual f (first_points e0 de (map (fun z => z / a) Z)) = residual (fun e => a * f e) (first_points e0 de Z) / (a * a).
Proof.
  intros A. rewrite !residual_sum. unfold Rdiv at 3. rewrite (Rmult_comm (loop_sum _ _)), <- sum_scale. apply sum_ext. intros i _. rewrite nth_div. field. exact A.
Qed.
Lemma parabolic_div e0 de a Z : a <> 0 -> parabolic (first_points e0 de (map (fun z => z / a) Z)) <-> parabolic (first_points e0 de Z).
Proof.
  intros A. assert (P : 0 < a * a) by (pose proof (Rle_0_sqr a) as Q; unfold Rsqr in Q; assert (a * a <> 0) by (intros E; apply Rsqr_0_uniq in E; auto); lra).
  assert (V : forall s t, 10 * (s / (a * a)) <= t / (a * a) <-> 10 * s <= t).
  { intros s t. split; intros H.
    - apply (Rmult_le_compat_r (a * a)) in H; [|lra]. replace (10 * (s / (a * a)) * (a * a)) with (10 * s) in H by (field; exact A). replace (t / (a * a) * (a * a)) with t in H by (field; exact A). exact H.
    - apply Rmult_le_reg_r with (a * a); [exact P|]. replace (10 * (s / (a * a)) * (a * a)) with (10 * s) by (field; exact A). replace (t / (a * a) * (a * a)) with t by (field; exact A). exact H. }
  split; intros [c H].
  - exists (a * c). intros k. specialize (H (k / a)). rewrite !residual_div in H by exact A. apply (proj1 (V _ _)) in H.
    replace (residual (fun e => a * c * (e * e)) (first_points e0 de Z)) with (residual (fun e => a * (c * (e * e))) (first_points e0 de Z)) by (rewrite !residual_sum; apply sum_ext; intros; ring).
    replace (residual (fun _ => k) (first_points e0 de Z)) with (residual (fun _ => a * (k / a)) (first_points e0 de Z)) by (rewrite !residual_sum; apply sum_ext; intros; field; exact A).
    exact H.
  - exists (c / a). intros k. rewrite !residual_div by exact A. apply V. specialize (H (a * k)).
    replace (residual (fun e => a * (c / a * (e * e))) (first_points e0 de Z)) with (residual (fun e => c * (e * e)) (first_points e0 de Z)) by (rewrite !residual_sum; apply sum_ext; intros; field; exact A).
    exact H.
Qed.

Definition normal (de : R) (Z : list R) : list R := map (fun z => z / (de * total Z)) Z.

Lemma pred_S n : pred_unsigned (S n) = INR n. Proof. reflexivity. Qed.
Lemma pred_pos n : 0 <= pred_unsigned n.
Proof. destruct n; [cbn; lra|apply pos_INR]. Qed.
(** the tests of the constructor *)
Lemma new_dos_ok e0 de ne Z : 0 < de -> 0 <= e0 -> ne = List.length Z -> (20 <= ne)%nat ->
  new_dos e0 de ne Z = if Reqb (total Z) 0 then Ok None else let! c := compute_sod e0 de (normal de Z) in Ok (Some (mkDos e0 de ne (normal de Z) c)).
Proof.
  intros D E N L. unfold new_dos. destruct ne as [|m]; [lia|]. rewrite pred_S.
  assert (P : 1 <= INR m) by (apply (le_INR 1); lia).
  rewrite (proj2 (Rltb_t _ _)) by nra. cbn [negb]. rewrite (proj2 (Nat.eqb_eq _ _) N). cbn [negb].
  rewrite (proj2 (Nat.ltb_ge _ _)) by lia. rewrite (proj2 (Rltb_f _ _)) by lra. rewrite (proj2 (Rltb_f _ _)) by lra.
  rewrite fold_total, Rplus_0_l. rewrite (proj2 (Nat.ltb_ge _ _)) by lia. rewrite (Rmult_comm (total Z)). unfold normal.
  destruct (Reqb (total Z) 0) eqn:T.
  - apply Reqb_t in T. rewrite T, Rmult_0_r, (proj2 (Reqb_t _ _)) by reflexivity. reflexivity.
  - apply Reqb_f in T. rewrite (proj2 (Reqb_f _ _)) by (apply Rmult_integral_contrapositive; split; [lra|exact T]). reflexivity.
Qed.
Lemma new_dos_inv e0 de ne Z o : new_dos e0 de ne Z = Ok o -> 0 < de /\ 0 <= e0 /\ ne = List.length Z /\ (20 <= ne)%nat.
Proof.
  unfold new_dos. destruct (Rltb e0 _) eqn:A; cbn [negb]; [|discriminate]. apply Rltb_t in A.
  destruct (Nat.eqb _ _) eqn:N; cbn [negb]; [|discriminate]. apply Nat.eqb_eq in N. destruct (Nat.ltb ne 2) eqn:L; [discriminate|]. apply Nat.ltb_ge in L.
  destruct (Rltb de 0) eqn:D; [discriminate|]. apply Rltb_f in D. destruct (Rltb e0 0) eqn:E; [discriminate|]. apply Rltb_f in E.
  intros H. pose proof (pred_pos ne) as P. assert (0 < de) by (destruct D as [D|D]; [exact D|subst; lra]).
  repeat split; try lra; try exact N.
  destruct (Reqb _ 0) in H.
  - destruct (Nat.ltb (List.length Z) 20) eqn:F; [discriminate|]. apply Nat.ltb_ge in F. lia.
  - unfold compute_sod in H. rewrite map_length in H. destruct (Nat.ltb (List.length Z) 20) eqn:F; [discriminate|]. apply Nat.ltb_ge in F. lia.
Qed.
Lemma area_nonzero de Z : 0 < de -> total Z <> 0 -> de * total Z <> 0.
Proof. intros D T. apply Rmult_integral_contrapositive. split; [lra|exact T]. Qed.

(** the objects that are made *)
Theorem dos_made_char : forall e0 de ne Z d,
  new_dos e0 de ne Z = Ok (Some d) <->
  0 < de /\ 0 <= e0 /\ ne = List.length Z /\ (20 <= ne)%nat /\ total Z <> 0
  /\ parabolic (first_points e0 de Z)
  /\ exists c, best_parabola c (first_points e0 de (normal de Z)) /\ d = mkDos e0 de ne (normal de Z) c.
Proof.
  intros e0 de ne Z d. split.
  - intros H. pose proof (new_dos_inv _ _ _ _ _ H) as (D & E & N & L). rewrite new_dos_ok in H by assumption.
    destruct (Reqb (total Z) 0) eqn:T; [discriminate|]. apply Reqb_f in T.
    destruct (compute_sod e0 de (normal de Z)) as [c|] eqn:C; [|discriminate]. cbn [bind] in H. injection H as <-.
    apply (proj1 (sod_iff e0 de D E (normal de Z) c ltac:(unfold normal; rewrite map_length; lia))) in C. destruct C as [B P].
    unfold normal in P. apply (proj1 (parabolic_div _ _ _ _ (area_nonzero de Z D T))) in P. repeat (split; [assumption|]). exists c. split; [exact B|reflexivity].
  - intros (D & E & N & L & T & P & c & B & ->). rewrite new_dos_ok by assumption. rewrite (proj2 (Reqb_f _ _) T).
    assert (C : compute_sod e0 de (normal de Z) = Ok c); [|rewrite C; reflexivity].
    apply sod_iff; [exact D|exact E|unfold normal; rewrite map_length; lia|]. split; [exact B|].
    unfold normal. apply parabolic_div; [now apply area_nonzero|exact P].
Qed.
Theorem dos_made_iff : forall e0 de ne Z,
  (exists d, new_dos e0 de ne Z = Ok (Some d)) <->
  0 < de /\ 0 <= e0 /\ ne = List.length Z /\ (20 <= ne)%nat /\ total Z <> 0 /\ parabolic (first_points e0 de Z).
Proof.
  intros e0 de ne Z. split.
  - intros [d H]. apply (proj1 (dos_made_char _ _ _ _ _)) in H. tauto.
  - intros (D & E & N & L & T & P). destruct (best_exists e0 de D E (normal de Z)) as [c B].
    exists (mkDos e0 de ne (normal de Z) c). apply dos_made_char. repeat (split; [assumption|]). eauto.
Qed.
Theorem dos_nan_iff : forall e0 de ne Z,
  new_dos e0 de ne Z = Ok None <-> 0 < de /\ 0 <= e0 /\ ne = List.length Z /\ (20 <= ne)%nat /\ total Z = 0.
Proof.
  intros e0 de ne Z. split.
  - intros H. pose proof (new_dos_inv _ _ _ _ _ H) as (D & E & N & L). rewrite new_dos_ok in H by assumption.
    destruct (Reqb (total Z) 0) eqn:T; [apply Reqb_t in T; tauto|]. destruct (compute_sod _ _ _); discriminate.
  - intros (D & E & N & L & T). rewrite new_dos_ok by assumption. rewrite (proj2 (Reqb_t _ _) T). reflexivity.
Qed.
Lemma div_ok a b : b <> 0 -> divide a b = Ok (a / b).
Proof. intros H. unfold divide. destruct (Req_EM_T b 0); [contradiction|reflexivity]. Qed.
(** with twenty data that do not start like a parabola the process ends; with fewer than twenty memory that is not the object's is read *)
Theorem dos_terminated : forall e0 de ne Z,
  0 < de -> 0 <= e0 -> ne = List.length Z -> (20 <= ne)%nat -> total Z <> 0 -> ~ parabolic (first_points e0 de Z) ->
  new_dos e0 de ne Z = Err Terminated.
Proof.
  intros e0 de ne Z D E N L T P. rewrite new_dos_ok by assumption. rewrite (proj2 (Reqb_f _ _) T).
  assert (LN : (20 <= List.length (normal de Z))%nat) by (unfold normal; rewrite map_length; lia).
  destruct (compute_sod e0 de (normal de Z)) as [c|x] eqn:C.
  - apply (proj1 (sod_iff e0 de D E _ c LN)) in C. destruct C as [_ B]. apply (proj1 (parabolic_div _ _ _ _ (area_nonzero de Z D T))) in B. contradiction.
  - cbn. f_equal. unfold compute_sod in C. rewrite (proj2 (Nat.ltb_ge _ _) LN) in C. unfold linear_regression1 in C.
    rewrite div_ok in C.
    + cbn [bind] in C. destruct (poor_fit _ _); [injection C as <-; reflexivity|discriminate].
    + pose proof (xx_pos e0 de D E) as XP. rewrite (sum_ext _ (fun i => (e0 + INR i * de) * (e0 + INR i * de) * ((e0 + INR i * de) * (e0 + INR i * de)))); [lra|intros; ring].
Qed.
Theorem dos_short : forall e0 de ne Z,
  0 < de -> 0 <= e0 -> ne = List.length Z -> (2 <= ne < 20)%nat -> new_dos e0 de ne Z = Err UndefinedBehaviour.
Proof.
  intros e0 de ne Z D E N L. unfold new_dos. destruct ne as [|m]; [lia|]. rewrite pred_S.
  assert (P : 1 <= INR m) by (apply (le_INR 1); lia).
  rewrite (proj2 (Rltb_t _ _)) by nra. cbn [negb]. rewrite (proj2 (Nat.eqb_eq _ _) N). cbn [negb].
  rewrite (proj2 (Nat.ltb_ge _ _)) by lia. rewrite (proj2 (Rltb_f _ _)) by lra. rewrite (proj2 (Rltb_f _ _)) by lra.
  rewrite (proj2 (Nat.ltb_lt (List.length Z) 20)) by lia. destruct (Reqb _ _); [reflexivity|].
  unfold compute_sod. rewrite map_length, (proj2 (Nat.ltb_lt _ _)) by lia. reflexivity.
Qed.
Theorem dos_scale : forall k e0 de ne Z, k <> 0 -> new_dos e0 de ne (map (Rmult k) Z) = new_dos e0 de ne Z.
Proof.
  intros k e0 de ne Z K. unfold new_dos. rewrite map_length, !fold_total.
  replace (total (map (Rmult k) Z)) with (k * total Z) by (symmetry; apply total_scale). rewrite !Rplus_0_l.
  replace (Reqb (k * total Z * de) 0) with (Reqb (total Z * de) 0).
  - destruct (Reqb (total Z * de) 0) eqn:T; [reflexivity|]. apply Reqb_f in T.
    rewrite map_map. rewrite (map_ext (fun x => k * x / (k * total Z * de)) (fun z => z / (total Z * de))); [reflexivity|].
    intros z. field. repeat split; try exact K; intros E; apply T; rewrite E; ring.
  - destruct (Reqb (total Z * de) 0) eqn:T; symmetry.
    + apply Reqb_t. apply Reqb_t in T. rewrite Rmult_assoc, T. ring.
    + apply Reqb_f. apply Reqb_f in T. rewrite Rmult_assoc. apply Rmult_integral_contrapositive. split; assumption.
Qed.

(** the values *)
Section Made.
Variables (e0 de : R) (ne : nat) (Z : list R) (d : dos).
Hypothesis H : new_dos e0 de ne Z = Ok (Some d).
Lemma made_facts : 0 < de /\ 0 <= e0 /\ ne = List.length Z /\ (20 <= ne)%nat /\ total Z <> 0 /\ exists c, d = mkDos e0 de ne (normal de Z) c.
Proof. apply (proj1 (dos_made_char _ _ _ _ _)) in H. destruct H as (A & B & C & D & E & _ & c & _ & F). repeat (split; [assumption|]). eauto. Qed.
Lemma emax_at : d_emax d = e0 + INR (ne - 1) * de.
Proof. destruct made_facts as (D & E & N & L & T & c & ->). unfold d_emax. cbn [d_e0 d_de d_n]. destruct ne as [|m]; [lia|]. rewrite pred_S. replace (S m - 1)%nat with m by lia. ring. Qed.
Theorem dos_value : forall i t, (S i < ne)%nat -> 0 <= t < 1 ->
  dos_at d (e0 + (INR i + t) * de) = Ok (mix t (nth i Z 0) (nth (S i) Z 0) / (de * total Z)).
Proof.
  intros i t I T. pose proof emax_at as EM. destruct made_facts as (D & E & N & L & TZ & c & F). pose proof (pos_INR i) as PI'.
  assert (B : INR i + 1 <= INR (ne - 1)) by (rewrite <- S_INR; apply le_INR; lia).
  unfold dos_at. rewrite EM, F. cbn [d_e0 d_de d_n d_Z].
  rewrite (proj2 (Rltb_f _ e0)) by nra. rewrite (proj2 (Rltb_f _ _)) by nra. cbn [orb]. rewrite (proj2 (Rleb_false _ _)) by nra. 
  replace (e0 + (INR i + t) * de) with (tick (a_start (mkAxis e0 de (ne - 1))) (a_step (mkAxis e0 de (ne - 1))) i + t * a_step (mkAxis e0 de (ne - 1))) by (unfold tick; cbn [a_start a_step]; ring).
  rewrite line_interpolates; cbn [a_step a_n]; [|lra|unfold normal; rewrite map_length; lia|lia|exact T].
  unfold normal. rewrite !nth_div. f_equal. unfold mix. field. split; [exact TZ|lra].
Qed.
Theorem dos_outside : forall e, e < e0 \/ e0 + INR (ne - 1) * de <= e -> dos_at d e = Ok 0.
Proof.
  intros e O. pose proof emax_at as EM. destruct made_facts as (D & E & N & L & TZ & c & F). unfold dos_at. rewrite EM, F. cbn [d_e0].
  destruct O as [O|O].
  - rewrite (proj2 (Rltb_t _ _) O). reflexivity.
  - destruct (Rltb e e0 || Rltb (e0 + INR (ne - 1) * de) e)%bool; [reflexivity|]. rewrite (proj2 (Rleb_true _ _) O). destruct (Rltb e e0); reflexivity.
Qed.
(** an energy inside is in one of the cells *)
Lemma in_cell : forall e, e0 <= e < e0 + INR (ne - 1) * de -> exists i t, (S i < ne)%nat /\ 0 <= t < 1 /\ e = e0 + (INR i + t) * de.
Proof.
  intros e O. destruct made_facts as (D & E & N & L & TZ & c & F).
  assert (S0 : a_step (mkAxis e0 de (ne - 1)) <> 0) by (cbn; lra).
  assert (R0 : 0 <= (e - a_start (mkAxis e0 de (ne - 1))) / a_step (mkAxis e0 de (ne - 1)) < INR (a_n (mkAxis e0 de (ne - 1)))).
  { cbn [a_start a_step a_n]. split; [apply Rmult_le_pos; [lra|left; now apply Rinv_0_lt_compat]|].
    apply Rmult_lt_reg_r with de; [exact D|]. replace ((e - e0) / de * de) with (e - e0) by (field; lra). lra. }
  destruct (placed _ e S0 R0) as (i & t & I & T & X & _). cbn [a_start a_step a_n] in *.
  exists i, t. split; [lia|]. split; [exact T|]. unfold tick in X. lra.
Qed.
Theorem dos_total : forall e, exists v, dos_at d e = Ok v /\ (Forall (fun z => 0 <= z) Z -> 0 <= v).
Proof.
  intros e. destruct (Rlt_dec e e0) as [A|A]; [exists 0; split; [now apply dos_outside; left|lra]|].
  destruct (Rle_dec (e0 + INR (ne - 1) * de) e) as [B|B]; [exists 0; split; [now apply dos_outside; right|lra]|].
  destruct (in_cell e) as (i & t & I & T & ->); [lra|]. eexists. split; [now apply dos_value|].
  intros P. destruct made_facts as (D & E & N & L & TZ & c & F).
  assert (0 < total Z) by (pose proof (total_nonneg Z P); lra).
  assert (Q : forall j, (j < ne)%nat -> 0 <= nth j Z 0) by (intros j J; rewrite Forall_forall in P; apply P, nth_In; lia).
  pose proof (Q i ltac:(lia)). pose proof (Q (S i) ltac:(lia)).
  apply Rmult_le_pos; [unfold mix; nra|]. left. apply Rinv_0_lt_compat. nra.
Qed.
(** the integral: one cell, the first cells, all *)
Lemma cell_int : forall i, (S i < ne)%nat ->
  is_RInt (fun e => number (dos_at d e)) (e0 + INR i * de) (e0 + INR (S i) * de) ((nth i Z 0 + nth (S i) Z 0) / 2 / total Z).
Proof.
  intros i I. destruct made_facts as (D & E & N & L & TZ & c & F). set (a := nth i Z 0). set (b := nth (S i) Z 0).
  set (p := fun e => (a + (e - (e0 + INR i * de)) / de * (b - a)) / (de * total Z)).
  apply (is_RInt_ext p).
  - intros e B. rewrite Rmin_left, Rmax_right in B by (rewrite S_INR; lra). rewrite S_INR in B.
    set (t := (e - (e0 + INR i * de)) / de).
    assert (T : 0 <= t < 1).
    { unfold t. split; [apply Rmult_le_pos; [lra|left; now apply Rinv_0_lt_compat]|]. apply Rmult_lt_reg_r with de; [exact D|].
      replace ((e - (e0 + INR i * de)) / de * de) with (e - (e0 + INR i * de)) by (field; lra). lra. }
    replace e with (e0 + (INR i + t) * de) at 2 by (unfold t; field; lra). rewrite dos_value by assumption. cbn [number].
    unfold p. fold a b t. f_equal. unfold mix. ring.
  - set (G := fun e => (a * e + (e - (e0 + INR i * de)) * (e - (e0 + INR i * de)) / (2 * de) * (b - a)) / (de * total Z)).
    replace ((a + b) / 2 / total Z) with (G (e0 + INR (S i) * de) - G (e0 + INR i * de)).
    2:{ unfold G. rewrite S_INR. field. split; [exact TZ|lra]. }
    apply (@is_RInt_derive R_CompleteNormedModule).
    + intros x _. unfold G, p. auto_derive; [exact Logic.I|]. field. repeat split; lra || exact TZ.
    + intros x _. unfold p. apply (@ex_derive_continuous R_AbsRing R_NormedModule). auto_derive. exact Logic.I.
Qed.
Lemma cells_int : forall m, (m < ne)%nat ->
  is_RInt (fun e => number (dos_at d e)) e0 (e0 + INR m * de) (loop_sum (fun i => (nth i Z 0 + nth (S i) Z 0) / 2 / total Z) m).
Proof.
  induction m as [|m IH]; intros M.
  - cbn [INR loop_sum]. rewrite Rmult_0_l, Rplus_0_r. apply (@is_RInt_point R_NormedModule).
  - cbn [loop_sum]. apply (@is_RInt_Chasles R_NormedModule _ _ (e0 + INR m * de)); [apply IH; lia|apply cell_int; lia].
Qed.
Lemma ends_sum : forall m, (m < List.length Z)%nat ->
  loop_sum (fun i => (nth i Z 0 + nth (S i) Z 0) / 2) m = loop_sum (fun i => nth i Z 0) (S m) - (nth 0 Z 0 + nth m Z 0) / 2.
Proof.
  induction m as [|m IH]; intros M; [cbn; lra|]. cbn [loop_sum] in *. rewrite IH by lia. lra.
Qed.
Lemma total_nth : forall l, loop_sum (fun i => nth i l 0) (List.length l) = total l.
Proof.
  intros l. rewrite loop_total. f_equal. induction l as [|x l IH]; [reflexivity|]. cbn [List.length seq map]. f_equal.
  rewrite <- seq_shift, map_map. rewrite <- IH at 2. apply map_ext. reflexivity.
Qed.
Theorem dos_integral :
  is_RInt (fun e => number (dos_at d e)) e0 (e0 + INR (ne - 1) * de) (1 - (nth 0 Z 0 + nth (ne - 1) Z 0) / (2 * total Z)).
Proof.
  destruct made_facts as (D & E & N & L & TZ & c & F).
  replace (1 - (nth 0 Z 0 + nth (ne - 1) Z 0) / (2 * total Z)) with (loop_sum (fun i => (nth i Z 0 + nth (S i) Z 0) / 2 / total Z) (ne - 1)); [apply cells_int; lia|].
  rewrite (sum_ext _ (fun i => / total Z * ((nth i Z 0 + nth (S i) Z 0) / 2))) by (intros; unfold Rdiv; ring).
  rewrite sum_scale, ends_sum by lia. replace (S (ne - 1)) with (List.length Z) by lia. rewrite total_nth. field. exact TZ.
Qed.
Theorem dos_sod : best_parabola (d_sod d) (first_points e0 de (map (fun z => z / (de * total Z)) Z)).
Proof. apply (proj1 (dos_made_char _ _ _ _ _)) in H. destruct H as (_ & _ & _ & _ & _ & _ & c & B & ->). exact B. Qed.
End Made.
Lemma zero_int a b : is_RInt (fun _ : R => 0) a b 0.
Proof. assert (C : is_RInt (fun _ : R => 0) a b ((b - a) * 0)) by exact (@is_RInt_const R_NormedModule a b 0). rewrite Rmult_0_r in C. exact C. Qed.
(** the axes of several integrals: outside the range nothing is added *)
Theorem dos_integral_all : forall e0 de ne Z d a b,
  new_dos e0 de ne Z = Ok (Some d) -> a <= e0 -> e0 + INR (ne - 1) * de <= b ->
  is_RInt (fun e => number (dos_at d e)) a b (1 - (nth 0 Z 0 + nth (ne - 1) Z 0) / (2 * total Z)).
Proof.
  intros e0 de ne Z d a b H A B. destruct (made_facts _ _ _ _ _ H) as (D & E & N & L & TZ & c & F).
  assert (ZA : is_RInt (fun e => number (dos_at d e)) a e0 0).
  { apply (is_RInt_ext (fun _ => 0)).
    - intros x X. rewrite Rmin_left, Rmax_right in X by lra. rewrite (dos_outside _ _ _ _ _ H) by (left; lra). reflexivity.
    - apply zero_int. }
  assert (ZB : is_RInt (fun e => number (dos_at d e)) (e0 + INR (ne - 1) * de) b 0).
  { apply (is_RInt_ext (fun _ => 0)).
    - intros x X. rewrite Rmin_left, Rmax_right in X by lra. rewrite (dos_outside _ _ _ _ _ H) by (right; lra). reflexivity.
    - apply zero_int. }
  pose proof (@is_RInt_Chasles R_NormedModule _ _ _ _ _ _ (@is_RInt_Chasles R_NormedModule _ _ _ _ _ _ ZA (dos_integral _ _ _ _ _ H)) ZB) as C.
  set (v := 1 - _) in *. replace v with (plus (plus 0 v) 0); [exact C|]. change (0 + v + 0 = v). ring.
Qed.

(** exact for a parabola *)
Theorem dos_parabola : forall e0 de ne Z d A,
  new_dos e0 de ne Z = Ok (Some d) ->
  (forall i, (i < 20)%nat -> nth i Z 0 = A * ((e0 + INR i * de) * (e0 + INR i * de))) ->
  d_sod d = A / (de * total Z).
Proof.
  intros e0 de ne Z d A H P. pose proof (dos_sod _ _ _ _ _ H) as B. destruct (made_facts _ _ _ _ _ H) as (D & E & N & L & TZ & c & F).
  set (a := A / (de * total Z)). specialize (B a). rewrite !residual_sum in B.
  set (x := fun i => (e0 + INR i * de) * (e0 + INR i * de)).
  assert (K : forall q, loop_sum (fun i => (nth i (map (fun z => z / (de * total Z)) Z) 0 - q * ((e0 + INR i * de) * (e0 + INR i * de))) * (nth i (map (fun z => z / (de * total Z)) Z) 0 - q * ((e0 + INR i * de) * (e0 + INR i * de)))) 20
    = (a - q) * (a - q) * loop_sum (fun i => x i * x i) 20).
  { intros q. rewrite <- sum_scale. apply sum_ext. intros i I. rewrite nth_div, P by exact I. unfold a, x. field. split; [exact TZ|lra]. }
  rewrite !K in B. pose proof (xx_pos e0 de D E) as XP. fold x in XP. change (0 < loop_sum (fun i => x i * x i) 20) in XP.
  set (s := loop_sum (fun i => x i * x i) 20) in *. pose proof (Rle_0_sqr (a - d_sod d)) as Q. unfold Rsqr in Q.
  assert (Z0 : (a - d_sod d) * (a - d_sod d) = 0) by nra. apply Rsqr_0_uniq in Z0. lra.
Qed.

(** the python entry *)
Theorem histogram_even : forall e0 de energies I,
  evenly e0 de energies -> (2 <= List.length energies)%nat -> List.length I = List.length energies ->
  dos_fromhistogram energies I = new_dos e0 de (List.length I) I.
Proof.
  intros e0 de energies I V L N. destruct energies as [|a [|b l]]; [cbn in L; lia|cbn in L; lia|].
  pose proof (V 0%nat ltac:(lia)) as A. pose proof (V 1%nat ltac:(cbn; lia)) as B. cbn [nth INR] in A, B. subst a b.
  unfold dos_fromhistogram. rewrite <- N, firstn_all. rewrite (proj2 (Nat.ltb_ge _ _)) by lia.
  replace (e0 + 1 * de - (e0 + 0 * de)) with de by ring. replace (e0 + 0 * de) with e0 by ring. reflexivity.
Qed.
(** only the first two energies count *)
Theorem histogram_two : forall a b l l' I, List.length l = List.length l' ->
  dos_fromhistogram (a :: b :: l) I = dos_fromhistogram (a :: b :: l') I.
Proof. intros a b l l' I L. unfold dos_fromhistogram. cbn [List.length]. rewrite L. reflexivity. Qed.
