(** Proofs about the monitors: each of them. *)
From Coq Require Import Reals List Lra Lia ZArith.
From Verif Require Import Base RotModel ChanModel ShapeModel ChanProofs GridProofs KxmlProofs OptModel OptSpec OptProofs BmonModel BmonSpec BmonProofs.
Import ListNotations.
Open Scope R_scope.

Definition opened (o : opening) : Prop := xmin o < xmax o /\ ymin o < ymax o.
Lemma area_init_spec e x0 x1 y0 y1 w h o : area_init e x0 x1 y0 y1 w h = Ok o ->
  opened o /\ (0 < w -> xmin o = - (w / 2) /\ xmax o = w / 2) /\ (w <= 0 -> xmin o = x0 /\ xmax o = x1) /\
  (0 < h -> ymin o = - (h / 2) /\ ymax o = h / 2) /\ (h <= 0 -> ymin o = y0 /\ ymax o = y1).
Proof.
  unfold area_init, opened. destruct (Rltb 0 w) eqn:W; [apply Rltb_t in W|apply Rltb_f in W];
  (destruct (Rltb 0 h) eqn:HH; [apply Rltb_t in HH|apply Rltb_f in HH]);
  (match goal with |- (if (?a || ?b)%bool then _ else _) = _ -> _ => destruct a eqn:A; [discriminate|]; destruct b eqn:B; [discriminate|] end);
  apply Rleb_false in A; apply Rleb_false in B; intros [= <-]; cbn; repeat split; intros; lra.
Qed.
Lemma area_init_err e x0 x1 y0 y1 w h e' : area_init e x0 x1 y0 y1 w h = Err e' -> e' = e /\ (w <= 0 /\ x1 <= x0 \/ h <= 0 /\ y1 <= y0).
Proof.
  unfold area_init. destruct (Rltb 0 w) eqn:W; [apply Rltb_t in W|apply Rltb_f in W];
  (destruct (Rltb 0 h) eqn:HH; [apply Rltb_t in HH|apply Rltb_f in HH]);
  (match goal with |- (if (?a || ?b)%bool then _ else _) = _ -> _ => destruct a eqn:A; [apply Rleb_true in A|apply Rleb_false in A; destruct b eqn:B; [apply Rleb_true in B|discriminate]] end);
  intros [= <-]; split; try reflexivity; lra.
Qed.

Lemma range_nat i n : (0 <= i < n)%Z -> exists k, i = Z.of_nat k /\ (k < Z.to_nat n)%nat.
Proof. intros H. exists (Z.to_nat i). split; lia. Qed.
Ltac fields r G := let V := fresh "V" in let P := fresh "P" in let T := fresh "T" in let X := fresh "X" in
  destruct (z0_fields r G) as (V & P & T & X).

(* monitors with a window: a value a r, counted when it is in the window *)
Section Window.
Variables (o : opening) (n : Z) (lo hi : R) (a : ray -> R).
Hypothesis npos : (0 < n)%Z.
Hypothesis window : lo < hi.
Definition W (k : nat) (r : ray) : Prop := through o r /\ in_bin lo hi n k (a r).
Lemma W_one r k k' : W k r -> W k' r -> k = k'.
Proof. intros [_ H] [_ H']. exact (in_bin_one _ _ _ _ _ _ window npos H H'). Qed.
Lemma W_not i r : i = floorZ ((a r - lo) * IZR n / (hi - lo)) -> ((0 <=? i) && (i <? n))%Z%bool = false -> forall k, (k < Z.to_nat n)%nat -> ~ W k r.
Proof.
  intros -> F k K [_ H]. apply (in_bin_floor _ _ _ _ _ window npos) in H. rewrite H in F.
  destruct (Z.leb_spec 0 (Z.of_nat k)); [|lia]. destruct (Z.ltb_spec (Z.of_nat k) n); [discriminate|lia].
Qed.
End Window.

Lemma e_step o n lo hi : (0 < n)%Z -> lo < hi ->
  step_ok (e_trace None o n lo hi) e_cells (Z.to_nat n) (W o n lo hi neutron_energy) moving.
Proof.
  intros N L m r m' r' G LEN H. unfold e_trace in H. fields r G. set (q := prop_z0 None r) in *.
  assert (A := area_through o r G). fold q in A. destruct (in_area o q) eqn:E.
  - cbv zeta in H. cbn [e_cells S_p S_pE S_pE2] in H. destruct (bin _ _ _ _) as [i|e] eqn:Bi; cbn [bind] in H; [|discriminate].
    apply (bin_val _ _ _ _ _ L) in Bi. rewrite (v2_speed r q V) in Bi.
    change (VS2E * speed r ^ 2) with (neutron_energy r) in Bi.
    destruct ((0 <=? i) && (i <? n))%Z%bool eqn:F.
    + destruct (tally _ _ _) as [h|e] eqn:Ta; cbn [bind] in H; [|discriminate]. injection H as <- <-. split; [reflexivity|]. left.
      destruct (tally_ok _ _ _ _ Ta) as (k & -> & K & ->). exists k. rewrite LEN in K. split; [exact K|]. split; [|cbn [e_cells]; now rewrite P].
      split; [apply A; reflexivity|]. apply in_bin_floor; auto.
    + injection H as <- <-. split; [reflexivity|]. right. split; [reflexivity|]. eapply W_not; eassumption.
  - injection H as <- <-. split; [reflexivity|]. right. split; [reflexivity|]. intros k _ [T' _]. apply A in T'. discriminate.
Qed.
Lemma l_value r q : moving r -> r_vel q = r_vel r -> quot (2 * PI / V2K) (sqrt (v2 q)) = Ok (wavelength r).
Proof.
  intros G V. rewrite (v2_speed r q V). pose proof (speed_pos r G) as S. replace (sqrt (speed r ^ 2)) with (speed r) by (symmetry; apply sqrt_pow2; lra).
  unfold quot. assert (Z : speed r <> 0) by lra. rewrite (proj2 (Reqb_f _ _) Z). f_equal. unfold wavelength, V2K. field. exact Z.
Qed.
Lemma l_step o n lo hi : (0 < n)%Z -> lo < hi ->
  step_ok (l_trace None o n lo hi) (fun h => h) (Z.to_nat n) (W o n lo hi wavelength) moving.
Proof.
  intros N L h r h' r' G LEN H. unfold l_trace in H. fields r G. set (q := prop_z0 None r) in *.
  assert (A := area_through o r G). fold q in A. destruct (in_area o q) eqn:E.
  - rewrite (l_value r q G V) in H. cbn [bind] in H. destruct (bin _ _ _ _) as [i|e] eqn:Bi; cbn [bind] in H; [|discriminate].
    apply (bin_val _ _ _ _ _ L) in Bi.
    destruct ((0 <=? i) && (i <? n))%Z%bool eqn:F.
    + destruct (tally _ _ _) as [h1|e] eqn:Ta; cbn [bind] in H; [|discriminate]. injection H as <- <-. split; [reflexivity|]. left.
      destruct (tally_ok _ _ _ _ Ta) as (k & -> & K & ->). exists k. rewrite LEN in K. split; [exact K|]. split; [|now rewrite P].
      split; [apply A; reflexivity|]. apply in_bin_floor; auto.
    + injection H as <- <-. split; [reflexivity|]. right. split; [reflexivity|]. eapply W_not; eassumption.
  - injection H as <- <-. split; [reflexivity|]. right. split; [reflexivity|]. intros k _ [T' _]. apply A in T'. discriminate.
Qed.

(* time *)
Definition Tb (o : opening) (n : Z) (lo step unit : R) (k : nat) (r : ray) : Prop :=
  through o r /\ exists t, arrives r t /\ in_bin_or_end lo step n k (unit * t).
Lemma end_floor lo step n k a : 0 < step -> (0 < n)%Z -> (Z.of_nat k < n)%Z ->
  (in_bin_or_end lo step n k a <-> Z.max 0 (Z.min (n - 1) (floorZ ((a - lo) / step))) = Z.of_nat k).
Proof.
  intros S N K. set (q := (a - lo) / step). assert (E : a = lo + step * q) by (unfold q; field; lra).
  unfold in_bin_or_end. rewrite plus_INR. change (INR 1) with 1. rewrite INR_IZR_INZ. rewrite E. clear E. clearbody q.
  destruct (floor_bounds q) as [F1 F2]. set (f := floorZ q) in *. clearbody f.
  assert (A : lo + step * IZR (Z.of_nat k) <= lo + step * q <-> (Z.of_nat k <= f)%Z).
  { split; intros H.
    - assert (IZR (Z.of_nat k) <= q) by (apply (Rmult_le_reg_l step); lra). assert (Z.of_nat k < f + 1)%Z; [|lia]. apply lt_IZR. rewrite plus_IZR. lra.
    - apply IZR_le in H. apply Rplus_le_compat_l, Rmult_le_compat_l; lra. }
  assert (B : lo + step * q < lo + step * (IZR (Z.of_nat k) + 1) <-> (f <= Z.of_nat k)%Z).
  { split; intros H.
    - assert (q < IZR (Z.of_nat k) + 1) by (apply (Rmult_lt_reg_l step); lra). assert (f < Z.of_nat k + 1)%Z; [|lia]. apply lt_IZR. rewrite plus_IZR. lra.
    - apply IZR_le in H. apply Rplus_lt_compat_l, Rmult_lt_compat_l; lra. }
  rewrite A, B. clear A B F1 F2. lia.
Qed.
Lemma clamped_val a lo step n i : 0 < step -> clamped a lo step n = Ok i -> (0 < n)%Z -> i = Z.max 0 (Z.min (n - 1) (floorZ ((a - lo) / step))).
Proof.
  intros S. unfold clamped, quot. assert (Z : step <> 0) by lra. rewrite (proj2 (Reqb_f _ _) Z). cbn [bind].
  destruct (cint _) as [j|] eqn:C; cbn [bind]; [|discriminate]. apply cint_int in C. subst j. intros [= <-] N.
  destruct (Z.leb_spec n (floorZ ((a - lo) / step))); destruct (Z.ltb_spec (n - 1) 0); destruct (Z.ltb_spec (floorZ ((a - lo) / step)) 0); lia.
Qed.
Lemma clamped_ok a lo step n : 0 < step -> (0 < n)%Z -> (- 2 ^ 31 <= floorZ ((a - lo) / step) < 2 ^ 31)%Z -> exists i, clamped a lo step n = Ok i /\ (0 <= i < n)%Z.
Proof.
  intros S N H. unfold clamped, quot. assert (Z : step <> 0) by lra. rewrite (proj2 (Reqb_f _ _) Z). cbn [bind]. rewrite (cint_small _ H). cbn [bind].
  eexists. split; [reflexivity|]. destruct (Z.leb_spec n (floorZ ((a - lo) / step))); destruct (Z.ltb_spec (n - 1) 0); destruct (Z.ltb_spec (floorZ ((a - lo) / step)) 0); lia.
Qed.
Lemma Tb_one o n lo step unit : 0 < step -> (0 < n)%Z -> forall r k k', moving r -> (k < Z.to_nat n)%nat -> (k' < Z.to_nat n)%nat ->
  Tb o n lo step unit k r -> Tb o n lo step unit k' r -> k = k'.
Proof.
  intros S N r k k' M K K' (_ & t & A & H) (_ & t' & A' & H'). rewrite <- (arrives_one r t t' M A A') in H'.
  apply end_floor in H; [|assumption|assumption|lia]. apply end_floor in H'; [|assumption|assumption|lia]. lia.
Qed.
Lemma tof_core o n lo step unit (tr : list cell -> ray -> result (list cell * ray)) : 0 < step -> (0 < n)%Z ->
  (forall h r, tr h r = let q := prop_z0 None r in
     if in_area o q then let! i := clamped (unit * r_t q) lo step n in let! h := tally h i (r_p q) in Ok (h, q) else Ok (h, q)) ->
  step_ok tr (fun h => h) (Z.to_nat n) (Tb o n lo step unit) moving.
Proof.
  intros S N D h r h' r' G LEN H. rewrite D in H. cbv zeta in H. fields r G. set (q := prop_z0 None r) in *.
  assert (A := area_through o r G). fold q in A. destruct (in_area o q) eqn:E.
  - destruct (clamped _ _ _ _) as [i|e] eqn:C; cbn [bind] in H; [|discriminate]. apply (clamped_val _ _ _ _ _ S) in C; [|exact N].
    destruct (tally _ _ _) as [h1|e] eqn:Ta; cbn [bind] in H; [|discriminate]. injection H as <- <-. split; [reflexivity|]. left.
    destruct (tally_ok _ _ _ _ Ta) as (k & -> & K & ->). exists k. rewrite LEN in K. split; [exact K|]. split; [|now rewrite P].
    split; [apply A; reflexivity|]. exists (r_t q). split; [exact T|]. apply end_floor; [exact S|exact N|lia|auto].
  - injection H as <- <-. split; [reflexivity|]. right. split; [reflexivity|]. intros k _ [T' _]. apply A in T'. discriminate.
Qed.
Lemma tof_step o n lo step : 0 < step -> (0 < n)%Z -> step_ok (tof_trace None o n lo step) (fun h => h) (Z.to_nat n) (Tb o n lo step 1000000) moving.
Proof. intros S N. apply tof_core; [exact S|exact N|reflexivity]. Qed.
Lemma tof2_step o n lo hi : lo < hi -> (0 < n)%Z -> step_ok (tof2_trace None o n lo hi) (fun h => h) (Z.to_nat n) (Tb o n lo ((hi - lo) / IZR n) 1) moving.
Proof.
  intros S N. apply tof_core; [apply Rdiv_lt_0_compat; [lra|apply IZR_lt, N]|exact N|].
  intros h r. unfold tof2_trace. cbv zeta. now rewrite Rmult_1_l.
Qed.

(* positions *)
Definition Xb (o : opening) (n : Z) (k : nat) (r : ray) : Prop := through o r /\ exists x y, meets r x y /\ in_bin (xmin o) (xmax o) n k x.
Definition XYb (o : opening) (nx ny : Z) (k : nat) (r : ray) : Prop :=
  through o r /\ exists x y i j, meets r x y /\ in_bin (xmin o) (xmax o) nx i x /\ in_bin (ymin o) (ymax o) ny j y /\
    (i < Z.to_nat nx)%nat /\ (j < Z.to_nat ny)%nat /\ k = (j + i * Z.to_nat ny)%nat.
Definition XEb (o : opening) (nx nE : Z) (lo hi : R) (k : nat) (r : ray) : Prop :=
  through o r /\ exists x y i j, meets r x y /\ in_bin (xmin o) (xmax o) nx i x /\ in_bin lo hi nE j (neutron_energy r) /\ lo < neutron_energy r /\
    (i < Z.to_nat nx)%nat /\ (j < Z.to_nat nE)%nat /\ k = (j + i * Z.to_nat nE)%nat.
Lemma Xb_one o n : opened o -> (0 < n)%Z -> forall r k k', moving r -> Xb o n k r -> Xb o n k' r -> k = k'.
Proof.
  intros [O _] N r k k' M (_ & x & y & E & H) (_ & x' & y' & E' & H'). destruct (meets_one r _ _ _ _ M E E') as [-> _].
  exact (in_bin_one _ _ _ _ _ _ O N H H').
Qed.
Lemma XYb_one o nx ny : opened o -> (0 < nx)%Z -> (0 < ny)%Z -> forall r k k', moving r -> XYb o nx ny k r -> XYb o nx ny k' r -> k = k'.
Proof.
  intros [O O'] N N' r k k' M (_ & x & y & i & j & E & H1 & H2 & _ & _ & ->) (_ & x' & y' & i' & j' & E' & H1' & H2' & _ & _ & ->).
  destruct (meets_one r _ _ _ _ M E E') as [-> ->]. rewrite (in_bin_one _ _ _ _ _ _ O N H1 H1'), (in_bin_one _ _ _ _ _ _ O' N' H2 H2'). reflexivity.
Qed.
Lemma XEb_one o nx nE lo hi : opened o -> lo < hi -> (0 < nx)%Z -> (0 < nE)%Z -> forall r k k', moving r -> XEb o nx nE lo hi k r -> XEb o nx nE lo hi k' r -> k = k'.
Proof.
  intros [O O'] L N N' r k k' M (_ & x & y & i & j & E & H1 & H2 & _ & _ & _ & ->) (_ & x' & y' & i' & j' & E' & H1' & H2' & _ & _ & _ & ->).
  destruct (meets_one r _ _ _ _ M E E') as [-> ->]. rewrite (in_bin_one _ _ _ _ _ _ O N H1 H1'), (in_bin_one _ _ _ _ _ _ L N' H2 H2'). reflexivity.
Qed.
Lemma inside_bin a lo hi n : lo < a < hi -> (0 < n < 2 ^ 31)%Z -> exists k, (k < Z.to_nat n)%nat /\ bin a lo hi (IZR n) = Ok (Z.of_nat k) /\ in_bin lo hi n k a.
Proof.
  intros H [N M]. assert (L : lo < hi) by lra. pose proof (inside_range a lo hi n H N) as R. destruct (range_nat _ _ R) as (k & K & KN). exists k. split; [exact KN|].
  split; [rewrite <- K; apply bin_ok; [exact L|lia]|apply in_bin_floor; [exact L|exact N|exact K]].
Qed.
Lemma flat i j nx ny : (i < nx)%nat -> (j < ny)%nat -> (j + i * ny < nx * ny)%nat. Proof. nia. Qed.

(* one step of the position monitors always succeeds *)
Lemma psdlin_one o n h r : (0 < n < 2 ^ 31)%Z -> moving r -> List.length h = Z.to_nat n ->
  (~ through o r /\ psdlin_trace None o n h r = Ok (h, prop_z0 None r)) \/
  exists k, (k < Z.to_nat n)%nat /\ Xb o n k r /\ psdlin_trace None o n h r = Ok (add_at h k (r_p r), prop_z0 None r).
Proof.
  intros N G LEN. unfold psdlin_trace. fields r G. set (q := prop_z0 None r) in *. assert (A := area_through o r G). fold q in A.
  destruct (in_area o q) eqn:E.
  - right. pose proof (proj1 (in_area_iff o q) E) as [I1 I2]. destruct (inside_bin _ _ _ n I1 N) as (k & K & Bk & Ik). exists k. split; [exact K|]. split.
    { split; [apply A; reflexivity|]. eexists _, _. split; [exact X|exact Ik]. }
    rewrite Bk. cbn [bind]. destruct (Z.leb_spec n (Z.of_nat k)); [lia|]. destruct (Z.ltb_spec (Z.of_nat k) 0); [lia|]. cbn [orb].
    rewrite tally_in by lia. cbn [bind]. now rewrite P.
  - left. split; [|reflexivity]. intros T'. apply A in T'. discriminate.
Qed.
Lemma psd_one o nx ny h r : (0 < nx < 2 ^ 31)%Z -> (0 < ny < 2 ^ 31)%Z -> moving r -> List.length h = (Z.to_nat nx * Z.to_nat ny)%nat ->
  (~ through o r /\ psd_trace None o nx ny h r = Ok (h, prop_z0 None r)) \/
  exists k, (k < Z.to_nat nx * Z.to_nat ny)%nat /\ XYb o nx ny k r /\ psd_trace None o nx ny h r = Ok (add_at h k (r_p r), prop_z0 None r).
Proof.
  intros N N' G LEN. unfold psd_trace. fields r G. set (q := prop_z0 None r) in *. assert (A := area_through o r G). fold q in A.
  destruct (in_area o q) eqn:E.
  - right. pose proof (proj1 (in_area_iff o q) E) as [I1 I2]. destruct (inside_bin _ _ _ nx I1 N) as (i & K & Bk & Ik).
    destruct (inside_bin _ _ _ ny I2 N') as (j & K' & Bk' & Ik'). exists (j + i * Z.to_nat ny)%nat. pose proof (flat _ _ _ _ K K') as F. split; [exact F|]. split.
    { split; [apply A; reflexivity|]. eexists _, _, i, j. repeat split; try eassumption; try apply Ik; try apply Ik'. }
    rewrite Bk. cbn [bind]. rewrite Bk'. cbn [bind].
    replace (Z.of_nat j + Z.of_nat i * ny)%Z with (Z.of_nat (j + i * Z.to_nat ny)) by (rewrite Nat2Z.inj_add, Nat2Z.inj_mul, Z2Nat.id by lia; reflexivity).
    rewrite tally_in by lia. cbn [bind]. now rewrite P.
  - left. split; [|reflexivity]. intros T'. apply A in T'. discriminate.
Qed.
Lemma epsd_one o nx nE lo hi h r : (0 < nx < 2 ^ 31)%Z -> (0 < nE < 2 ^ 31)%Z -> moving r -> List.length h = (Z.to_nat nx * Z.to_nat nE)%nat ->
  (~ (through o r /\ lo < neutron_energy r < hi) /\ epsd_trace None o nx nE lo hi h r = Ok (h, prop_z0 None r)) \/
  exists k, (k < Z.to_nat nx * Z.to_nat nE)%nat /\ XEb o nx nE lo hi k r /\ epsd_trace None o nx nE lo hi h r = Ok (add_at h k (r_p r), prop_z0 None r).
Proof.
  intros N N' G LEN. unfold epsd_trace. fields r G. set (q := prop_z0 None r) in *. assert (A := area_through o r G). fold q in A.
  cbv zeta. rewrite (v2_speed r q V). change (VS2E * speed r ^ 2) with (neutron_energy r).
  destruct (in_area o q) eqn:E; cbn [andb].
  - destruct (Rltb lo (neutron_energy r)) eqn:E1; cbn [andb]; [apply Rltb_t in E1|apply Rltb_f in E1; left; split; [lra|reflexivity]].
    destruct (Rltb (neutron_energy r) hi) eqn:E2; [apply Rltb_t in E2|apply Rltb_f in E2; left; split; [lra|reflexivity]].
    right. pose proof (proj1 (in_area_iff o q) E) as [I1 I2]. destruct (inside_bin _ _ _ nx I1 N) as (i & K & Bk & Ik).
    destruct (inside_bin _ _ _ nE (conj E1 E2) N') as (j & K' & Bk' & Ik'). exists (j + i * Z.to_nat nE)%nat. pose proof (flat _ _ _ _ K K') as F. split; [exact F|]. split.
    { split; [apply A; reflexivity|]. eexists _, _, i, j. repeat split; try eassumption; try apply Ik; try apply Ik'. }
    rewrite Bk. cbn [bind]. rewrite Bk'. cbn [bind].
    replace (Z.of_nat j + Z.of_nat i * nE)%Z with (Z.of_nat (j + i * Z.to_nat nE)) by (rewrite Nat2Z.inj_add, Nat2Z.inj_mul, Z2Nat.id by lia; reflexivity).
    rewrite tally_in by lia. cbn [bind]. now rewrite P.
  - left. split; [|reflexivity]. intros [T' _]. apply A in T'. discriminate.
Qed.
