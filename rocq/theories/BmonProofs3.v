(** Proofs about the monitors: runs of each of them. *)
From Coq Require Import Reals List Lra Lia ZArith.
From Verif Require Import Base RotModel ChanModel ShapeModel ChanProofs GridProofs KxmlProofs OptModel OptSpec OptProofs BmonModel BmonSpec BmonProofs BmonProofs2.
Import ListNotations.
Open Scope R_scope.

Lemma all_at rs : Forall moving rs -> Forall2 at_plane rs (map (prop_z0 None) rs).
Proof. induction 1; cbn; constructor; [apply z0_at; assumption|assumption]. Qed.

Lemma psdlin_step o n : opened o -> (0 < n < 2 ^ 31)%Z -> step_ok (psdlin_trace None o n) (fun h => h) (Z.to_nat n) (Xb o n) moving.
Proof.
  intros O N h r h' r' G LEN H. destruct (psdlin_one o n h r N G LEN) as [[T E]|(k & K & X & E)]; rewrite E in H; injection H as <- <-; (split; [reflexivity|]).
  - right. split; [reflexivity|]. intros k _ [T' _]. exact (T T').
  - left. eauto.
Qed.
Lemma psd_step o nx ny : opened o -> (0 < nx < 2 ^ 31)%Z -> (0 < ny < 2 ^ 31)%Z ->
  step_ok (psd_trace None o nx ny) (fun h => h) (Z.to_nat nx * Z.to_nat ny) (XYb o nx ny) moving.
Proof.
  intros O N N' h r h' r' G LEN H. destruct (psd_one o nx ny h r N N' G LEN) as [[T E]|(k & K & X & E)]; rewrite E in H; injection H as <- <-; (split; [reflexivity|]).
  - right. split; [reflexivity|]. intros k _ [T' _]. exact (T T').
  - left. eauto.
Qed.
Lemma in_bin_below lo hi n k a : lo < hi -> (k < Z.to_nat n)%nat -> in_bin lo hi n k a -> a < hi.
Proof.
  intros L K [_ H]. assert (N : (Z.of_nat (k + 1) <= n)%Z) by lia. apply IZR_le in N. rewrite <- INR_IZR_INZ in N.
  assert (P : 0 < IZR n) by (apply IZR_lt; lia). assert ((hi - lo) * INR (k + 1) / IZR n <= hi - lo); [|lra].
  apply (Rmult_le_reg_r (IZR n)); [exact P|]. unfold Rdiv. rewrite Rmult_assoc, Rinv_l by lra. rewrite Rmult_1_r. apply Rmult_le_compat_l; lra.
Qed.
Lemma epsd_step o nx nE lo hi : opened o -> lo < hi -> (0 < nx < 2 ^ 31)%Z -> (0 < nE < 2 ^ 31)%Z ->
  step_ok (epsd_trace None o nx nE lo hi) (fun h => h) (Z.to_nat nx * Z.to_nat nE) (XEb o nx nE lo hi) moving.
Proof.
  intros O L N N' h r h' r' G LEN H. destruct (epsd_one o nx nE lo hi h r N N' G LEN) as [[T E]|(k & K & X & E)]; rewrite E in H; injection H as <- <-; (split; [reflexivity|]).
  - right. split; [reflexivity|]. intros k _ (T' & x & y & i & j & _ & _ & Ij & Lo & _ & Kj & _). apply T. split; [exact T'|]. split; [exact Lo|].
    exact (in_bin_below _ _ _ _ _ L Kj Ij).
  - left. eauto.
Qed.

Lemma energy_run nchan x0 x1 y0 y1 w ht Emin Emax o m0 rs m rs' :
  e_init nchan x0 x1 y0 y1 w ht = Ok (o, m0) -> Emin < Emax -> Forall (fun r => vz (r_vel r) <> 0) rs ->
  run (e_trace None o nchan Emin Emax) m0 rs = Ok (m, rs') ->
  List.length (e_cells m) = Z.to_nat nchan /\ Forall2 at_plane rs rs' /\
  (forall k, (k < Z.to_nat nchan)%nat -> exists c, nth_error (e_cells m) k = Some c /\
    holds (fun r => through o r /\ in_bin Emin Emax nchan k (neutron_energy r)) rs (c_N c) (c_p c) (c_p2 c)).
Proof.
  unfold e_init. intros I L G H. destruct (Z.leb_spec nchan 0) as [|N]; [discriminate|].
  destruct (area_init _ _ _ _ _ _ _) as [o'|e] eqn:AI; cbn in I; [|discriminate]. injection I as -> <-.
  destruct (run_from_empty (e_trace None o nchan Emin Emax) e_cells (Z.to_nat nchan) (W o nchan Emin Emax neutron_energy) moving
    (e_step o nchan Emin Emax N L) (fun r k k' _ _ _ => W_one o nchan Emin Emax neutron_energy N L r k k') rs (mkE (empty (Z.to_nat nchan)) 0 0 0) m rs' G eq_refl H) as (L1 & -> & C).
  split; [exact L1|]. split; [apply all_at, G|]. exact C.
Qed.

Definition energy_sums (o : opening) (rs : list ray) (a b c : R) : Prop :=
  total (through o) r_p rs a /\ total (through o) (fun r => r_p r * neutron_energy r) rs b /\ total (through o) (fun r => r_p r * neutron_energy r ^ 2) rs c.
Lemma energy_sums_run o n lo hi rs : lo < hi -> Forall moving rs -> forall m m' rs', run (e_trace None o n lo hi) m rs = Ok (m', rs') ->
  energy_sums o rs (S_p m' - S_p m) (S_pE m' - S_pE m) (S_pE2 m' - S_pE2 m).
Proof.
  intros L. induction rs as [|r rs IH]; intros G m m' rs' H; cbn in H.
  - injection H as <- _. repeat split; eapply total_eq; try constructor; ring.
  - destruct (e_trace _ _ _ _ _ _ _) as [[m1 r1]|e] eqn:E; cbn in H; [|discriminate].
    destruct (run _ m1 rs) as [[m2 rs2]|e] eqn:E2; cbn in H; [|discriminate]. injection H as <- _.
    inversion_clear G as [|? ? G1 G2]. destruct (IH G2 m1 m2 rs2 E2) as (A1 & A2 & A3).
    unfold e_trace in E. fields r G1. assert (A := area_through o r G1). set (q := prop_z0 None r) in *. destruct (in_area o q) eqn:IA.
    + assert (TH : through o r) by (apply A; reflexivity).
      assert (S1 : S_p m1 = S_p m + r_p r /\ S_pE m1 = S_pE m + r_p r * neutron_energy r /\ S_pE2 m1 = S_pE2 m + r_p r * neutron_energy r * neutron_energy r).
      { cbv zeta in E. cbn [e_cells S_p S_pE S_pE2] in E. rewrite (v2_speed r q V), P in E. change (VS2E * speed r ^ 2) with (neutron_energy r) in E.
        destruct (bin _ _ _ _) as [i|]; cbn [bind] in E; [|discriminate]. destruct ((0 <=? i) && (i <? n))%Z%bool.
        - destruct (tally _ _ _); cbn [bind] in E; [|discriminate]. injection E as <- _. cbn. auto.
        - injection E as <- _. cbn. auto. }
      destruct S1 as (S1 & S2 & S3). rewrite S1 in A1. rewrite S2 in A2. rewrite S3 in A3.
      repeat split; (eapply total_eq; [apply total_in; [exact TH|eassumption]|cbn; ring]).
    + injection E as <- _. assert (~ through o r) by (rewrite <- A; discriminate). repeat split; apply total_out; assumption.
Qed.

Lemma variance o rs a b c : Forall (fun r => 0 <= r_p r) rs -> energy_sums o rs a b c -> 0 <= a /\ 0 <= c /\ b * b <= a * c.
Proof.
  intros G (A & B & C). revert b c B C. induction A as [|r rs a Pr A IH|r rs a Pr A IH]; intros b c B C.
  - inversion B; subst. inversion C; subst. lra.
  - inversion B as [|? ? b' _ B'|? ? b' N _]; subst; [|contradiction]. inversion C as [|? ? c' _ C'|? ? c' N _]; subst; [|contradiction].
    inversion_clear G as [|? ? G1 G2]. destruct (IH G2 b' c' B' C') as (P1 & P2 & P3).
    set (p := r_p r) in *. set (E := neutron_energy r) in *. clearbody p E.
    assert (0 <= E ^ 2) by apply pow2_ge_0. assert (0 <= p * E ^ 2) by (apply Rmult_le_pos; lra).
    split; [lra|]. split; [lra|].
    assert (Q : 2 * (b' * E) <= a * E ^ 2 + c').
    { assert (K : 0 <= a * (a * E ^ 2 + c' - 2 * (b' * E))).
      { replace (a * (a * E ^ 2 + c' - 2 * (b' * E))) with ((a * E - b') ^ 2 + (a * c' - b' * b')) by ring. pose proof (pow2_ge_0 (a * E - b')). lra. }
      destruct (Rle_lt_or_eq_dec 0 a P1) as [PA|PA].
      - assert (0 <= a * E ^ 2 + c' - 2 * (b' * E)); [|lra]. apply (Rmult_le_reg_l a); lra.
      - rewrite <- PA in *. assert (b' = 0) by nra. subst b'. lra. }
    assert (p * (2 * (b' * E)) <= p * (a * E ^ 2 + c')) by (apply Rmult_le_compat_l; lra). nra.
  - inversion B as [|? ? b' Y B'|? ? b' N B']; subst; [contradiction|]. inversion C as [|? ? c' Y C'|? ? c' N' C']; subst; [contradiction|].
    inversion_clear G as [|? ? G1 G2]. exact (IH G2 b c B' C').
Qed.

Lemma energy_width nchan x0 x1 y0 y1 w ht Emin Emax o m0 rs m rs' :
  e_init nchan x0 x1 y0 y1 w ht = Ok (o, m0) -> Emin < Emax -> Forall (fun r => vz (r_vel r) <> 0) rs ->
  run (e_trace None o nchan Emin Emax) m0 rs = Ok (m, rs') ->
  exists a b c, energy_sums o rs a b c /\ (e_stats m = None <-> a = 0) /\
    (forall mean var, e_stats m = Some (mean, var) -> mean * a = b /\ (var + mean ^ 2) * a = c /\ (Forall (fun r => 0 <= r_p r) rs -> 0 <= var)).
Proof.
  unfold e_init. intros I L G H. destruct (Z.leb_spec nchan 0) as [|N]; [discriminate|].
  destruct (area_init _ _ _ _ _ _ _) as [o'|e] eqn:AI; cbn in I; [|discriminate]. injection I as -> <-.
  pose proof (energy_sums_run o nchan Emin Emax rs L G _ m rs' H) as Su. cbn in Su. rewrite !Rminus_0_r in Su.
  exists (S_p m), (S_pE m), (S_pE2 m). split; [exact Su|]. unfold e_stats. destruct (Reqb (S_p m) 0) eqn:E.
  - apply Reqb_t in E. split; [split; auto|]. discriminate.
  - apply Reqb_f in E. split; [split; [discriminate|contradiction]|]. intros mean var [= <- <-]. split; [field; exact E|]. split; [field; exact E|].
    intros PP. destruct (variance o rs _ _ _ PP Su) as (P1 & P2 & P3). 
    replace (S_pE2 m / S_p m - S_pE m * S_pE m / (S_p m * S_p m)) with ((S_p m * S_pE2 m - S_pE m * S_pE m) * / (S_p m * S_p m)) by (field; exact E).
    apply Rmult_le_pos; [lra|]. apply Rlt_le, Rinv_0_lt_compat. nra.
Qed.

(* no failure when the index fits an int *)
Definition fits (lo hi : R) (n : Z) (a : R) : Prop := - 2 ^ 31 <= (a - lo) * IZR n / (hi - lo) < 2 ^ 31.
Lemma fits_floor x : - 2 ^ 31 <= x < 2 ^ 31 -> (- 2 ^ 31 <= floorZ x < 2 ^ 31)%Z.
Proof.
  intros [A B]. destruct (floor_bounds x) as [F1 F2]. assert (E : 2 ^ 31 = IZR (2 ^ 31)) by (rewrite (pow_IZR 2 31); reflexivity). rewrite E in A, B. split.
  - assert (- 2 ^ 31 < floorZ x + 1)%Z; [|lia]. apply lt_IZR. rewrite plus_IZR, opp_IZR. lra.
  - apply lt_IZR. lra.
Qed.
Lemma energy_runs nchan x0 x1 y0 y1 w ht Emin Emax o m0 rs :
  e_init nchan x0 x1 y0 y1 w ht = Ok (o, m0) -> Emin < Emax ->
  Forall (fun r => vz (r_vel r) <> 0 /\ fits Emin Emax nchan (neutron_energy r)) rs ->
  exists m rs', run (e_trace None o nchan Emin Emax) m0 rs = Ok (m, rs').
Proof.
  unfold e_init. intros I L G. destruct (Z.leb_spec nchan 0) as [|N]; [discriminate|].
  destruct (area_init _ _ _ _ _ _ _) as [o'|e] eqn:AI; cbn in I; [|discriminate]. injection I as -> <-.
  pose (good := fun r => moving r /\ fits Emin Emax nchan (neutron_energy r)).
  assert (ST : step_ok (e_trace None o nchan Emin Emax) e_cells (Z.to_nat nchan) (W o nchan Emin Emax neutron_energy) good).
  { intros a r a' r' [G1 _]. exact (e_step o nchan Emin Emax N L a r a' r' G1). }
  destruct (run_total (e_trace None o nchan Emin Emax) e_cells (Z.to_nat nchan) _ good ST rs) with (a := mkE (empty (Z.to_nat nchan)) 0 0 0) as [[m rs'] E].
  - intros a r [G1 F] LEN. unfold e_trace. fields r G1. set (q := prop_z0 None r) in *. destruct (in_area o q); [|eauto]. cbv zeta. cbn [e_cells S_p S_pE S_pE2].
    rewrite (v2_speed r q V). change (VS2E * speed r ^ 2) with (neutron_energy r). rewrite (bin_ok _ _ _ _ L (fits_floor _ F)). cbn [bind].
    destruct ((0 <=? _) && (_ <? nchan))%Z%bool eqn:R; [|eauto]. apply andb_prop in R. destruct R as [R1 R2]. apply Z.leb_le in R1. apply Z.ltb_lt in R2.
    destruct (range_nat _ _ (conj R1 R2)) as (k & -> & K). rewrite tally_in by lia. cbn. eauto.
  - exact G.
  - apply repeat_length.
  - eauto.
Qed.

Lemma wavelength_run nchan x0 x1 y0 y1 w ht Lmin Lmax o rs h rs' :
  area_init CppException x0 x1 y0 y1 w ht = Ok o -> (0 < nchan)%Z -> Lmin < Lmax -> Forall (fun r => vz (r_vel r) <> 0) rs ->
  run (l_trace None o nchan Lmin Lmax) (empty (Z.to_nat nchan)) rs = Ok (h, rs') ->
  List.length h = Z.to_nat nchan /\ Forall2 at_plane rs rs' /\
  (forall k, (k < Z.to_nat nchan)%nat -> exists c, nth_error h k = Some c /\
    holds (fun r => through o r /\ in_bin Lmin Lmax nchan k (wavelength r)) rs (c_N c) (c_p c) (c_p2 c)).
Proof.
  intros _ N L G H.
  destruct (run_from_empty _ (fun h => h) _ (W o nchan Lmin Lmax wavelength) moving
    (l_step o nchan Lmin Lmax N L) (fun r k k' _ _ _ => W_one o nchan Lmin Lmax wavelength N L r k k') rs (empty (Z.to_nat nchan)) h rs' G eq_refl H) as (L1 & -> & C).
  split; [exact L1|]. split; [apply all_at, G|]. exact C.
Qed.
Lemma time_run nchan o lo step rs h rs' : 0 < step -> (0 < nchan)%Z -> Forall (fun r => vz (r_vel r) <> 0) rs ->
  run (tof_trace None o nchan lo step) (empty (Z.to_nat nchan)) rs = Ok (h, rs') ->
  List.length h = Z.to_nat nchan /\ Forall2 at_plane rs rs' /\
  (forall k, (k < Z.to_nat nchan)%nat -> exists c, nth_error h k = Some c /\
    holds (fun r => through o r /\ exists t, arrives r t /\ in_bin_or_end lo step nchan k (1000000 * t)) rs (c_N c) (c_p c) (c_p2 c)).
Proof.
  intros S N G H.
  destruct (run_from_empty _ (fun h => h) _ (Tb o nchan lo step 1000000) moving
    (tof_step o nchan lo step S N) (Tb_one o nchan lo step 1000000 S N) rs (empty (Z.to_nat nchan)) h rs' G eq_refl H) as (L1 & -> & C).
  split; [exact L1|]. split; [apply all_at, G|]. exact C.
Qed.
Lemma time_run2 nchan o lo hi rs h rs' : lo < hi -> (0 < nchan)%Z -> Forall (fun r => vz (r_vel r) <> 0) rs ->
  run (tof2_trace None o nchan lo hi) (empty (Z.to_nat nchan)) rs = Ok (h, rs') ->
  List.length h = Z.to_nat nchan /\ Forall2 at_plane rs rs' /\
  (forall k, (k < Z.to_nat nchan)%nat -> exists c, nth_error h k = Some c /\
    holds (fun r => through o r /\ exists t, arrives r t /\ in_bin_or_end lo ((hi - lo) / IZR nchan) nchan k (1 * t)) rs (c_N c) (c_p c) (c_p2 c)).
Proof.
  intros S N G H. assert (S' : 0 < (hi - lo) / IZR nchan) by (apply Rdiv_lt_0_compat; [lra|apply IZR_lt, N]).
  destruct (run_from_empty _ (fun h => h) _ (Tb o nchan lo ((hi - lo) / IZR nchan) 1) moving
    (tof2_step o nchan lo hi S N) (Tb_one o nchan lo _ 1 S' N) rs (empty (Z.to_nat nchan)) h rs' G eq_refl H) as (L1 & -> & C).
  split; [exact L1|]. split; [apply all_at, G|]. exact C.
Qed.
Lemma opened_of e x0 x1 y0 y1 w ht o : area_init e x0 x1 y0 y1 w ht = Ok o -> opened o.
Proof. intros H. apply area_init_spec in H. apply H. Qed.
Lemma strip_run nx e x0 x1 y0 y1 w ht o rs : area_init e x0 x1 y0 y1 w ht = Ok o -> (0 < nx < 2 ^ 31)%Z -> Forall (fun r => vz (r_vel r) <> 0) rs ->
  exists h rs', run (psdlin_trace None o nx) (empty (Z.to_nat nx)) rs = Ok (h, rs') /\
  List.length h = Z.to_nat nx /\ Forall2 at_plane rs rs' /\
  (forall k, (k < Z.to_nat nx)%nat -> exists c, nth_error h k = Some c /\
    holds (fun r => through o r /\ exists x y, meets r x y /\ in_bin (xmin o) (xmax o) nx k x) rs (c_N c) (c_p c) (c_p2 c)).
Proof.
  intros O N G. apply opened_of in O.
  destruct (run_total (psdlin_trace None o nx) (fun h => h) (Z.to_nat nx) (Xb o nx) moving (psdlin_step o nx O N) rs) with (a := empty (Z.to_nat nx)) as [[h rs'] H].
  - intros a r G1 LEN. destruct (psdlin_one o nx a r N G1 LEN) as [[_ E]|(k & _ & _ & E)]; rewrite E; eauto.
  - exact G.
  - apply repeat_length.
  - exists h, rs'. split; [exact H|]. assert (N1 : (0 < nx)%Z) by lia.
    destruct (run_from_empty _ (fun h => h) _ (Xb o nx) moving (psdlin_step o nx O N) (fun r k k' M _ _ => Xb_one o nx O N1 r k k' M) rs (empty (Z.to_nat nx)) h rs' G eq_refl H) as (L1 & -> & C).
    split; [exact L1|]. split; [apply all_at, G|]. exact C.
Qed.
Lemma flat_inj i j i' j' n : (j < n)%nat -> (j' < n)%nat -> (j + i * n = j' + i' * n)%nat -> i = i' /\ j = j'.
Proof.
  intros A B E. assert (i = i'); [|subst; split; [reflexivity|lia]]. destruct (Nat.lt_trichotomy i i') as [L|[L|L]]; [exfalso|exact L|exfalso].
  - assert ((i + 1) * n <= i' * n)%nat by (apply Nat.mul_le_mono_r; lia). lia.
  - assert ((i' + 1) * n <= i * n)%nat by (apply Nat.mul_le_mono_r; lia). lia.
Qed.
Lemma image_run nx ny e x0 x1 y0 y1 w ht o rs : area_init e x0 x1 y0 y1 w ht = Ok o -> (0 < nx < 2 ^ 31)%Z -> (0 < ny < 2 ^ 31)%Z -> Forall (fun r => vz (r_vel r) <> 0) rs ->
  exists h rs', run (psd_trace None o nx ny) (empty (Z.to_nat nx * Z.to_nat ny)) rs = Ok (h, rs') /\
  List.length h = (Z.to_nat nx * Z.to_nat ny)%nat /\ Forall2 at_plane rs rs' /\
  (forall i j, (i < Z.to_nat nx)%nat -> (j < Z.to_nat ny)%nat -> exists c, nth_error h (j + i * Z.to_nat ny) = Some c /\
    holds (fun r => through o r /\ exists x y, meets r x y /\ in_bin (xmin o) (xmax o) nx i x /\ in_bin (ymin o) (ymax o) ny j y) rs (c_N c) (c_p c) (c_p2 c)).
Proof.
  intros O N N' G. apply opened_of in O.
  destruct (run_total (psd_trace None o nx ny) (fun h => h) (Z.to_nat nx * Z.to_nat ny) (XYb o nx ny) moving (psd_step o nx ny O N N') rs) with (a := empty (Z.to_nat nx * Z.to_nat ny)) as [[h rs'] H].
  - intros a r G1 LEN. destruct (psd_one o nx ny a r N N' G1 LEN) as [[_ E]|(k & _ & _ & E)]; rewrite E; eauto.
  - exact G.
  - apply repeat_length.
  - exists h, rs'. split; [exact H|]. assert (N1 : (0 < nx)%Z) by lia. assert (N2 : (0 < ny)%Z) by lia.
    destruct (run_from_empty _ (fun h => h) _ (XYb o nx ny) moving (psd_step o nx ny O N N') (fun r k k' M _ _ => XYb_one o nx ny O N1 N2 r k k' M) rs (empty (Z.to_nat nx * Z.to_nat ny)) h rs' G eq_refl H) as (L1 & -> & C).
    split; [exact L1|]. split; [apply all_at, G|]. intros i j Hi Hj. destruct (C _ (flat _ _ _ _ Hi Hj)) as (c & C1 & C2). exists c. split; [exact C1|].
    assert (EQ : forall r, XYb o nx ny (j + i * Z.to_nat ny) r <-> (through o r /\ exists x y, meets r x y /\ in_bin (xmin o) (xmax o) nx i x /\ in_bin (ymin o) (ymax o) ny j y)).
    { intros r. split.
      - intros (T & x & y & i' & j' & M & B1 & B2 & I' & J' & E). split; [exact T|]. exists x, y. assert (i = i' /\ j = j') as [-> ->]; [|auto].
        exact (flat_inj _ _ _ _ _ Hj J' E).
      - intros (T & x & y & M & B1 & B2). split; [exact T|]. exists x, y, i, j. auto 10. }
    assert (TE : forall f s, total (XYb o nx ny (j + i * Z.to_nat ny)) f rs s -> total (fun r => through o r /\ exists x y, meets r x y /\ in_bin (xmin o) (xmax o) nx i x /\ in_bin (ymin o) (ymax o) ny j y) f rs s).
    { intros f s T. clear -T EQ. induction T; [constructor|apply total_in; [apply EQ; assumption|assumption]|apply total_out; [rewrite <- EQ; assumption|assumption]]. }
    destruct C2 as (T1 & T2 & T3). repeat split; apply TE; assumption.
Qed.
Lemma energy_image_run nx nE lo hi e x0 x1 y0 y1 w ht o rs : area_init e x0 x1 y0 y1 w ht = Ok o -> lo < hi -> (0 < nx < 2 ^ 31)%Z -> (0 < nE < 2 ^ 31)%Z -> Forall (fun r => vz (r_vel r) <> 0) rs ->
  exists h rs', run (epsd_trace None o nx nE lo hi) (empty (Z.to_nat nx * Z.to_nat nE)) rs = Ok (h, rs') /\
  List.length h = (Z.to_nat nx * Z.to_nat nE)%nat /\ Forall2 at_plane rs rs' /\
  (forall i j, (i < Z.to_nat nx)%nat -> (j < Z.to_nat nE)%nat -> exists c, nth_error h (j + i * Z.to_nat nE) = Some c /\
    holds (fun r => through o r /\ exists x y, meets r x y /\ in_bin (xmin o) (xmax o) nx i x /\ in_bin lo hi nE j (neutron_energy r) /\ lo < neutron_energy r) rs (c_N c) (c_p c) (c_p2 c)).
Proof.
  intros O L N N' G. apply opened_of in O.
  destruct (run_total (epsd_trace None o nx nE lo hi) (fun h => h) (Z.to_nat nx * Z.to_nat nE) (XEb o nx nE lo hi) moving (epsd_step o nx nE lo hi O L N N') rs) with (a := empty (Z.to_nat nx * Z.to_nat nE)) as [[h rs'] H].
  - intros a r G1 LEN. destruct (epsd_one o nx nE lo hi a r N N' G1 LEN) as [[_ E]|(k & _ & _ & E)]; rewrite E; eauto.
  - exact G.
  - apply repeat_length.
  - exists h, rs'. split; [exact H|]. assert (N1 : (0 < nx)%Z) by lia. assert (N2 : (0 < nE)%Z) by lia.
    destruct (run_from_empty _ (fun h => h) _ (XEb o nx nE lo hi) moving (epsd_step o nx nE lo hi O L N N') (fun r k k' M _ _ => XEb_one o nx nE lo hi O L N1 N2 r k k' M) rs (empty (Z.to_nat nx * Z.to_nat nE)) h rs' G eq_refl H) as (L1 & -> & C).
    split; [exact L1|]. split; [apply all_at, G|]. intros i j Hi Hj. destruct (C _ (flat _ _ _ _ Hi Hj)) as (c & C1 & C2). exists c. split; [exact C1|].
    assert (EQ : forall r, XEb o nx nE lo hi (j + i * Z.to_nat nE) r <-> (through o r /\ exists x y, meets r x y /\ in_bin (xmin o) (xmax o) nx i x /\ in_bin lo hi nE j (neutron_energy r) /\ lo < neutron_energy r)).
    { intros r. split.
      - intros (T & x & y & i' & j' & M & B1 & B2 & B3 & I' & J' & E). split; [exact T|]. exists x, y. assert (i = i' /\ j = j') as [-> ->]; [|auto].
        exact (flat_inj _ _ _ _ _ Hj J' E).
      - intros (T & x & y & M & B1 & B2 & B3). split; [exact T|]. exists x, y, i, j. auto 10. }
    assert (TE : forall f s, total (XEb o nx nE lo hi (j + i * Z.to_nat nE)) f rs s -> total (fun r => through o r /\ exists x y, meets r x y /\ in_bin (xmin o) (xmax o) nx i x /\ in_bin lo hi nE j (neutron_energy r) /\ lo < neutron_energy r) f rs s).
    { intros f s T. clear -T EQ. induction T; [constructor|apply total_in; [apply EQ; assumption|assumption]|apply total_out; [rewrite <- EQ; assumption|assumption]]. }
    destruct C2 as (T1 & T2 & T3). repeat split; apply TE; assumption.
Qed.

Lemma monitor_run o rs : Forall (fun r => vz (r_vel r) <> 0) rs -> forall c, exists c' rs',
  run (fun c r => Ok (monitor_trace None o c r)) c rs = Ok (c', rs') /\ Forall2 at_plane rs rs' /\
  holds (through o) rs (c_N c' - c_N c) (c_p c' - c_p c) (c_p2 c' - c_p2 c).
Proof.
  induction 1 as [|r rs M _ IH]; intros c; cbn.
  - exists c, []. split; [reflexivity|]. split; [constructor|]. repeat split; eapply total_eq; try constructor; ring.
  - unfold monitor_trace. destruct (z0_fields r M) as (V & P & T & X). assert (A := area_through o r M). pose proof (z0_at r M) as Z. cbn [prop_z0] in *. set (q := prop_z0_nogravity r) in *. cbn [fst snd].
    destruct (in_area o q) eqn:E.
    + destruct (IH (add c (r_p q))) as (c' & rs' & R & F & H1 & H2 & H3). unfold monitor_trace in R. cbn [prop_z0] in R. rewrite R. cbn [bind fst snd]. exists c', (q :: rs').
      split; [reflexivity|]. split; [constructor; assumption|]. rewrite P in *. cbn [add c_N c_p c_p2] in H1, H2, H3.
      assert (TH : through o r) by (apply A; reflexivity).
      repeat split; (eapply total_eq; [apply total_in; [exact TH|eassumption]|cbn; ring]).
    + destruct (IH c) as (c' & rs' & R & F & H1 & H2 & H3). unfold monitor_trace in R. cbn [prop_z0] in R. rewrite R. cbn [bind fst snd]. exists c', (q :: rs').
      split; [reflexivity|]. split; [constructor; assumption|]. assert (~ through o r) by (rewrite <- A; discriminate). repeat split; apply total_out; assumption.
Qed.
Lemma parallel_counted : exists o r, 0 <= r_p r /\ c_p (fst (monitor_trace None o (mkCell 0 0 0) r)) < 0 /\ c_N (fst (monitor_trace None o (mkCell 0 0 0) r)) = 1.
Proof.
  exists (mkOp (-1) 1 (-1) 1 0), (mkRay (mkV 0 0 (-5)) (mkV 100 0 0) 0 0 0 1). unfold monitor_trace. cbn [prop_z0]. unfold prop_z0_nogravity. cbn [r_vel vz].
  rewrite (proj2 (Reqb_t 0 0) eq_refl). unfold absorb. cbn [r_pos r_vel r_t r_s1 r_s2 r_p fst].
  assert (E : in_area (mkOp (-1) 1 (-1) 1 0) (mkRay (mkV 0 0 (-5)) (mkV 100 0 0) 0 0 0 (-1)) = true) by (apply in_area_iff; cbn; lra).
  rewrite E. cbn. lra.
Qed.
Lemma axis_same n t0 t1 dt a b d : (0 < n)%Z -> tof_times n t0 t1 dt = (a, b, d) -> t1 <> 0 \/ t0 = 0 -> d = (b - a) / IZR n.
Proof.
  intros N. apply IZR_lt in N. unfold tof_times. destruct (Reqb t1 0) eqn:E.
  - apply Reqb_t in E. intros [= <- <- <-] [H|H]; [contradiction|]. rewrite H. field. lra.
  - intros [= <- <- <-] _. reflexivity.
Qed.
Lemma floor_is x k : IZR k <= x < IZR k + 1 -> floorZ x = k. Proof. apply floor_unique. Qed.
(* two channels of 10 microseconds with t0 = 20: the neutron at 15 microseconds is in channel 1, on the written axis in channel 0 *)
Lemma axis_other : exists n t0 dt a b d r h q, (0 < n)%Z /\ 0 < dt /\ tof_times n t0 0 dt = (a, b, d) /\
  tof_trace None (mkOp (-1) 1 (-1) 1 0) n a d (empty (Z.to_nat n)) r = Ok (h, q) /\ nth_error h 1 = Some (mkCell 1 1 1) /\
  in_bin a b n 0 (1000000 * r_t q).
Proof.
  exists 2%Z, 20, 10, 0, (IZR 2 * 10 + 20), 10, (mkRay (mkV 0 0 0) (mkV 0 0 100) (15 / 1000000) 0 0 1), [mkCell 0 0 0; mkCell (0 + 1) (0 + 1) (0 + 1 * 1)],
    (mkRay (mkV (0 + 0 * (- 0 / 100)) (0 + 0 * (- 0 / 100)) (0 + 100 * (- 0 / 100))) (mkV 0 0 100) (15 / 1000000 + - 0 / 100) 0 0 1).
  split; [lia|]. split; [lra|]. split.
  { unfold tof_times. rewrite (proj2 (Reqb_t 0 0) eq_refl). reflexivity. }
  split; [|split].
  - unfold tof_trace. cbn [prop_z0]. unfold prop_z0_nogravity. cbn [r_vel vz]. assert (Z : 100 <> 0) by lra. rewrite (proj2 (Reqb_f 100 0) Z).
    unfold prop_dt_nogravity. cbn [r_vel r_pos r_t r_s1 r_s2 r_p vx vy vz].
    match goal with |- context [in_area ?o ?r] => assert (E : in_area o r = true) by (apply in_area_iff; cbn [r_pos vx vy xmin xmax ymin ymax]; lra); rewrite E; clear E end.
    unfold clamped, quot. cbn [r_t r_p]. assert (Z10 : 10 <> 0) by lra. rewrite (proj2 (Reqb_f 10 0) Z10). cbn [bind].
    rewrite (floor_is _ 1) by lra. rewrite cint_small by lia. reflexivity.
  - cbn. f_equal. f_equal; lra.
  - unfold in_bin. cbn [r_t]. change (INR 0) with 0. change (INR (0 + 1)) with 1. lra.
Qed.
Lemma wavelength_runs nchan o Lmin Lmax rs : (0 < nchan)%Z -> Lmin < Lmax ->
  Forall (fun r => vz (r_vel r) <> 0 /\ fits Lmin Lmax nchan (wavelength r)) rs ->
  exists h rs', run (l_trace None o nchan Lmin Lmax) (empty (Z.to_nat nchan)) rs = Ok (h, rs').
Proof.
  intros N L G. pose (good := fun r => moving r /\ fits Lmin Lmax nchan (wavelength r)).
  assert (ST : step_ok (l_trace None o nchan Lmin Lmax) (fun h => h) (Z.to_nat nchan) (W o nchan Lmin Lmax wavelength) good).
  { intros a r a' r' [G1 _]. exact (l_step o nchan Lmin Lmax N L a r a' r' G1). }
  destruct (run_total (l_trace None o nchan Lmin Lmax) (fun h => h) (Z.to_nat nchan) _ good ST rs) with (a := empty (Z.to_nat nchan)) as [[m rs'] E].
  - intros a r [G1 F] LEN. unfold l_trace. fields r G1. set (q := prop_z0 None r) in *. destruct (in_area o q); [|eauto].
    rewrite (l_value r q G1 V). cbn [bind]. rewrite (bin_ok _ _ _ _ L (fits_floor _ F)). cbn [bind].
    destruct ((0 <=? _) && (_ <? nchan))%Z%bool eqn:R; [|eauto]. apply andb_prop in R. destruct R as [R1 R2]. apply Z.leb_le in R1. apply Z.ltb_lt in R2.
    destruct (range_nat _ _ (conj R1 R2)) as (k & -> & K). rewrite tally_in by lia. cbn. eauto.
  - exact G.
  - apply repeat_length.
  - eauto.
Qed.
Lemma time_runs nchan o lo step rs : 0 < step -> (0 < nchan)%Z ->
  Forall (fun r => vz (r_vel r) <> 0 /\ forall t, arrives r t -> - 2 ^ 31 <= (1000000 * t - lo) / step < 2 ^ 31) rs ->
  exists h rs', run (tof_trace None o nchan lo step) (empty (Z.to_nat nchan)) rs = Ok (h, rs').
Proof.
  intros S N G. pose (good := fun r => moving r /\ forall t, arrives r t -> - 2 ^ 31 <= (1000000 * t - lo) / step < 2 ^ 31).
  assert (ST : step_ok (tof_trace None o nchan lo step) (fun h => h) (Z.to_nat nchan) (Tb o nchan lo step 1000000) good).
  { intros a r a' r' [G1 _]. exact (tof_step o nchan lo step S N a r a' r' G1). }
  destruct (run_total (tof_trace None o nchan lo step) (fun h => h) (Z.to_nat nchan) _ good ST rs) with (a := empty (Z.to_nat nchan)) as [[m rs'] E].
  - intros a r [G1 F] LEN. unfold tof_trace. fields r G1. set (q := prop_z0 None r) in *. destruct (in_area o q); [|eauto].
    destruct (clamped_ok _ lo step nchan S N (fits_floor _ (F _ T))) as (i & -> & R). cbn [bind].
    destruct (range_nat _ _ R) as (k & -> & K). rewrite tally_in by lia. cbn. eauto.
  - exact G.
  - apply repeat_length.
  - eauto.
Qed.
