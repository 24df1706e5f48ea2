(** Proofs for C57: cones and means. *)
From Coq Require Import Reals Lra Lia.
From Coquelicot Require Import Coquelicot.
From Verif Require Import Base RotModel RotSpec ChanModel ChanProofs ShapeModel ShapeSpec ShapeProofs ScatModel ScatSpec UnitModel UnitSpec UnitProofs KinModel KinSpec KinProofs KinProofs2 KinProofs3 KinProofs4 GridProofs PowdModel PowdSpec PowdProofs PowdProofs2 PowdProofs3.
Open Scope R_scope.

Lemma azimuth_zero t u : azimuth 0 t u = (Some (PI * (2 * u - 1)), 0).
Proof. unfold azimuth. rewrite (proj2 (Reqb_t 0 0) eq_refl). unfold random. do 3 f_equal. ring. Qed.
Lemma azimuth_some d t u : 0 <= d < 360 -> exists a d', azimuth d t u = (Some a, d') /\ (d' = d \/ d' = 0).
Proof.
  intros D. destruct (Req_dec d 0) as [->|N]; [rewrite azimuth_zero; eauto|]. unfold azimuth. cbv zeta. rewrite (proj2 (Reqb_f _ _) N).
  assert (S : 0 < sin (d * (PI / 180) / 2)). { pose proof PI_RGT_0. apply sin_gt_0; nra. }
  rewrite (proj2 (Reqb_f (sin (d * (PI / 180) / 2)) 0)) by lra. destruct (Reqb _ _); [eauto|]. destruct (orb _ _); eauto.
Qed.
Section Cones.
Variables (data : powder_data) (d : R) (k : powder) (ev : event) (kk : R).
Hypothesis Mk : new_powder data d = Ok (Some k).
Let v := e_v ev.
Hypothesis Nz : v <> mkV 0 0 0.
Hypothesis W : is_wavenumber kk (speed v).
Let l := pd_peaks data.
Let n := number_reached kk l.
Variables (p0 : peak) (l' : list peak) (e1 e2 e3 : vec3).
Hypothesis L0 : l = p0 :: l'.
Hypothesis R0 : reached kk p0 = true.
Hypothesis Fr : orthonormal (e1, e2, e3) /\ along v e1 /\ along (second_axis v) e3 /\ normalize v = Some e1 /\ normalize (second_axis v) = Some e3.
Lemma n_pos : (0 < n)%nat.
Proof using L0 R0. unfold n, number_reached. rewrite L0. cbn. rewrite R0. cbn. lia. Qed.
Lemma scatter_cone up uw ua : let p := nth (choose up n) l dflt in let x := opening kk p uw in -1 <= x <= 1 ->
  forall a d', azimuth d (asin x) ua = (Some a, d') ->
  powder_scatter k up uw ua ev = Ok (kernel_of data d', with_pv ev (e_p ev * (INR n * cone_coefficient kk (pd_volume data) p)) (Some (on_cone e1 e2 e3 (speed v) (2 * asin x) (if near (2 * asin x) then 0 else a)))).
Proof using Mk Nz W L0 R0 Fr.
  intros p x X a d' A. destruct Fr as (O & A1 & A3 & N1 & N3). rewrite (scatter_general data d k ev kk Mk Nz W up uw ua p0 l' L0 R0). cbv zeta. fold l n p x. rewrite (asin_ok x X), A. destruct (two_rotations v (2 * asin x) e1 e2 e3 Nz O A1 A3 N1 N3) as [T1 T2]. fold v. rewrite T1, T2. reflexivity.
Qed.
Lemma scatter_beyond up uw ua : let p := nth (choose up n) l dflt in let x := opening kk p uw in x < -1 \/ 1 < x -> powder_scatter k up uw ua ev = Ok (k, with_pv ev (-1) None).
Proof using Mk Nz W L0 R0.
  intros p x X. rewrite (scatter_general data d k ev kk Mk Nz W up uw ua p0 l' L0 R0). cbv zeta. fold l n p x. now rewrite (asin_bad x X).
Qed.
End Cones.

Lemma kk_pos kk v : v <> mkV 0 0 0 -> is_wavenumber kk (speed v) -> 0 < kk.
Proof. intros N W. apply is_wavenumber_iff in W. subst. apply Rmult_lt_0_compat; [apply v2k_pos|now apply speed_pos]. Qed.
Lemma transfer_on_cone v kk e1 e2 e3 x phi : v <> mkV 0 0 0 -> is_wavenumber kk (speed v) -> along v e1 -> orthonormal (e1, e2, e3) -> -1 <= x <= 1 ->
  transfers v (on_cone e1 e2 e3 (speed v) (2 * asin x) phi) (2 * kk * Rabs x) 0.
Proof.
  intros N W A O X. destruct (cone_transfer v e1 e2 e3 x phi A O X) as [S1 S2]. exists (v2E (speed v)), (v2E (speed v)). split; [now apply is_energy_iff|]. split; [rewrite S1; now apply is_energy_iff|]. split; [ring|].
  apply is_wavenumber_iff. rewrite S2. apply is_wavenumber_iff in W. rewrite W. ring.
Qed.
Lemma opening_q kk p u : 0 < kk -> opening kk p u = pk_q p * (1 + pk_line_width p * (2 * u - 1)) / (2 * kk).
Proof. intros K. unfold opening. destruct (Req_EM_T (pk_line_width p) 0) as [E|_]; [rewrite E|]; field; lra. Qed.
Lemma opening_bound kk Q : 0 < kk -> (-1 <= Q / (2 * kk) <= 1 <-> Rabs Q <= 2 * kk) /\ 2 * kk * Rabs (Q / (2 * kk)) = Rabs Q.
Proof.
  intros K. assert (E : 2 * kk * Rabs (Q / (2 * kk)) = Rabs Q). { unfold Rdiv. rewrite Rabs_mult, (Rabs_pos_eq (/ (2 * kk))) by (left; apply Rinv_0_lt_compat; lra). field. lra. }
  split; [|exact E]. rewrite <- E. set (x := Q / (2 * kk)). split.
  - intros H. assert (Rabs x <= 1) by (apply Rabs_le; lra). nra.
  - intros H. assert (B : Rabs x <= 1) by nra. unfold Rabs in B. destruct (Rcase_abs x); lra.
Qed.

Lemma scatters data d k ev kk p0 l' up uw ua : new_powder data d = Ok (Some k) -> 0 <= d < 360 -> e_v ev <> mkV 0 0 0 -> is_wavenumber kk (speed (e_v ev)) -> pd_peaks data = p0 :: l' -> reached kk p0 = true ->
  0 <= up <= 1 ->
  exists i p, nth_error (pd_peaks data) i = Some p /\ reached kk p = true /\ (up < 1 -> INR i <= up * INR (number_reached kk (pd_peaks data)) < INR i + 1) /\
    let Q := Rabs (pk_q p * (1 + pk_line_width p * (2 * uw - 1))) in
    (Q <= 2 * kk -> exists k' o v', powder_scatter k up uw ua ev = Ok (k', o) /\ in_place ev o /\ k_v o = Some v' /\ transfers (e_v ev) v' Q 0 /\
       k_p o = e_p ev * (INR (number_reached kk (pd_peaks data)) * cone_coefficient kk (pd_volume data) p)) /\
    (2 * kk < Q -> powder_scatter k up uw ua ev = Ok (k, with_pv ev (-1) None)).
Proof.
  intros Mk D N W L R U. pose proof (kk_pos kk _ N W) as K. pose proof (n_pos data kk p0 l' L R) as NP. set (n := number_reached kk (pd_peaks data)) in *. pose proof Mk as MK. apply new_inv in MK. destruct MK as (O & _ & _).
  set (i := choose up n). assert (I : (i < n)%nat) by now apply choose_below. destruct (reached_nth kk (pd_peaks data) i dflt O I) as (RI & LI & IN). set (p := nth i (pd_peaks data) dflt) in *. exists i, p.
  split; [now apply nth_error_nth'|]. split; [exact RI|]. split.
  { intros U1. unfold i. rewrite choose_index by exact NP. destruct (index_floor up n ltac:(lra) NP) as [-> _]. assert (G : (0 <= floorZ (up * INR n))%Z) by (apply floor_nonneg; apply Rmult_le_pos; [lra|apply pos_INR]). rewrite INR_IZR_INZ, Z2Nat.id by exact G. apply floor_bounds. }
  intros Q. destruct (opening_bound kk (pk_q p * (1 + pk_line_width p * (2 * uw - 1))) K) as [B E]. split.
  - intros H. pose proof (proj2 B H) as X. rewrite <- (opening_q kk p uw K) in X, E. destruct (azimuth_some d (asin (opening kk p uw)) ua D) as (a & d' & A & _). destruct (frame (e_v ev) N) as (e1 & e2 & e3 & OR & A1 & A3 & N1 & N3 & _).
    rewrite (scatter_cone data d k ev kk Mk N W p0 l' e1 e2 e3 L R (conj OR (conj A1 (conj A3 (conj N1 N3)))) up uw ua X a d' A). do 3 eexists. split; [reflexivity|]. split; [repeat split|]. split; [reflexivity|]. split; [|reflexivity].
    fold n. fold i. fold p. unfold Q. rewrite <- E. now apply transfer_on_cone.
  - intros H. apply (scatter_beyond data d k ev kk Mk N W p0 l' L R). fold n. fold i. fold p. rewrite (opening_q kk p uw K). destruct (Rlt_le_dec (pk_q p * (1 + pk_line_width p * (2 * uw - 1)) / (2 * kk)) (-1)) as [H1|H1]; [now left|]. right. apply Rnot_le_lt. intros H2. assert (Rabs (pk_q p * (1 + pk_line_width p * (2 * uw - 1))) <= 2 * kk) by (apply B; lra). fold Q in H0. lra.
Qed.

(** means *)
Lemma mean_cones data k ev kk : new_powder data 0 = Ok (Some k) -> e_v ev <> mkV 0 0 0 -> is_wavenumber kk (speed (e_v ev)) -> pd_peaks data <> [] ->
  (forall p, In p (pd_peaks data) -> 0 < pk_q p /\ pk_line_width p = 0) ->
  exists e1 e2 e3, orthonormal (e1, e2, e3) /\ along (e_v ev) e1 /\
  forall uw G (J : peak -> R), (forall p0 l', pd_peaks data = p0 :: l' -> reached kk p0 = true) ->
    (forall p, In p (pd_peaks data) -> reached kk p = true -> is_RInt (fun u => G (on_cone e1 e2 e3 (speed (e_v ev)) (two_theta kk p) (if near (two_theta kk p) then 0 else PI * (2 * u - 1)))) 0 1 (J p)) ->
    meanN 2 (fun l => carried G (outgoing (powder_scatter k (stream l 0) uw (stream l 1) ev))) (e_p ev * over_reached kk (fun p => cone_coefficient kk (pd_volume data) p * J p) (pd_peaks data)).
Proof.
  intros Mk N W NE Q. destruct (frame (e_v ev) N) as (e1 & e2 & e3 & OR & A1 & A3 & N1 & N3 & _). exists e1, e2, e3. split; [exact OR|]. split; [exact A1|]. intros uw G J R0 HJ. pose proof (kk_pos kk _ N W) as K. pose proof Mk as MK. apply new_inv in MK. destruct MK as (O & _ & _).
  destruct (pd_peaks data) as [|p0 l'] eqn:L; [now elim NE|]. specialize (R0 p0 l' eq_refl). pose proof (n_pos data kk p0 l' L R0) as NP. rewrite <- L in *. set (n := number_reached kk (pd_peaks data)) in *.
  set (cf := fun p => cone_coefficient kk (pd_volume data) p * J p). exists (fun up => e_p ev * INR n * cf (nth (choose up n) (pd_peaks data) dflt)). split.
  - intros up U1. set (i := choose up n). assert (I : (i < n)%nat) by now apply choose_below. destruct (reached_nth kk (pd_peaks data) i dflt O I) as (RI & LI & IN). set (p := nth i (pd_peaks data) dflt) in *. destruct (Q p IN) as [QP WZ].
    assert (OP : opening kk p uw = pk_q p / (2 * kk)) by (rewrite (opening_q kk p uw K), WZ; f_equal; ring).
    assert (X : -1 <= opening kk p uw <= 1). { rewrite OP. apply opening_bound; [exact K|]. rewrite Rabs_pos_eq by lra. unfold reached in RI. destruct (Rle_dec _ _); [lra|discriminate]. }
    exists (fun ua => e_p ev * INR n * cone_coefficient kk (pd_volume data) p * G (on_cone e1 e2 e3 (speed (e_v ev)) (two_theta kk p) (if near (two_theta kk p) then 0 else PI * (2 * ua - 1)))). split.
    + intros ua U2. cbn [meanN]. change (stream [up; ua] 0) with up. change (stream [up; ua] 1) with ua.
      rewrite (scatter_cone data 0 k ev kk Mk N W p0 l' e1 e2 e3 L R0 (conj OR (conj A1 (conj A3 (conj N1 N3)))) up uw ua X _ _ (azimuth_zero _ _)). fold n. fold i. fold p. rewrite OP. cbn [outgoing carried k_v k_p with_pv]. fold (two_theta kk p). ring.
    + unfold cf. rewrite <- Rmult_assoc. exact (@is_RInt_scal R_NormedModule _ 0 1 (e_p ev * INR n * cone_coefficient kk (pd_volume data) p) (J p) (HJ p IN RI)).
  - pose proof (step_int (fun i => cf (nth i (pd_peaks data) dflt)) n NP) as S. rewrite (sum_over kk cf (pd_peaks data) O : sum_to _ n = _) in S.
    replace (e_p ev * over_reached kk cf (pd_peaks data)) with (e_p ev * INR n * (over_reached kk cf (pd_peaks data) / INR n)); [|field; apply Rgt_not_eq; now apply lt_0_INR].
    exact (@is_RInt_scal R_NormedModule _ 0 1 (e_p ev * INR n) _ S).
Qed.
