(** C57: the powder diffraction kernel. *)
From Coq Require Import Reals Lra Psatz.
From Coquelicot Require Import Coquelicot.
From Verif Require Import Base RotModel RotSpec ChanModel ShapeModel ScatModel UnitModel UnitSpec UnitProofs KinModel KinSpec KinProofs PowdModel PowdSpec PowdProofs PowdProofs2 PowdProofs3 PowdProofs4 PowdProofs5 PowdProofs6.
Open Scope R_scope.

(** mcni's rotate turns a vector about an axis, unless the two are parallel within the tolerance: then it does nothing. *)
Theorem C57_rotate : forall eps v c a, 0 < eps -> v <> mkV 0 0 0 -> c <> mkV 0 0 0 ->
  (nearly_parallel eps v c -> rotate eps v c (Some a) = Some v) /\
  (~ nearly_parallel eps v c -> exists v', rotate eps v c (Some a) = Some v' /\ turned_about c a v v' /\ speed v' = speed v).
Proof. exact rotates. Qed.
Example C57_rotate_case : exists v', rotate (1 / 10 ^ 7) (mkV 0 0 3) (mkV 0 2 0) (Some 1) = Some v' /\ turned_about (mkV 0 2 0) 1 (mkV 0 0 3) v'.
Proof.
  destruct (C57_rotate (1 / 10 ^ 7) (mkV 0 0 3) (mkV 0 2 0) 1) as [_ H]; [lra|intros Z; injection Z; lra|intros Z; injection Z; lra|].
  destruct H as (v' & A & B & _); [|now exists v']. unfold nearly_parallel. replace (sdot (mkV 0 0 3) (mkV 0 2 0)) with 0 by (unfold sdot; cbn; ring). rewrite Rabs_R0. unfold Rdiv at 2. rewrite Rmult_0_l. lra.
Qed.

(** The kernel can be made from peaks in order of q; without order the process ends.  A cell without volume or a peak at q = 0 leaves numbers that are
    inf or nan. *)
Theorem C57_made : forall data d_phi,
  (~ ordered (pd_peaks data) -> new_powder data d_phi = Err Terminated) /\
  (ordered (pd_peaks data) -> ((exists k, new_powder data d_phi = Ok (Some k)) <-> pd_volume data <> 0 /\ forall p, In p (pd_peaks data) -> pk_q p <> 0)).
Proof.
  intros data d. split; [apply new_unordered|]. intros O. split; [intros [k H]; apply new_inv in H; apply H|]. intros U. eexists. now apply new_ok.
Qed.
Definition three : powder_data := mkPD [mkPeak 1 1 6 0 0; mkPeak (3 / 2) 4 8 0 (9 / 10); mkPeak 5 1 1 0 0] 64 2.
Lemma three_ordered : ordered (pd_peaks three).
Proof. repeat (apply ordered_cons; split; [intros x X; cbn in X; repeat destruct X as [<-|X]; try contradiction; cbn; lra|]). intros i j L. cbn in L. lia. Qed.
Example C57_made_case : exists k, new_powder three 0 = Ok (Some k).
Proof. apply (proj2 (C57_made three 0) three_ordered). split; [cbn; lra|]. intros p X; cbn in X; repeat destruct X as [<-|X]; try contradiction; cbn; lra. Qed.

(** The scattering coefficient, in 1/m, is the sum over the cones that are reached; the absorption coefficient goes with 1/v from 2200 m/s. *)
Theorem C57_coefficients : forall data d_phi k kk v, new_powder data d_phi = Ok (Some k) -> v <> mkV 0 0 0 -> is_wavenumber kk (speed v) ->
  powder_scattering k v = Some (over_reached kk (cone_coefficient kk (pd_volume data)) (pd_peaks data)) /\
  powder_absorption k v = Some (100 * pd_absorption data / pd_volume data * (2200 / speed v)).
Proof. intros. split; [eapply scattering_is; eassumption|eapply absorption_is; eassumption]. Qed.
Example C57_coefficients_case : exists k, powder_scattering k (e_v (zbeam 1)) = Some (cone_coefficient 1 64 (mkPeak 1 1 6 0 0) + cone_coefficient 1 64 (mkPeak (3 / 2) 4 8 0 (9 / 10))).
Proof.
  destruct C57_made_case as [k H]. exists k. destruct (zbeam_ok 1 ltac:(lra)) as [N W]. rewrite (proj1 (C57_coefficients three 0 k 1 _ H N W)). f_equal. cbn [three pd_peaks over_reached pd_volume]. unfold reached. cbn [pk_q]. destruct (Rle_dec (1 / 2) 1); [|lra]. destruct (Rle_dec (3 / 2 / 2) 1); [|lra]. destruct (Rle_dec (5 / 2) 1); [lra|]. ring.
Qed.
(** For neutrons of energy [Ei] it is what the Python function gives for the cross section of a unit cell, when no peak has a Debye-Waller factor. *)
Theorem C57_python : forall data d_phi k v Ei, new_powder data d_phi = Ok (Some k) -> v <> mkV 0 0 0 -> is_energy Ei (speed v) ->
  (forall p, In p (pd_peaks data) -> pk_DebyeWaller p = 0 \/ pk_DebyeWaller p = 1) ->
  exists xs, total_scattering_cross_section Ei (pd_volume data) (pd_peaks data) = Some xs /\ powder_scattering k v = Some (100 * xs / pd_volume data).
Proof.
  intros data d k v Ei H N E DW. pose proof (new_inv _ _ _ H) as (O & [NV Q] & _). set (kk := v2k * speed v). assert (W : is_wavenumber kk (speed v)) by now apply is_wavenumber_iff.
  assert (E2 : py_e2k Ei = Some kk). { apply is_energy_iff in E. subst Ei. unfold py_e2k. rewrite py_e2v_E2v, v2E_inv by (left; now apply speed_pos). reflexivity. }
  eexists. split; [apply (total_is Ei _ _ kk E2 (kk_pos kk v N W) NV Q)|]. rewrite (scattering_is data d k kk v H N W). f_equal. apply coefficient_total.
  intros p I. unfold damping. destruct (Req_EM_T _ _) as [|Z]; [reflexivity|]. destruct (DW p I); [contradiction|assumption].
Qed.
Example C57_python_case : exists Ei xs, total_scattering_cross_section Ei 1 (pd_peaks (one_peak 1)) = Some xs /\ powder_scattering (kernel_of (one_peak 1) 0) (e_v (zbeam 1)) = Some (100 * xs / 1) /\ 0 < xs.
Proof.
  destruct (zbeam_ok 1 ltac:(lra)) as [N W]. exists (v2E (speed (e_v (zbeam 1)))). assert (E : is_energy (v2E (speed (e_v (zbeam 1)))) (speed (e_v (zbeam 1)))) by now apply is_energy_iff.
  destruct (C57_python (one_peak 1) 0 _ _ _ (one_peak_ok 1 0 ltac:(lra)) N E) as (xs & A & B); [intros p [<-|[]]; now left|]. exists xs. split; [exact A|]. split; [exact B|].
  rewrite (proj1 (C57_coefficients _ 0 _ 1 _ (one_peak_ok 1 0 ltac:(lra)) N W)) in B. injection B as B. cbn [one_peak pd_peaks over_reached pd_volume] in B. rewrite (one_reached 1 1 ltac:(lra)) in B. pose proof (one_coefficient_pos 1 1 ltac:(lra) ltac:(lra)). lra.
Qed.

(** A neutron that is too slow for every peak keeps its velocity and gets the weight -1; without peaks, memory outside the array is read. *)
Theorem C57_refused : forall data d_phi k ev kk up uw ua, new_powder data d_phi = Ok (Some k) -> is_wavenumber kk (speed (e_v ev)) ->
  (pd_peaks data <> [] -> (forall p, In p (pd_peaks data) -> 2 * kk < pk_q p) -> powder_scatter k up uw ua ev = Ok (k, with_pv ev (-1) (Some (e_v ev)))) /\
  (pd_peaks data = [] -> powder_scatter k up uw ua ev = Err UndefinedBehaviour).
Proof. intros. split; [intros; eapply refused; eassumption|intros; eapply scatter_none; eassumption]. Qed.
Example C57_refused_case : powder_scatter (kernel_of (one_peak 1) 0) 0 0 0 (zbeam (1 / 4)) = Ok (kernel_of (one_peak 1) 0, with_pv (zbeam (1 / 4)) (-1) (Some (e_v (zbeam (1 / 4))))).
Proof.
  destruct (zbeam_ok (1 / 4) ltac:(lra)) as [N W]. apply (proj1 (C57_refused (one_peak 1) 0 _ _ (1 / 4) 0 0 0 (one_peak_ok 1 0 ltac:(lra)) W)); [discriminate|]. intros p [<-|[]]. cbn. lra.
Qed.
Theorem C57_empty_refuted : exists data k ev, new_powder data 0 = Ok (Some k) /\ powder_scattering k (e_v ev) = Some 0 /\ powder_scatter k 0 0 0 ev = Err UndefinedBehaviour.
Proof.
  assert (M : new_powder (mkPD [] 1 1) 0 = Ok (Some (kernel_of (mkPD [] 1 1) 0))) by (apply new_ok; [intros i j L; cbn in L; lia|split; [cbn; lra|intros p []]]).
  exists (mkPD [] 1 1), (kernel_of (mkPD [] 1 1) 0), (zbeam 1). split; [exact M|]. destruct (zbeam_ok 1 ltac:(lra)) as [N W]. split; [|now apply (scatter_none (mkPD [] 1 1) 0)]. rewrite (scattering_is _ 0 _ 1 _ M N W). reflexivity.
Qed.

(** Otherwise one of the peaks that are reached is chosen with equal chances, the neutron keeps its energy, place, time and spin, its momentum transfer is
    that of the peak within its width, and its weight is multiplied by the coefficient of the cone and by the number of cones.  Beyond 2k there is no
    angle: the weight is -1 and the velocity nan. *)
Theorem C57_scatters : forall data d_phi k ev kk p0 l' up uw ua, new_powder data d_phi = Ok (Some k) -> 0 <= d_phi < 360 -> e_v ev <> mkV 0 0 0 -> is_wavenumber kk (speed (e_v ev)) ->
  pd_peaks data = p0 :: l' -> reached kk p0 = true -> 0 <= up <= 1 ->
  exists i p, nth_error (pd_peaks data) i = Some p /\ reached kk p = true /\ (up < 1 -> INR i <= up * INR (number_reached kk (pd_peaks data)) < INR i + 1) /\
    let Q := Rabs (pk_q p * (1 + pk_line_width p * (2 * uw - 1))) in
    (Q <= 2 * kk -> exists k' o v', powder_scatter k up uw ua ev = Ok (k', o) /\ in_place ev o /\ k_v o = Some v' /\ transfers (e_v ev) v' Q 0 /\
       k_p o = e_p ev * (INR (number_reached kk (pd_peaks data)) * cone_coefficient kk (pd_volume data) p)) /\
    (2 * kk < Q -> powder_scatter k up uw ua ev = Ok (k, with_pv ev (-1) None)).
Proof. exact scatters. Qed.
Example C57_scatters_case : exists k k' o v', new_powder three 0 = Ok (Some k) /\ powder_scatter k (3 / 4) 0 (1 / 3) (zbeam 1) = Ok (k', o) /\ k_v o = Some v' /\ transfers (e_v (zbeam 1)) v' (3 / 2) 0.
Proof.
  destruct C57_made_case as [k H]. exists k. destruct (zbeam_ok 1 ltac:(lra)) as [N W].
  destruct (C57_scatters three 0 k (zbeam 1) 1 (mkPeak 1 1 6 0 0) [mkPeak (3 / 2) 4 8 0 (9 / 10); mkPeak 5 1 1 0 0] (3 / 4) 0 (1 / 3) H ltac:(lra) N W eq_refl) as (i & p & I & R & B & S & _); [unfold reached; cbn; destruct (Rle_dec _ _); [reflexivity|lra]|lra|].
  assert (NR : number_reached 1 (pd_peaks three) = 2%nat) by (unfold number_reached, reached; cbn; destruct (Rle_dec (1 / 2) 1); [|lra]; destruct (Rle_dec (3 / 2 / 2) 1); [|lra]; destruct (Rle_dec (5 / 2) 1); [lra|reflexivity]).
  rewrite NR in B. specialize (B ltac:(lra)). cbn [INR] in B. assert (i = 1%nat). { destruct i as [|[|i]]; [cbn in B; lra|reflexivity|]. exfalso. rewrite !S_INR in B. pose proof (pos_INR i). lra. }
  subst i. injection I as <-. cbn [pk_q pk_line_width] in S. replace (3 / 2 * (1 + 0 * (2 * 0 - 1))) with (3 / 2) in S by ring. rewrite Rabs_pos_eq in S by lra. destruct (S ltac:(lra)) as (k' & o & v' & A & _ & V & T & _). now exists k', o, v'.
Qed.

(** Without focusing and widths, what a detector sees on average is the sum over the cones of their coefficient times the mean around the cone, for cones
    that differ from the forward and backward directions by more than the tolerance (in cosine). *)
Theorem C57_mean : forall data k ev kk, new_powder data 0 = Ok (Some k) -> e_v ev <> mkV 0 0 0 -> is_wavenumber kk (speed (e_v ev)) ->
  (forall p, In p (pd_peaks data) -> 0 < pk_q p /\ pk_line_width p = 0) -> (exists p, In p (pd_peaks data) /\ pk_q p <= 2 * kk) ->
  exists e1 e2 e3, norm2 e1 = 1 /\ norm2 e2 = 1 /\ sdot e1 e2 = 0 /\ e3 = vcross e1 e2 /\ e_v ev = vscale (speed (e_v ev)) e1 /\
  forall uw G (J : peak -> R),
    (forall p, In p (pd_peaks data) -> pk_q p <= 2 * kk -> Rabs (cos (two_theta kk p)) <= 1 - 1 / 10 ^ 7 /\ is_RInt (fun phi => G (on_cone e1 e2 e3 (speed (e_v ev)) (two_theta kk p) phi)) (- PI) PI (2 * PI * J p)) ->
    meanN 2 (fun l => carried G (outgoing (powder_scatter k (stream l 0) uw (stream l 1) ev))) (e_p ev * over_reached kk (fun p => cone_coefficient kk (pd_volume data) p * J p) (pd_peaks data)).
Proof. exact means. Qed.
(** In total it is the scattering coefficient. *)
Theorem C57_total : forall data k ev kk, new_powder data 0 = Ok (Some k) -> e_v ev <> mkV 0 0 0 -> is_wavenumber kk (speed (e_v ev)) ->
  (forall p, In p (pd_peaks data) -> 0 < pk_q p /\ pk_line_width p = 0) -> (exists p, In p (pd_peaks data) /\ pk_q p <= 2 * kk) ->
  exists c, powder_scattering k (e_v ev) = Some c /\ forall uw, meanN 2 (fun l => carried (fun _ => 1) (outgoing (powder_scatter k (stream l 0) uw (stream l 1) ev))) (e_p ev * c).
Proof. exact total_mean. Qed.
Example C57_total_case : exists k c, new_powder three 0 = Ok (Some k) /\ powder_scattering k (e_v (zbeam 1)) = Some c /\
  meanN 2 (fun l => carried (fun _ => 1) (outgoing (powder_scatter k (stream l 0) 0 (stream l 1) (zbeam 1)))) (1 * c).
Proof.
  destruct C57_made_case as [k H]. exists k. destruct (zbeam_ok 1 ltac:(lra)) as [N W]. destruct (C57_total three k (zbeam 1) 1 H N W) as (c & A & B).
  - intros p X; cbn in X; repeat destruct X as [<-|X]; try contradiction; cbn; lra.
  - exists (mkPeak 1 1 6 0 0). cbn. split; [now left|lra].
  - exists c. split; [exact H|]. split; [exact A|exact (B 0)].
Qed.
Example C57_mean_case : exists k, new_powder (one_peak q90) 0 = Ok (Some k) /\
  meanN 2 (fun l => carried (fun v => speed v) (outgoing (powder_scatter k (stream l 0) 0 (stream l 1) (zbeam 1)))) (1 * over_reached 1 (fun p => cone_coefficient 1 1 p * (1 * k2v)) (pd_peaks (one_peak q90))).
Proof.
  destruct (q90_range 1 ltac:(lra)) as [Q0 Q1]. eexists. split; [exact (one_peak_ok q90 0 Q0)|]. destruct (zbeam_ok 1 ltac:(lra)) as [N W].
  destruct (C57_mean (one_peak q90) _ (zbeam 1) 1 (one_peak_ok q90 0 Q0) N W) as (e1 & e2 & e3 & U1 & U2 & D & E3 & A & H); [intros p [<-|[]]; cbn; split; [exact Q0|reflexivity]|exists (mkPeak q90 1 1 0 0); cbn; split; [now left|lra]|].
  apply (H 0 (fun v => speed v) (fun _ => 1 * k2v)). intros p [<-|[]] _. unfold two_theta. cbn [pk_q]. split; [rewrite q90_theta; replace (2 * (PI / 4)) with (PI / 2) by field; rewrite cos_PI2, Rabs_R0; lra|].
  pose proof (@is_RInt_const R_NormedModule (- PI) PI (1 * k2v)) as C. replace (2 * PI * (1 * k2v)) with (scal (PI - - PI) (1 * k2v)) by (unfold scal; cbn; unfold mult; cbn; ring).
  apply (@is_RInt_ext R_NormedModule (fun _ => 1 * k2v)); [|exact C]. intros phi _. symmetry. rewrite zbeam_speed by lra. pose proof k2v_pos. apply speed_eq; [lra|]. apply cone_norm. repeat split; assumption.
Qed.

(** Close to the forward direction the azimuth is always the same. *)
Theorem C57_forward_refuted : exists data k ev v' c, new_powder data 0 = Ok (Some k) /\ v' <> e_v ev /\
  forall up uw ua, outgoing (powder_scatter k up uw ua ev) = Ok (with_pv ev c (Some v')).
Proof.
  destruct forward_stuck as (v' & A & B). eexists (one_peak (1 / 10 ^ 4)), _, (zbeam 1), v', _. split; [apply one_peak_ok; lra|]. split; [exact A|exact B].
Qed.

(** Focusing: after any neutron the kernel is as made, or as made without focusing ... *)
Theorem C57_focus_kept : forall data d_phi k up uw ua ev k' o, new_powder data d_phi = Ok (Some k) -> 0 <= d_phi < 360 -> e_v ev <> mkV 0 0 0 -> powder_scatter k up uw ua ev = Ok (k', o) ->
  new_powder data d_phi = Ok (Some k') \/ new_powder data 0 = Ok (Some k').
Proof. exact focus_after. Qed.
Example C57_focus_kept_case : exists k' o, powder_scatter (kernel_of (one_peak q90) 60) 0 0 0 (zbeam 100) = Ok (k', o) /\ (new_powder (one_peak q90) 60 = Ok (Some k') \/ new_powder (one_peak q90) 0 = Ok (Some k')).
Proof.
  destruct focus_memory as (k' & o & A & _). exists k', o. split; [exact A|]. destruct (zbeam_ok 100 ltac:(lra)) as [N _]. apply (C57_focus_kept (one_peak q90) 60 _ 0 0 0 (zbeam 100) k' o (one_peak_ok q90 60 (proj1 (q90_range 1 ltac:(lra)))) ltac:(lra) N A).
Qed.
(** ... so that a neutron changes what happens to the next one. *)
Theorem C57_focus_memory_refuted : exists data k ev1 ev2 k' o, new_powder data 60 = Ok (Some k) /\ powder_scatter k 0 0 0 ev1 = Ok (k', o) /\
  outgoing (powder_scatter k 0 0 0 ev2) <> outgoing (powder_scatter k' 0 0 0 ev2).
Proof. destruct focus_memory as (k' & o & A & B). exists (one_peak q90), (kernel_of (one_peak q90) 60), (zbeam 100), (zbeam 1), k', o. split; [apply one_peak_ok; apply (q90_range 1); lra|]. split; assumption. Qed.
(** The weight is that of the whole cone although only a part is used: a detector in the part sees three times as much with focusing as without. *)
Theorem C57_focus_weight_refuted : exists data k k0 ev G m, 0 < m /\ new_powder data 60 = Ok (Some k) /\ new_powder data 0 = Ok (Some k0) /\
  meanN 2 (fun l => carried G (outgoing (powder_scatter k0 (stream l 0) 0 (stream l 1) ev))) m /\
  meanN 2 (fun l => carried G (outgoing (powder_scatter k (stream l 0) 0 (stream l 1) ev))) (3 * m).
Proof.
  destruct (q90_range 1 ltac:(lra)) as [Q0 Q1]. exists (one_peak q90), (kernel_of (one_peak q90) 60), (kernel_of (one_peak q90) 0), (zbeam 1), in_plane, (cone_coefficient 1 1 (mkPeak q90 1 1 0 0) * (1 / 3)).
  split; [apply Rmult_lt_0_compat; [apply one_coefficient_pos; lra|lra]|]. split; [now apply one_peak_ok|]. split; [now apply one_peak_ok|]. split; [exact window_open|]. replace (3 * (cone_coefficient 1 1 (mkPeak q90 1 1 0 0) * (1 / 3))) with (cone_coefficient 1 1 (mkPeak q90 1 1 0 0)) by field. exact window_focused.
Qed.

Print Assumptions C57_rotate.
Print Assumptions C57_made.
Print Assumptions C57_coefficients.
Print Assumptions C57_python.
Print Assumptions C57_refused.
Print Assumptions C57_empty_refuted.
Print Assumptions C57_scatters.
Print Assumptions C57_mean.
Print Assumptions C57_total.
Print Assumptions C57_forward_refuted.
Print Assumptions C57_focus_kept.
Print Assumptions C57_focus_memory_refuted.
Print Assumptions C57_focus_weight_refuted.
