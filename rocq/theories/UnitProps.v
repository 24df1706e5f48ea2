(** C44: conversions between energy, speed, wave number and wavelength.  C53: MCPL files. *)
From Coq Require Import Reals Lra Lia.
From Verif Require Import Base RotModel RotSpec ChanModel ChanProofs ShapeModel UnitModel UnitSpec UnitProofs.
Open Scope R_scope.

(** The conversions mean what they say. *)
Theorem C44_physics : forall v, is_energy (v2E v) v /\ is_energy (vsquare2E (v * v)) v /\ is_wavenumber (v2k * v) v /\ (forall k, is_wavenumber k (k2v * k)) /\
  (forall k, is_energy (k2E k) (k2v * k)) /\ (forall k, is_energy (ksquare2E (k * k)) (k2v * k)).
Proof.
  intros v. split; [apply energy_of|]. split; [exact (energy_of v)|]. split; [apply wavenumber_of|]. split.
  - intros k. pose proof (wavenumber_of (k2v * k)) as W. replace (v2k * (k2v * k)) with k in W; [exact W|]. replace (v2k * (k2v * k)) with (k2v * v2k * k) by ring. rewrite k2v_v2k. ring.
  - split; intros k; [|change (ksquare2E (k * k)) with (k2E k)]; rewrite k2E_v; apply energy_of.
Qed.
(** Energy and speed, energy and wave number are inverse to each other on non-negative values; negative energies give nan. *)
Theorem C44_inverse : (forall E, 0 <= E -> exists v, E2v E = Some v /\ 0 <= v /\ v2E v = E) /\ (forall v, 0 <= v -> E2v (v2E v) = Some v) /\
  (forall E, 0 <= E -> exists k, E2k E = Some k /\ 0 <= k /\ k2E k = E) /\ (forall k, 0 <= k -> E2k (k2E k) = Some k) /\
  (forall v, v2k * (k2v * v) = v /\ k2v * (v2k * v) = v) /\ (forall E, E < 0 -> E2v E = None /\ E2k E = None).
Proof.
  split; [exact E2v_inv|]. split; [exact v2E_inv|]. split; [exact E2k_inv|]. split; [exact k2E_inv|]. split.
  - intros v. rewrite <- !Rmult_assoc, (Rmult_comm v2k), k2v_v2k. lra.
  - intros E H. unfold E2k. now rewrite E2v_nan by assumption.
Qed.
(** The ways round the triangle agree. *)
Theorem C44_commute : (forall v, 0 <= v -> E2k (v2E v) = Some (v2k * v)) /\ (forall k, k2E k = v2E (k2v * k)) /\ (forall E v, E2v E = Some v -> E2k E = Some (v2k * v)).
Proof.
  split; [exact E2k_v2E|]. split; [exact k2E_v|]. intros E v H. unfold E2k. rewrite H. cbn. f_equal. ring.
Qed.
(** Python and C++ convert in the same way. *)
Theorem C44_languages : forall x, py_v2k x = v2k * x /\ py_k2v x = k2v * x /\ py_e2v x = E2v x /\ py_e2k x = E2k x /\ py_v2e x = v2E x /\ py_k2e x = k2E x.
Proof.
  intros x. split; [reflexivity|]. split; [reflexivity|]. split; [reflexivity|]. split; [|split; [reflexivity|]].
  - unfold py_e2k, E2k. rewrite py_e2v_E2v. destruct (E2v x) as [v|]; [|reflexivity]. cbn. f_equal. unfold py_v2k. change py_V2K with v2k. ring.
  - rewrite k2E_v. reflexivity.
Qed.
(** The quantities recorded by monitors, for a neutron of velocity [v]: energy and wave number are the converted ones, the wavelength is
    2 pi / k up to an error of 2e-9, as pi is given with eight decimals. *)
Theorem C44_monitor : forall v, nd_energy v = v2E (speed v) /\ nd_wavevector v = v2k * speed v /\
  (v <> mkV 0 0 0 -> exists w, nd_wavelength v = Some w /\ within (2 / 10 ^ 9) w (2 * PI / (v2k * speed v))).
Proof.
  intros v. assert (N : norm2 v = vx v * vx v + vy v * vy v + vz v * vz v) by reflexivity. unfold speed. rewrite N. split; [|split; [reflexivity|]].
  - unfold nd_energy, v2E. rewrite sqrt_sqrt by nra. change py_VS2E with vsq2e. ring.
  - intros NZ. pose proof (speed_pos v NZ) as P. unfold speed in P. rewrite N in P. unfold nd_wavelength. set (s := sqrt _) in *. destruct (Req_EM_T s 0) as [Z|_]; [lra|].
    exists (py_RV2W * 1 / s). split; [reflexivity|]. change py_RV2W with (2 * py_PI * k2v). pose proof k2v_pos as K. pose proof v2k_pos as K'.
    replace (2 * py_PI * k2v * 1 / s) with (2 * py_PI * (k2v / s)) by (field; lra). replace (2 * PI / (v2k * s)) with (2 * PI * (k2v / s)).
    + apply wave_bound. apply Rmult_lt_0_compat; [exact K|now apply Rinv_0_lt_compat].
    + unfold v2k. field. split; lra.
Qed.
(** "Wavelength is 2 pi / k": false, exactly. *)
Theorem C44_wavelength_refuted : forall v w, nd_wavelength v = Some w -> w < 2 * PI / nd_wavevector v.
Proof.
  intros v w. unfold nd_wavelength, nd_wavevector. set (s := sqrt _). destruct (Req_EM_T s 0) as [Z|Z]; [discriminate|]. intros H. injection H as <-.
  assert (P : 0 < s) by (pose proof (sqrt_pos (vx v * vx v + vy v * vy v + vz v * vz v)); unfold s in *; lra).
  change py_RV2W with (2 * py_PI * k2v). change py_V2K with v2k. pose proof k2v_pos as K. pose proof PI_bounds as [L _].
  replace (2 * PI / (v2k * s)) with (2 * PI * (k2v / s)) by (unfold v2k; field; split; lra). replace (2 * py_PI * k2v * 1 / s) with (2 * py_PI * (k2v / s)) by (field; lra).
  apply Rmult_lt_compat_r; [apply Rmult_lt_0_compat; [exact K|now apply Rinv_0_lt_compat]|unfold py_PI; lra].
Qed.

(** McStas components have constants of their own: for each neutron they see energies within 1e-5 and wave numbers within 2e-4 of those
    of the rest of the program. *)
Theorem C44_mcstas : forall v, 0 <= v -> within (1 / 10 ^ 5) (ph_VS2E * (v * v)) (v2E v) /\ within (2 / 10 ^ 4) (ph_V2K * v) (v2k * v) /\
  within (1 / 10 ^ 6) (rt_VS2E * (v * v)) (v2E v) /\ within (1 / 10 ^ 6) (rt_V2K * v) (v2k * v).
Proof.
  intros v V. unfold within, v2E, v2k, k2v, vsq2e, hbar, neutron_mass, electron_charge, ph_VS2E, ph_V2K, rt_VS2E, rt_V2K.
  assert (Q : 0 <= v * v) by nra. split; [|split; [|split]]; apply Rabs_le; split; lra.
Qed.
(** "A component that is given an energy and a monitor agree on it": false between McStas and the rest; nor are the McStas conversions inverse
    to each other. *)
Theorem C44_mcstas_refuted : forall E v, 0 < E -> E2v E = Some v -> ph_VS2E * (v * v) < E /\ rt_VS2E * (v * v) < E /\
  (let w := ph_SE2V * sqrt E in ph_VS2E * (w * w) < E) /\ (let w := rt_SE2V * sqrt E in E < rt_VS2E * (w * w)).
Proof.
  intros E v P H. destruct (E2v_inv E ltac:(lra)) as (w & W & NN & Q). rewrite H in W. injection W as <-.
  assert (VV : 0 < v * v). { unfold v2E in Q. destruct (Req_dec v 0) as [->|]; [lra|nra]. }
  assert (SS : sqrt E * sqrt E = E) by (apply sqrt_sqrt; lra). cbv zeta.
  replace (ph_SE2V * sqrt E * (ph_SE2V * sqrt E)) with (ph_SE2V * ph_SE2V * E) by (rewrite <- SS at 1; ring).
  replace (rt_SE2V * sqrt E * (rt_SE2V * sqrt E)) with (rt_SE2V * rt_SE2V * E) by (rewrite <- SS at 1; ring).
  rewrite <- Q at 1 2. unfold v2E, vsq2e, neutron_mass, electron_charge, ph_VS2E, rt_VS2E, ph_SE2V, rt_SE2V. repeat split; lra.
Qed.
(** 50 meV: the speed is some v, the energy of which is 50 again. *)
Example C44_example : exists v k, E2v 50 = Some v /\ v2E v = 50 /\ E2k 50 = Some k /\ k = v2k * v /\ E2v (-1) = None /\ mkV 0 0 v <> mkV 0 0 0.
Proof.
  destruct (E2v_inv 50 ltac:(lra)) as (v & A & B & C). exists v, (v2k * v). split; [exact A|]. split; [exact C|]. split; [exact (proj2 (proj2 C44_commute) 50 v A)|]. split; [reflexivity|]. split; [apply E2v_nan; lra|].
  intros Z. injection Z as ->. unfold v2E in C. lra.
Qed.

(** C53: a neutron that moves comes back from an MCPL file with its place, velocity, time, weight and with the direction of its spin;
    also with its spin angles if these are in the canonical range. *)
Theorem C53_roundtrip : forall ev, e_v ev <> mkV 0 0 0 -> exists ev', of_particle (to_particle ev) = Some ev' /\
  e_r ev' = e_r ev /\ e_v ev' = e_v ev /\ e_t ev' = e_t ev /\ e_p ev' = e_p ev /\
  spin_direction (e_s1 ev') (e_s2 ev') = spin_direction (e_s1 ev) (e_s2 ev) /\ canonical (e_s1 ev') (e_s2 ev') /\
  (canonical (e_s1 ev) (e_s2 ev) -> ev' = ev).
Proof.
  intros ev N. eexists. split; [exact (back ev N)|]. cbn [e_r e_v e_t e_p e_s1 e_s2]. do 4 (split; [reflexivity|]).
  destruct (angles_of_unit (spin_direction (e_s1 ev) (e_s2 ev)) (unit_spin _ _)) as [A B]. cbn [vx vy vz spin_direction] in A, B. split; [exact A|]. split; [exact B|].
  intros C. destruct (canonical_unique _ _ C) as [-> ->]. now destruct ev.
Qed.
(** A whole file: the same neutrons in the same order, in however many blocks the library hands them out; weights are multiplied by the number
    of neutrons on request. *)
Theorem C53_file : forall ns blocks scale, List.concat blocks = mcv2mcpl ns -> blocks <> [] ->
  Forall (fun ev => e_v ev <> mkV 0 0 0 /\ canonical (e_s1 ev) (e_s2 ev)) ns ->
  mcpl2mcv blocks scale = Ok (map (fun ev => Some (mkE (e_r ev) (e_v ev) (e_s1 ev) (e_s2 ev) (e_t ev) (e_p ev * (if scale then INR (List.length ns) else 1)))) ns).
Proof.
  intros ns blocks scale H NE F. unfold mcpl2mcv. rewrite H. unfold mcv2mcpl. destruct blocks as [|b l]; [contradiction|]. cbv zeta. rewrite !map_length. f_equal.
  assert (K : forall k : R, map (fun x => option_map (fun ev => mkE (e_r ev) (e_v ev) (e_s1 ev) (e_s2 ev) (e_t ev) (e_p ev * k)) (of_particle (to_particle x))) ns =
            map (fun ev => Some (mkE (e_r ev) (e_v ev) (e_s1 ev) (e_s2 ev) (e_t ev) (e_p ev * k))) ns).
  { intros k. apply map_ext_in. intros ev I. rewrite Forall_forall in F. destruct (F ev I) as [A B]. destruct (C53_roundtrip ev A) as (ev' & E & _ & _ & _ & _ & _ & _ & EQ). rewrite E, (EQ B). reflexivity. }
  destruct scale.
  - rewrite !map_map. exact (K _).
  - rewrite <- (K 1), map_map. apply map_ext_in. intros ev I. rewrite Forall_forall in F. destruct (F ev I) as [A B]. destruct (C53_roundtrip ev A) as (ev' & E & _). rewrite E. cbn. f_equal. destruct ev'; cbn. f_equal. ring.
Qed.
(** Any particle with a unit direction and non-negative energy (MeV, cm, ms) becomes a neutron with that energy (meV), place (m), time (s) and
    direction of flight and of spin. *)
Theorem C53_import : forall pb d, pt_direction pb = Some d -> norm2 d = 1 -> 0 <= pt_ekin pb -> exists ev, of_particle pb = Some ev /\
  e_r ev = mkV (vx (pt_position pb) / 100) (vy (pt_position pb) / 100) (vz (pt_position pb) / 100) /\ e_t ev = pt_time pb / 1000 /\ e_p ev = pt_weight pb /\
  is_energy (pt_ekin pb * 10 ^ 9) (speed (e_v ev)) /\ e_v ev = vscale (speed (e_v ev)) d /\
  (0 < norm2 (pt_polarisation pb) -> pt_polarisation pb = vscale (sqrt (norm2 (pt_polarisation pb))) (spin_direction (e_s1 ev) (e_s2 ev))).
Proof.
  intros pb d D U P. destruct (E2v_inv (pt_ekin pb * 10 ^ 9)) as (v & A & B & C); [apply Rmult_le_pos; [exact P|lra]|].
  unfold of_particle. rewrite D, py_e2v_E2v, A. eexists. split; [reflexivity|]. cbn [e_r e_v e_t e_p e_s1 e_s2]. split; [reflexivity|]. split; [cbn [pow]; field|]. split; [reflexivity|].
  assert (SP : speed (vscale v d) = v).
  { unfold speed. replace (norm2 (vscale v d)) with (v * v * norm2 d) by (unfold norm2, sdot, vscale; cbn; ring). rewrite U, Rmult_1_r. now apply sqrt_square. }
  rewrite SP. split; [rewrite <- C; apply energy_of|]. split; [reflexivity|]. intros N.
  change (vx (pt_polarisation pb) * vx (pt_polarisation pb) + vy (pt_polarisation pb) * vy (pt_polarisation pb) + vz (pt_polarisation pb) * vz (pt_polarisation pb)) with (norm2 (pt_polarisation pb)).
  rewrite (proj2 (Rltb_t 0 _) N). set (q := sqrt (norm2 (pt_polarisation pb))). assert (Q : 0 < q) by now apply sqrt_lt_R0. assert (QQ : q * q = norm2 (pt_polarisation pb)) by (apply sqrt_sqrt; lra).
  destruct (pt_polarisation pb) as [a b c] eqn:PP. unfold norm2, sdot in QQ. cbn [vx vy vz] in *.
  destruct (angles_of_unit (mkV (a / q) (b / q) (c / q))) as [AN _].
  { cbn [vx vy vz]. replace (a / q * (a / q) + b / q * (b / q) + c / q * (c / q)) with ((a * a + b * b + c * c) / (q * q)) by (field; lra). rewrite <- QQ. field. lra. }
  cbn [vx vy vz] in AN. replace (arctan2 (a / q) (c / q)) with (arctan2 a c) in AN.
  - rewrite AN. unfold vscale; cbn [vx vy vz]. f_equal; field; lra.
  - unfold arctan2. assert (IQ : 0 < / q) by now apply Rinv_0_lt_compat.
    assert (T : forall u, Rltb 0 (u / q) = Rltb 0 u) by (intros u; destruct (Rltb 0 u) eqn:E; [apply Rltb_t in E; apply Rltb_t; unfold Rdiv; nra|apply Rltb_f in E; apply Rltb_f; unfold Rdiv; nra]).
    assert (T' : forall u, Rltb (u / q) 0 = Rltb u 0) by (intros u; destruct (Rltb u 0) eqn:E; [apply Rltb_t in E; apply Rltb_t; unfold Rdiv; nra|apply Rltb_f in E; apply Rltb_f; unfold Rdiv; nra]).
    rewrite !T, !T'. destruct (Req_dec c 0) as [->|CN]; [|replace (a / q / (c / q)) with (a / c) by (field; lra); reflexivity]. rewrite (proj2 (Rltb_f 0 0)) by lra. reflexivity.
Qed.
(** A moving neutron is written as a neutron (particle code 2112), in MeV, cm and ms, with its direction of flight and of spin. *)
Theorem C53_export : forall ev, e_v ev <> mkV 0 0 0 -> let pb := to_particle ev in
  pt_pdg pb = 2112%Z /\ is_energy (pt_ekin pb * 10 ^ 9) (speed (e_v ev)) /\ pt_position pb = vscale 100 (e_r ev) /\ pt_time pb = e_t ev * 1000 /\
  pt_weight pb = e_p ev /\ pt_polarisation pb = spin_direction (e_s1 ev) (e_s2 ev) /\
  exists d, pt_direction pb = Some d /\ norm2 d = 1 /\ e_v ev = vscale (speed (e_v ev)) d.
Proof.
  intros ev N. cbv zeta. unfold to_particle. cbv zeta. cbn [pt_pdg pt_ekin pt_position pt_time pt_weight pt_polarisation pt_direction].
  split; [reflexivity|]. split; [replace (v2E (vnorm (e_v ev)) / 10 ^ 9 * 10 ^ 9) with (v2E (vnorm (e_v ev))) by (field; lra); apply energy_of|].
  split; [unfold vscale; f_equal; ring|]. split; [ring|]. split; [reflexivity|]. split; [reflexivity|].
  assert (NV : vnorm (e_v ev) <> 0).
  { intros Z. apply N. unfold vnorm, vdot in Z. apply sqrt_eq_0 in Z; [|apply Rplus_le_le_0_compat; [apply Rplus_le_le_0_compat|]; apply Rle_0_sqr].
    destruct (e_v ev) as [a b c]. cbn [vx vy vz] in Z. pose proof (Rle_0_sqr a) as A. pose proof (Rle_0_sqr b) as B. pose proof (Rle_0_sqr c) as C. unfold Rsqr in *.
    f_equal; apply Rsqr_0_uniq; unfold Rsqr; lra. }
  destruct (Req_EM_T (vnorm (e_v ev)) 0) as [Z|_]; [contradiction|]. eexists. split; [reflexivity|].
  assert (Q : vnorm (e_v ev) * vnorm (e_v ev) = norm2 (e_v ev)) by (unfold vnorm, norm2, sdot, vdot; apply sqrt_sqrt; apply Rplus_le_le_0_compat; [apply Rplus_le_le_0_compat|]; apply Rle_0_sqr).
  change (speed (e_v ev)) with (vnorm (e_v ev)). split.
  - unfold norm2, sdot in *. cbn [vx vy vz]. set (q := vnorm (e_v ev)) in *. clearbody q.
    transitivity ((vx (e_v ev) * vx (e_v ev) + vy (e_v ev) * vy (e_v ev) + vz (e_v ev) * vz (e_v ev)) / (q * q)); [field; exact NV|]. rewrite <- Q. field. exact NV.
  - destruct (e_v ev) as [a b c]. unfold vscale. cbn [vx vy vz] in *. f_equal; field; exact NV.
Qed.
(** "Only neutrons are read from an MCPL file": false, the kind of particle is not looked at. *)
Theorem C53_particle_kind_refuted : exists pb ev, pt_pdg pb = 22%Z /\ of_particle pb = Some ev.
Proof.
  destruct (C53_import (mkPt 22 (mkV 0 0 0) 1 (Some (mkV 0 0 1)) (mkV 0 0 0) 0 1) (mkV 0 0 1) eq_refl) as (ev & E & _); [unfold norm2, sdot; cbn; ring|cbn; lra|].
  exists (mkPt 22 (mkV 0 0 0) 1 (Some (mkV 0 0 1)) (mkV 0 0 0) 0 1), ev. split; [reflexivity|exact E].
Qed.
(** "Reading a file and writing it again keeps the polarisation": false, an unpolarised neutron is written as polarised along y. *)
Theorem C53_unpolarised_refuted : exists pb ev, pt_pdg pb = 2112%Z /\ pt_polarisation pb = mkV 0 0 0 /\ of_particle pb = Some ev /\ pt_polarisation (to_particle ev) = mkV 0 1 0.
Proof.
  exists (mkPt 2112 (mkV 0 0 0) 1 (Some (mkV 0 0 1)) (mkV 0 0 0) 0 1).
  destruct (E2v_inv (1 * 10 ^ 9)) as (v & A & _); [lra|]. unfold of_particle. cbn [pt_ekin pt_direction pt_polarisation pt_pdg vx vy vz]. rewrite py_e2v_E2v, A. eexists. split; [reflexivity|]. split; [reflexivity|]. split; [reflexivity|].
  unfold to_particle. cbn [e_s1 e_s2 pt_polarisation]. rewrite (proj2 (Rltb_f 0 _)) by lra. rewrite sin_0, cos_0. f_equal; ring.
Qed.
Example C53_example : let ev := mkE (mkV 1 2 3) (mkV 0 300 400) 1 (-1) (1 / 2) 7 in
  e_v ev <> mkV 0 0 0 /\ canonical (e_s1 ev) (e_s2 ev) /\ of_particle (to_particle ev) = Some ev /\ of_particle (to_particle (mkE (mkV 1 2 3) (mkV 0 0 0) 0 0 0 1)) = None.
Proof.
  intros ev. assert (N : e_v ev <> mkV 0 0 0) by (intros Z; injection Z; intros; lra). pose proof PI_bounds as [L U].
  assert (C : canonical (e_s1 ev) (e_s2 ev)) by (left; cbn; lra). split; [exact N|]. split; [exact C|]. split.
  - destruct (C53_roundtrip ev N) as (ev' & E & _ & _ & _ & _ & _ & _ & EQ). now rewrite E, (EQ C).
  - unfold of_particle, to_particle. cbn [e_v pt_direction]. destruct (Req_EM_T (vnorm (mkV 0 0 0)) 0) as [_|N0]; [now destruct (py_e2v _)|]. exfalso. apply N0. unfold vnorm, vdot; cbn. replace (0 * 0 + 0 * 0 + 0 * 0) with 0 by ring. apply sqrt_0.
Qed.

Print Assumptions C44_physics.
Print Assumptions C44_inverse.
Print Assumptions C44_commute.
Print Assumptions C44_languages.
Print Assumptions C44_monitor.
Print Assumptions C44_wavelength_refuted.
Print Assumptions C44_mcstas.
Print Assumptions C44_mcstas_refuted.
Print Assumptions C53_roundtrip.
Print Assumptions C53_file.
Print Assumptions C53_import.
Print Assumptions C53_export.
Print Assumptions C53_particle_kind_refuted.
Print Assumptions C53_unpolarised_refuted.
