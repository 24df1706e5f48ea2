(** Proofs for C70. *)
From Coq Require Import FunctionalExtensionality Reals Lra Lia.
From Coquelicot Require Import Coquelicot.
From Verif Require Import Base RotModel RotSpec ChanModel ChanProofs ShapeModel ShapeSpec ShapeProofs ScatModel ScatSpec UnitModel UnitSpec UnitProofs KinModel KinSpec KinProofs KinProofs2 GridModel GridProofs PowdModel PowdSpec PowdProofs PowdProofs3 PhonModel PhonSpec PhonProofs3 RootModel RootSpec RootProofs RootProofs2 ConeModel ConeSpec ConeProofs CohModel CohSpec CohProofs CohProofs2 CohProofs3 CohProofs4.
Open Scope R_scope.

Lemma E2v_pos E : 0 < E -> exists v, 0 < v /\ E2v E = Some v /\ v2E v = E.
Proof.
  intros E0. pose proof vsq2e_pos as VP. exists (sqrt (E / vsq2e)). assert (P : 0 < E / vsq2e) by (apply Rdiv_lt_0_compat; assumption). pose proof (sqrt_lt_R0 _ P). assert (VE : v2E (sqrt (E / vsq2e)) = E) by (unfold v2E; rewrite sqrt_sqrt by lra; field; lra).
  split; [assumption|]. split; [|exact VE]. rewrite <- VE at 1. apply v2E_inv. lra.
Qed.
Lemma Ef_pos u Ei w : 0 < Ei -> 0 <= w -> 0 < px_pick_Ef u Ei w /\ Rabs (Ei - px_pick_Ef u Ei w) = w.
Proof.
  intros E W. unfold px_pick_Ef. destruct (Rltb w Ei) eqn:L; [apply Rltb_t in L|apply Rltb_f in L]; [destruct (Rleb _ u)|].
  - split; [lra|]. replace (Ei - (Ei + w)) with (- w) by ring. rewrite Rabs_Ropp. apply Rabs_right. lra.
  - split; [lra|]. replace (Ei - (Ei - w)) with w by ring. apply Rabs_right. lra.
  - split; [lra|]. replace (Ei - (Ei + w)) with (- w) by ring. rewrite Rabs_Ropp. apply Rabs_right. lra.
Qed.
Lemma valid_Q k b Ei vi : (forall q, px_min_omega k <= en (px_disp k) b q) -> forall draws last Q Ef vf, pick_a_valid_Q_vector k b Ei vi draws last = Ok (Q, Ef, vf) ->
  exists d, In d draws /\ pickQ (px_max_omega k) Ei (dr_1 d) (dr_2 d) (dr_branch d) = Some Q /\ Ef = px_pick_Ef (dr_root d) Ei (en (px_disp k) b Q) /\ vf = E2v Ef /\ bad_Q vi (k2v * vnorm Q) vf = false.
Proof.
  intros M. induction draws as [|d draws IH]; intros last Q Ef vf H; [discriminate|]. cbn [pick_a_valid_Q_vector] in H. destruct (pickQ _ _ _ _ _) as [Q0|] eqn:PE; [|discriminate]. cbv zeta in H. rewrite (proj2 (Rltb_f _ _)) in H by apply M.
  destruct (bad_Q _ _ _) eqn:B.
  - destruct (IH _ _ _ _ H) as (d' & I & R1). exists d'. split; [now right|exact R1].
  - injection H as <- <- <-. exists d. split; [now left|]. split; [exact PE|]. split; [reflexivity|]. split; [reflexivity|exact B].
Qed.
Lemma vf_ok eps v vf vq u : v <> mkV 0 0 0 -> 0 <= eps < 1 / 2 -> KinSpec.off_axis eps v -> 0 < vf -> triangle (speed v) vf vq ->
  exists d, px_pick_v_f eps v vf vq u = Some (vscale vf d) /\ norm2 d = 1 /\ transfers v (vscale vf d) (v2k * vq) (v2E (speed v) - v2E vf).
Proof.
  intros N EP OFF V T. pose proof (speed_pos v N) as SP. pose proof v2k_pos as KP. unfold px_pick_v_f. cbv zeta. change (vnorm v) with (speed v). assert (PP : 0 < speed v * vf) by nra. rewrite (proj2 (Reqb_f (2 * speed v * vf) 0)) by lra.
  pose proof (cos_range _ _ _ SP V T) as CR. set (c := (speed v * speed v + vf * vf - vq * vq) / (2 * speed v * vf)) in *. assert (C1 : c * c <= 1) by nra. rewrite (proj2 (Rltb_f _ _)) by exact C1. destruct (axes_fixed_far v eps N EP OFF) as (e1 & e2 & e3 & AE & ON & AL). rewrite AE.
  destruct (turned (Some (e1, e2, e3)) c (sqrt (1 - c * c)) (random u 0 (2 * physics_pi))) as [d|] eqn:TE; [|discriminate]. assert (CS : c * c + sqrt (1 - c * c) * sqrt (1 - c * c) = 1) by (rewrite sqrt_sqrt by (clear - C1; lra); ring). pose proof (turned_unit _ _ _ _ _ ON CS TE) as [DN DC]. cbn [fst] in DC. exists d. cbn in TE. injection TE as TE.
  split; [|split; [exact DN|]].
  - do 2 f_equal. rewrite <- TE. unfold vadd, vscale. destruct e1, e2, e3. cbn. f_equal; ring.
  - assert (Q0 : 0 <= vq) by (destruct T as [T _]; pose proof (Rabs_pos (speed v - vf)); lra). apply (transfer_of v e1 d vf c); [exact N|exact AL|exact DN|exact DC|lra|nra|]. assert (2 * speed v * vf * c = speed v * speed v + vf * vf - vq * vq) by (unfold c; field; lra).
    replace (2 * (v2k * speed v) * (v2k * vf) * c) with (v2k * v2k * (2 * speed v * vf * c)) by ring. rewrite H. ring.
Qed.
(** everything about a final state *)
Lemma poly_state k u u' draws ev v' p Ei ki : e_v ev <> mkV 0 0 0 -> 0 <= px_epsilon k < 1 / 2 -> KinSpec.off_axis (px_epsilon k) (e_v ev) -> 0 <= px_min_omega k -> (forall b q, px_min_omega k <= en (px_disp k) b q) -> arrives (e_v ev) Ei ki ->
  px_S k u u' draws ev = Ok (v', p) ->
  exists d b Q Ef kf v1, In d draws /\ pickQ (px_max_omega k) Ei (dr_1 d) (dr_2 d) (dr_branch d) = Some Q /\ (b < nBr (px_disp k))%nat /\ v' = Some v1 /\ arrives v1 Ef kf /\ Rabs (Ei - Ef) = en (px_disp k) b Q /\ transfers (e_v ev) v1 (speed Q) (Ei - Ef) /\ 0 < Ef /\ 0 < kf /\
  (0 < px_T k -> 0 < px_scattering k -> 0 < px_max_omega k -> Forall (fun a => 0 < ca_mass a) (px_atoms k) -> (forall j, (j < List.length (px_atoms k))%nat -> 0 < length2 (pol (px_disp k) b j Q)) -> Ei <> Ef -> Q <> mkV 0 0 0 ->
   exists w kq kb, one_phonon_factor (structure_factor Q (unit_displacements (px_disp k) b Q (List.length (px_atoms k))) (px_atoms k)) (px_scattering k / (4 * physics_pi)) (Ei - Ef) (px_T k) ki kf (px_DW k (speed Q)) w /\
     wave_at (px_max_omega k) kq /\ wave_at (Ei + px_max_omega k / (1 + 76 / 10 * (ki / kq) ^ 4)) kb /\
     p = Some (e_p ev * INR (nBr (px_disp k)) * 2 * w * (1 / (ki * kf * speed Q)) * (4 / 3 * physics_pi * (ki + kb) ^ 3) / (8 * physics_pi))).
Proof.
  intros N EP OFF M0 M [EI KI] H. apply is_energy_iff in EI. apply is_wavenumber_iff in KI. subst Ei ki. pose proof (speed_pos _ N) as SP. pose proof (v2E_pos _ SP) as EIP. pose proof v2k_pos as KP. unfold px_S in H. cbv zeta in H. change (vnorm (e_v ev)) with (speed (e_v ev)) in H.
  destruct (Nat.eqb (nBr (px_disp k)) 0) eqn:NB; [discriminate|]. apply Nat.eqb_neq in NB. set (b := random_index u (nBr (px_disp k))) in *. assert (BL : (b < nBr (px_disp k))%nat) by (apply index_below; lia).
  destruct (pick_a_valid_Q_vector k b _ _ draws None) as [[[Q Ef] ovf]|] eqn:PE; [|discriminate]. cbn [bind] in H. destruct (valid_Q k b _ _ (M b) _ _ _ _ _ PE) as (d & DI & PQ & EE & -> & BQ).
  destruct (Ef_pos (dr_root d) (v2E (speed (e_v ev))) (en (px_disp k) b Q) EIP ltac:(specialize (M b Q); lra)) as [EfP EfA]. rewrite <- EE in EfP, EfA. destruct (E2v_pos Ef EfP) as (vf & VP & VE & VV). rewrite VE in *. cbn [bad_Q] in BQ. apply Bool.orb_false_iff in BQ. destruct BQ as [B1 B2]. apply Rltb_f in B1, B2.
  change (vnorm Q) with (speed Q) in *. destruct (vf_ok (px_epsilon k) (e_v ev) vf (k2v * speed Q) u' N EP OFF VP (conj B1 B2)) as (dd & VF & DN & TR). rewrite VF in H. rewrite <- Rmult_assoc, (Rmult_comm v2k), k2v_v2k, Rmult_1_l, VV in TR.
  assert (S1 : speed (vscale vf dd) = vf) by (rewrite speed_scale_abs by exact DN; apply Rabs_right; lra).
  exists d, b, Q, Ef, (v2k * vf), (vscale vf dd). split; [exact DI|]. split; [exact PQ|]. split; [exact BL|]. split; [destruct (phonon_bose_factor _ _); [destruct (sum_of_scattering_length _ _ _ _); [destruct (calc_AccessibleReciVol _ _); [destruct (orb _ _)|]|]|]; congruence|].
  split; [split; [apply is_energy_iff; rewrite S1; now symmetry|apply is_wavenumber_iff; now rewrite S1]|]. split; [exact EfA|]. split; [exact TR|]. split; [exact EfP|]. split; [nra|].
  intros T0 S0 MX MS LN ON QN. pose proof (speed_pos _ QN) as QP. destruct (factor_thermal (v2E (speed (e_v ev)) - Ef) (px_T k) ltac:(lra) T0) as (f & FE & TH). rewrite FE in H. rewrite (sum_is Q (fun i => pol (px_disp k) b i Q)) in H; [|intros j J; apply LN; lia|exact MS]. fold (unit_displacements (px_disp k) b Q (List.length (px_atoms k))) in H.
  unfold calc_AccessibleReciVol in H. destruct (E2v_pos _ MX) as (vq & VQ & VQE & VQV). unfold E2k in H. rewrite VQE in H. rewrite (v2E_inv (speed (e_v ev))) in H by lra. cbn [option_map] in H. rewrite (proj2 (Reqb_f (vq * v2k) 0)) in H by nra.
  set (x := (v2k * speed (e_v ev)) / (vq * v2k)) in *. replace (speed (e_v ev) * v2k / (vq * v2k)) with x in H by (unfold x; field; lra). assert (XP : 0 <= 76 / 10 * x ^ 4) by (assert (0 <= (x ^ 2) * (x ^ 2)) by nra; replace (x ^ 4) with (x ^ 2 * x ^ 2) by ring; lra).
  assert (BP : 0 < v2E (speed (e_v ev)) + px_max_omega k / (1 + 76 / 10 * x ^ 4)) by (assert (0 < px_max_omega k / (1 + 76 / 10 * x ^ 4)) by (apply Rdiv_lt_0_compat; lra); lra). destruct (E2v_pos _ BP) as (vb & VB & VBE & VBV). rewrite VBE in H. cbn [option_map] in H.
  rewrite (proj2 (Reqb_f (px_scattering k) 0)) in H by lra. rewrite (proj2 (Reqb_f (_ - Ef) 0)) in H by lra. rewrite (proj2 (Reqb_f (v2k * speed _) 0)) in H by nra. rewrite (proj2 (Reqb_f (v2k * vf) 0)) in H by nra. replace (v2k * (k2v * speed Q)) with (speed Q) in H by (rewrite <- Rmult_assoc, (Rmult_comm v2k), k2v_v2k; ring). rewrite (proj2 (Reqb_f (speed Q) 0)) in H by lra. cbn [orb] in H. rewrite (proj2 (Rltb_t _ _)) in H by lra. injection H as _ HP.
  set (F := structure_factor _ _ _) in *. set (nn := cnorm F * _ / _) in HP.
  exists (ksquare2E nn / Rabs (v2E (speed (e_v ev)) - Ef) * (v2k * vf / (v2k * speed (e_v ev))) * exp (- px_DW k (speed Q)) * f), (v2k * vq), (v2k * vb).
  assert (PP : 0 < physics_pi) by (unfold physics_pi; lra). split; [|split; [|split]].
  - exists (ksquare2E nn), f. split; [|split; [exact TH|reflexivity]]. replace ((fst F ^ 2 + snd F ^ 2) / (100 * (px_scattering k / (4 * physics_pi)))) with nn by (unfold nn, cnorm; field; lra). apply recoil_of. unfold nn. assert (0 <= cnorm F) by (unfold cnorm; nra).
    apply Rmult_le_pos; [apply Rmult_le_pos; [assumption|]|left; apply Rinv_0_lt_compat; lra]. lra.
  - exists vq. split; [lra|]. split; [apply is_energy_iff; now symmetry|now apply is_wavenumber_iff].
  - exists vb. split; [lra|]. replace (v2k * speed (e_v ev) / (v2k * vq)) with x by (unfold x; f_equal; ring). split; [apply is_energy_iff; now symmetry|now apply is_wavenumber_iff].
  - rewrite <- HP. f_equal. assert (0 < Rabs (v2E (speed (e_v ev)) - Ef)) by (apply Rabs_pos_lt; lra). field. lra.
Qed.
