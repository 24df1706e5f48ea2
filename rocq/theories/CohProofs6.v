(** Proofs for C70: the cube of wave vectors, and witnesses. *)
From Coq Require Import FunctionalExtensionality Reals Lra Lia.
From Coquelicot Require Import Coquelicot.
From Verif Require Import Base RotModel RotSpec ChanModel ChanProofs ShapeModel ShapeSpec ShapeProofs ScatModel ScatSpec UnitModel UnitSpec UnitProofs KinModel KinSpec KinProofs KinProofs2 KinProofs3 GridModel GridProofs PowdModel PowdSpec PowdProofs PowdProofs3 PhonModel PhonSpec PhonProofs3 RootModel RootSpec RootProofs RootProofs2 ConeModel ConeSpec ConeProofs CohModel CohSpec CohProofs CohProofs2 CohProofs3 CohProofs4 CohProofs5.
Open Scope R_scope.

Lemma E2k_at E k : wave_at E k -> E2k E = Some k.
Proof. intros H. destruct (E2v_wave _ _ H) as (v & E1 & _ & -> & _). unfold E2k. rewrite E1. cbn. f_equal. ring. Qed.
Lemma wave_exists E : 0 <= E -> exists k, wave_at E k /\ 0 <= k.
Proof.
  intros H. pose proof v2k_pos. destruct (Req_dec E 0) as [->|N].
  - exists 0. split; [exists 0|lra]. split; [lra|]. split; [apply is_energy_iff; unfold v2E; ring|apply is_wavenumber_iff; ring].
  - destruct (E2v_pos E ltac:(lra)) as (v & V0 & _ & VE). exists (v2k * v). split; [exists v|nra]. split; [lra|]. split; [apply is_energy_iff; now symmetry|now apply is_wavenumber_iff].
Qed.
Lemma wave_mono E E' k k' : wave_at E k -> wave_at E' k' -> E <= E' -> k <= k'.
Proof.
  intros (v & V0 & A & B) (v' & V0' & A' & B') L. apply is_energy_iff in A, A'. apply is_wavenumber_iff in B, B'. subst. pose proof v2k_pos. pose proof vsq2e_pos. unfold v2E in L. assert (v * v <= v' * v') by (apply (Rmult_le_reg_r vsq2e); assumption).
  assert (v <= v') by (destruct (Rle_lt_dec v v'); [assumption|nra]). nra.
Qed.
Lemma comp_le v : Rabs (vx v) <= speed v /\ Rabs (vy v) <= speed v /\ Rabs (vz v) <= speed v.
Proof. assert (K : forall x, x * x <= norm2 v -> Rabs x <= speed v). { intros x H. unfold speed. rewrite <- sqrt_Rsqr_abs. apply sqrt_le_1_alt. exact H. } unfold norm2, sdot in *. repeat split; apply K; nra. Qed.
Lemma pick_any c x : 0 < c -> Rabs x <= c -> exists u, 0 <= u <= 1 /\ random u (- c) c = x.
Proof.
  intros C X. apply Rabs_le_between in X. exists ((x + c) / (2 * c)). split; [|unfold random; field; lra]. split; [apply Rmult_le_pos; [lra|left; apply Rinv_0_lt_compat; lra]|]. apply (Rmult_le_reg_r (2 * c)); [lra|]. unfold Rdiv. rewrite Rmult_assoc, Rinv_l; lra.
Qed.
Lemma reachable v v' Q E W Ei ki : v <> mkV 0 0 0 -> 0 <= W -> Rabs E <= W -> arrives v Ei ki -> transfers v v' (speed Q) E -> exists u1 u2 u3, (0 <= u1 <= 1 /\ 0 <= u2 <= 1 /\ 0 <= u3 <= 1) /\ pickQ W Ei u1 u2 u3 = Some Q.
Proof.
  intros N W0 EW [A B] (E1 & E2 & A1 & A2 & -> & QW). apply is_energy_iff in A, A1, A2. apply is_wavenumber_iff in B, QW. subst Ei E1 E2 ki. pose proof (speed_pos v N) as SP. pose proof v2k_pos as KP. pose proof (v2E_pos _ SP) as EP.
  destruct (wave_exists (v2E (speed v) + W) ltac:(lra)) as (kb & KB & KB0). assert (KI : wave_at (v2E (speed v)) (v2k * speed v)). { exists (speed v). split; [lra|]. split; [now apply is_energy_iff|now apply is_wavenumber_iff]. }
  assert (KF : wave_at (v2E (speed v')) (v2k * speed v')). { exists (speed v'). split; [apply sqrt_pos|]. split; [now apply is_energy_iff|now apply is_wavenumber_iff]. }
  apply Rabs_le_between in EW. pose proof (wave_mono _ _ _ _ KF KB ltac:(lra)) as KL. pose proof (speed_triangle v v') as [_ TR]. unfold pickQ. rewrite (E2k_at _ _ KI), (E2k_at _ _ KB). set (c := v2k * speed v + kb). assert (CP : 0 < c) by (unfold c; nra).
  assert (QL : speed Q <= c) by (rewrite QW; unfold c; nra). destruct (comp_le Q) as (X & Y & Z). destruct (pick_any c (vx Q) CP ltac:(lra)) as (u1 & U1 & R1). destruct (pick_any c (vy Q) CP ltac:(lra)) as (u2 & U2 & R2). destruct (pick_any c (vz Q) CP ltac:(lra)) as (u3 & U3 & R3).
  exists u1, u2, u3. split; [tauto|]. cbv zeta. rewrite R1, R2, R3. now destruct Q.
Qed.
Lemma centre W Ei : 0 <= Ei -> 0 <= W -> pickQ W Ei (1 / 2) (1 / 2) (1 / 2) = Some (mkV 0 0 0).
Proof. intros E W0. destruct (wave_exists Ei E) as (a & A & _). destruct (wave_exists (Ei + W) ltac:(lra)) as (b & B & _). unfold pickQ. rewrite (E2k_at _ _ A), (E2k_at _ _ B). unfold random. cbv zeta. do 2 f_equal; field. Qed.
Lemma uninitialised k u u' c draws ev : 0 <= px_max_omega k -> (forall b, en (px_disp k) b (mkV 0 0 0) < px_min_omega k) -> px_S k u u' (mkDraw (1 / 2) (1 / 2) (1 / 2) c :: draws) ev = Err UndefinedBehaviour.
Proof.
  intros W M. unfold px_S. cbv zeta. destruct (Nat.eqb _ 0); [reflexivity|]. cbn [pick_a_valid_Q_vector dr_1 dr_2 dr_branch]. rewrite centre; [|unfold v2E; pose proof vsq2e_pos; assert (0 <= vnorm (e_v ev)) by apply sqrt_pos; apply Rmult_le_pos; [nra|lra]|exact W]. cbv zeta. rewrite (proj2 (Rltb_t _ _)) by apply M. reflexivity.
Qed.

(** powders *)
Definition powder (e : vec3 -> R) (mn : R) : poly := mkPX (mkD 1 (fun _ q => e q) (fun _ _ _ => ((0, 0), (0, 0), (1, 0))) (fun _ => 0)) [mkCA (mkV 0 0 0) 1 1 1 0] 10 (fun _ => 0) 100 (v2E 2000 - v2E 1000) mn 0 1 0.
Lemma at_speed s : 0 <= s -> wave_at (v2E s) (v2k * s).
Proof. intros S0. exists s. split; [exact S0|]. split; [now apply is_energy_iff|now apply is_wavenumber_iff]. Qed.
Lemma powder_pickQ u : pickQ (v2E 2000 - v2E 1000) (v2E 1000) (1 / 2) (1 / 2) u = Some (mkV 0 0 ((2 * u - 1) * (v2k * 3000))).
Proof. unfold pickQ. replace (v2E 1000 + (v2E 2000 - v2E 1000)) with (v2E 2000) by ring. rewrite (E2k_at _ _ (at_speed 1000 ltac:(lra))), (E2k_at _ _ (at_speed 2000 ltac:(lra))). cbv zeta. unfold random. do 2 f_equal; field. Qed.
Lemma speed_z z : speed (mkV 0 0 z) = Rabs z. Proof. unfold speed, norm2, sdot. cbn. replace (0 * 0 + 0 * 0 + z * z) with (z * z) by ring. apply (sqrt_Rsqr_abs z). Qed.
Lemma v2E_500 : v2E 1000 - 3 / 4 * v2E 1000 = v2E 500. Proof. unfold v2E. field. Qed.
Definition middle (u c : R) : draw := mkDraw (1 / 2) (1 / 2) u c.
Lemma E2v_500 : E2v (v2E 500) = Some 500. Proof. apply v2E_inv. lra. Qed.
Lemma k2v_1000 : k2v * (v2k * 1000) = 1000. Proof. rewrite <- Rmult_assoc, k2v_v2k. ring. Qed.
Lemma third : (2 * (2 / 3) - 1) * (v2k * 3000) = v2k * 1000. Proof. field. Qed.
Lemma half_0 : (2 * (1 / 2) - 1) * (v2k * 3000) = 0. Proof. field. Qed.
Lemma off_axis1 : KinSpec.off_axis 0 (mkV 0 0 1000). Proof. right. right. reflexivity. Qed.
Lemma lost : px_pick_Ef 0 (v2E 1000) (3 / 4 * v2E 1000) = v2E 500.
Proof. pose proof (v2E_pos 1000 ltac:(lra)). unfold px_pick_Ef. rewrite (proj2 (Rltb_t _ _)) by lra. rewrite (proj2 (Rleb_false _ _)) by lra. apply v2E_500. Qed.
Lemma not_bad : bad_Q 1000 1000 (Some 500) = false.
Proof. cbn. replace (1000 - 500) with 500 by ring. rewrite Rabs_right by lra. rewrite !(proj2 (Rltb_f _ _)) by lra. reflexivity. Qed.
Lemma v2k1000 : 0 < v2k * 1000. Proof. pose proof v2k_pos. lra. Qed.
(** a flat branch: accepted at once *)
Lemma powder_flat_Q b : pick_a_valid_Q_vector (powder (fun _ => 3 / 4 * v2E 1000) 0) b (v2E 1000) 1000 [middle (2 / 3) 0] None = Ok (mkV 0 0 (v2k * 1000), v2E 500, Some 500).
Proof.
  pose proof (v2E_pos 1000 ltac:(lra)) as EP. cbn [pick_a_valid_Q_vector powder px_max_omega px_min_omega px_disp en middle dr_1 dr_2 dr_branch dr_root]. rewrite powder_pickQ, third. cbv zeta. rewrite (proj2 (Rltb_f _ _)) by lra. rewrite lost, E2v_500.
  change (vnorm (mkV 0 0 (v2k * 1000))) with (speed (mkV 0 0 (v2k * 1000))). rewrite speed_z, Rabs_right, k2v_1000, not_bad by (pose proof v2k1000; lra). reflexivity.
Qed.
(** the energy of the first, refused, wave vector remains *)
Definition strange (q : vec3) : R := if Req_EM_T (norm2 q) 0 then 3 / 4 * v2E 1000 else 0.
Lemma powder_strange_Q b : pick_a_valid_Q_vector (powder strange (1 / 2 * v2E 1000)) b (v2E 1000) 1000 [middle (1 / 2) 0; middle (2 / 3) 0] None = Ok (mkV 0 0 (v2k * 1000), v2E 500, Some 500).
Proof.
  pose proof v2k1000 as KP. pose proof (v2E_pos 1000 ltac:(lra)) as EP. assert (S0 : strange (mkV 0 0 0) = 3 / 4 * v2E 1000). { unfold strange. destruct (Req_EM_T _ 0) as [_|Z]; [reflexivity|]. exfalso. apply Z. unfold norm2, sdot. cbn. ring. }
  assert (S1 : strange (mkV 0 0 (v2k * 1000)) = 0). { unfold strange. destruct (Req_EM_T _ 0) as [Z|_]; [|reflexivity]. exfalso. unfold norm2, sdot in Z. cbn in Z. nra. }
  cbn [pick_a_valid_Q_vector powder px_max_omega px_min_omega px_disp en middle dr_1 dr_2 dr_branch dr_root]. rewrite !powder_pickQ, third, half_0. cbv zeta. rewrite S0, S1. rewrite (proj2 (Rltb_f (3 / 4 * v2E 1000) _)) by lra. rewrite (proj2 (Rltb_t 0 _)) by lra.
  rewrite lost, E2v_500. change (vnorm (mkV 0 0 0)) with (speed (mkV 0 0 0)). change (vnorm (mkV 0 0 (v2k * 1000))) with (speed (mkV 0 0 (v2k * 1000))). rewrite !speed_z, Rabs_R0, Rmult_0_r, (Rabs_right (v2k * 1000)), k2v_1000, not_bad by lra.
  replace (bad_Q 1000 0 (Some 500)) with true; [reflexivity|]. symmetry. cbn. replace (1000 - 500) with 500 by ring. rewrite Rabs_right by lra. now rewrite (proj2 (Rltb_t _ _)) by lra.
Qed.
(** a branch above the energy of the neutron *)
Lemma powder_high_Q b : pick_a_valid_Q_vector (powder (fun _ => v2E 2000 - v2E 1000) 0) b (v2E 1000) 1000 [middle (2 / 3) 0] None = Ok (mkV 0 0 (v2k * 1000), v2E 2000, Some 2000).
Proof.
  pose proof vsq2e_pos as VP. assert (E1 : v2E 2000 = 4 * v2E 1000) by (unfold v2E; ring). pose proof (v2E_pos 1000 ltac:(lra)) as EP. cbn [pick_a_valid_Q_vector powder px_max_omega px_min_omega px_disp en middle dr_1 dr_2 dr_branch dr_root]. rewrite powder_pickQ, third. cbv zeta. rewrite (proj2 (Rltb_f _ _)) by lra.
  unfold px_pick_Ef. rewrite (proj2 (Rltb_f _ (v2E 1000))) by lra. replace (v2E 1000 + (v2E 2000 - v2E 1000)) with (v2E 2000) by ring. rewrite (v2E_inv 2000) by lra.
  change (vnorm (mkV 0 0 (v2k * 1000))) with (speed (mkV 0 0 (v2k * 1000))). rewrite speed_z, Rabs_right, k2v_1000 by (pose proof v2k1000; lra). replace (bad_Q 1000 1000 (Some 2000)) with false; [reflexivity|]. symmetry. cbn. replace (1000 - 2000) with (- (1000)) by ring. rewrite Rabs_Ropp, Rabs_right by lra. now rewrite !(proj2 (Rltb_f _ _)) by lra.
Qed.
Lemma powder_runs e mn draws Q Ef vf : pick_a_valid_Q_vector (powder e mn) 0 (v2E 1000) 1000 draws None = Ok (Q, Ef, Some vf) -> 0 < vf -> triangle 1000 vf (k2v * speed Q) ->
  exists v' p, px_S (powder e mn) 0 0 draws neutron1 = Ok (Some v', p) /\ speed v' = vf /\ transfers (mkV 0 0 1000) v' (speed Q) (v2E 1000 - v2E vf).
Proof.
  intros H V T. unfold px_S. cbv zeta. cbn [neutron1 e_v]. change (vnorm (mkV 0 0 1000)) with (speed (mkV 0 0 1000)). rewrite speed1. cbn [powder px_disp nBr Nat.eqb]. rewrite index0 by lia. fold (powder e mn). change (mkPX _ _ _ _ _ _ _ _ _ _) with (powder e mn). rewrite H. cbn [bind].
  destruct (vf_ok (px_epsilon (powder e mn)) (mkV 0 0 1000) vf (k2v * speed Q) 0) as (d & VF & DN & TR); [intros E; injection E as E; lra|cbn; lra|exact off_axis1|exact V|rewrite speed1; exact T|].
  change (vnorm Q) with (speed Q). rewrite VF. rewrite speed1, <- Rmult_assoc, (Rmult_comm v2k), k2v_v2k, Rmult_1_l in TR.
  assert (S1 : speed (vscale vf d) = vf) by (rewrite speed_scale_abs by exact DN; apply Rabs_right; lra). exists (vscale vf d).
  destruct (phonon_bose_factor _ _); [destruct (sum_of_scattering_length _ _ _ _); [destruct (calc_AccessibleReciVol _ _); [destruct (orb _ _)|]|]|]; eexists; (split; [reflexivity|split; [exact S1|exact TR]]).
Qed.

Lemma recoil_unique x e e' : recoil x e -> recoil x e' -> e = e'.
Proof.
  intros (k & s & E & W & N) (k' & s' & E' & W' & N'). apply is_wavenumber_iff in W, W'. apply is_energy_iff in N, N'. subst. pose proof v2k_pos as KP. unfold v2E. assert (H : s * s = s' * s') by (apply (Rmult_eq_reg_l (v2k * v2k)); nra). now rewrite H.
Qed.
Lemma factor_unique F sg om T ki kf dw w w' : one_phonon_factor F sg om T ki kf dw w -> one_phonon_factor F sg om T ki kf dw w' -> w = w'.
Proof. intros (r & f & A & B & ->) (r' & f' & A' & B' & ->). now rewrite (recoil_unique _ _ _ A A'), (thermal_unique _ _ _ _ B B'). Qed.
Lemma wave_unique E k k' : wave_at E k -> wave_at E k' -> k = k'.
Proof. intros A B. apply E2k_at in A, B. congruence. Qed.
Definition high : poly := powder (fun _ => v2E 2000 - v2E 1000) 0.
Lemma high_runs : exists v' p, px_S high 0 0 [middle (2 / 3) 0] neutron1 = Ok (Some v', p).
Proof.
  destruct (powder_runs _ _ _ _ _ _ (powder_high_Q 0)) as (v' & p & H & _); [lra| |now exists v', p]. rewrite speed_z, Rabs_right, k2v_1000 by (pose proof v2k1000; lra). split; [|lra]. replace (1000 - 2000) with (- (1000)) by ring. rewrite Rabs_Ropp, Rabs_right; lra.
Qed.
(** a crystal with a state forwards and none backwards *)
Definition mixed : single := new_single (mkD 1 (fun _ q => if Rlt_dec (vz q) (v2k * 1000) then 3 / 4 * v2E 1000 else 4 * v2E 1000) (fun _ _ _ => ((0, 0), (0, 0), (1, 0))) (fun _ => 0)) [mkCA (mkV 0 0 0) 1 1 1 0] 10 (fun _ => 0) 100 (1 / 10) 1 4 (mkV 0 0 0) 0.
Lemma down : choose_direction 0 0 = mkV 0 0 (-1).
Proof. unfold choose_direction, random. cbv zeta. replace (0 * (1 - -1) + -1) with (-1) by ring. rewrite acos_opp, acos_1 || idtac. replace (acos (-1)) with PI by (replace (-1) with (- (1)) by ring; rewrite acos_opp, acos_1; ring). rewrite sin_PI. f_equal; ring. Qed.
Lemma mixed_good : good_branches (sx_disp mixed) (v2E 1000) = [0%nat].
Proof. unfold good_branches. cbn [mixed new_single sx_disp nBr seq filter min_en]. pose proof (v2E_pos 1000 ltac:(lra)). now rewrite (proj2 (Rltb_t _ _)) by lra. Qed.
Lemma mixed_fails : pick_a_final_state mixed (fun _ => mkDraw 0 0 0 0) neutron1 = Ok (Some (mkV 0 0 1000), Some 1).
Proof.
  pose proof vsq2e_pos as VP. pose proof v2k_pos as KP. assert (PN : pick_v_f mixed 0 (mkV 0 0 (-1)) (mkV 0 0 1000) 0 = None).
  { apply picked_none. cbn [mixed new_single sx_disp sx_xacc sx_nSteps]. change (vnorm (mkV 0 0 1000)) with (speed (mkV 0 0 1000)). rewrite speed1. set (f := omega_minus_deltaE _ _ _ _ _).
    assert (FP : forall x, 0 <= x <= 2000 -> 0 < f x). { intros x X. unfold f, omega_minus_deltaE. cbv zeta. cbn [en]. destruct (Rlt_dec _ _) as [L|L]; [exfalso; unfold vscale, vsub in L; cbn [vx vy vz] in L; nra|]. unfold vsquare2E, v2E. assert (Rabs (1000 * 1000 - x * x) <= 3000000) by (apply Rabs_le; split; nra). nra. }
    apply no_roots; [lra|lra|cbn [INR]; lra|]. intros j J C. pose proof (grid_within 0 (1000 * 2) 4 j ltac:(lia) ltac:(lia)) as G1; pose proof (grid_within 0 (1000 * 2) 4 (j + 1) ltac:(lia) ltac:(lia)) as G2. unfold within, Rmin, Rmax in G1, G2; destruct (Rle_dec 0 (1000 * 2)); try lra. pose proof (FP (grid 0 (1000 * 2) 4 j)); pose proof (FP (grid 0 (1000 * 2) 4 (j + 1))). destruct C; lra. }
  unfold pick_a_final_state. cbv zeta. cbn [neutron1 e_v e_p]. change (vnorm (mkV 0 0 1000)) with (speed (mkV 0 0 1000)). rewrite speed1, mixed_good.
  assert (LN : forall n i, choose_state mixed [0%nat] (mkV 0 0 1000) (fun _ => mkDraw 0 0 0 0) n i = Ok None).
  { induction n as [|n IH]; intros i; [reflexivity|]. cbn [choose_state dr_1 dr_2 dr_branch dr_root]. change (sx_radius mixed) with 0. unfold choose_scattering_direction. rewrite (proj2 (Rleb_true 0 0)) by lra. rewrite down, normalize_unit by (unfold norm2, sdot; cbn; ring). rewrite index0 by (cbn; lia). cbn [nth]. rewrite PN. apply IH. }
  rewrite LN. reflexivity.
Qed.
Lemma mixed_scatters : exists p, pick_a_final_state mixed (fun _ => mkDraw 1 0 0 0) neutron1 = Ok (Some (mkV 0 0 500), p).
Proof.
  pose proof vsq2e_pos as VP. pose proof v2k_pos as KP. pose proof (v2E_pos 1000 ltac:(lra)) as EP. unfold pick_a_final_state. cbv zeta. cbn [neutron1 e_v e_p]. change (vnorm (mkV 0 0 1000)) with (speed (mkV 0 0 1000)). rewrite speed1, mixed_good. unfold Niters. cbn [choose_state dr_1 dr_2 dr_branch dr_root]. change (sx_radius mixed) with 0. unfold choose_scattering_direction. rewrite (proj2 (Rleb_true 0 0)) by lra. rewrite up, normalize_unit by (unfold norm2, sdot; cbn; ring). rewrite index0 by (cbn; lia). cbn [nth].
  assert (PS : exists w, pick_v_f mixed 0 (mkV 0 0 1) (mkV 0 0 1000) 0 = Some (Some (mkV 0 0 500), w)).
  { unfold pick_v_f. cbv zeta. cbn [mixed new_single sx_disp sx_xacc sx_nSteps]. change (vnorm (mkV 0 0 1000)) with (speed (mkV 0 0 1000)). rewrite speed1. set (f := omega_minus_deltaE _ _ _ _ _).
    assert (F0 : f 0 <> 0). { unfold f, omega_minus_deltaE. cbv zeta. cbn [en]. destruct (Rlt_dec _ _) as [L|L]; [exfalso; unfold vscale, vsub in L; cbn [vx vy vz] in L; nra|]. unfold vsquare2E, v2E. replace (1000 * 1000 - 0 * 0) with 1000000 by ring. rewrite Rabs_right by lra. nra. }
    assert (F5 : f 500 = 0). { unfold f, omega_minus_deltaE. cbv zeta. cbn [en]. destruct (Rlt_dec _ _) as [L|L]; [|exfalso; apply L; unfold vscale, vsub; cbn [vx vy vz]; nra]. unfold vsquare2E, v2E. replace (1000 * 1000 - 500 * 500) with 750000 by ring. rewrite Rabs_right by lra. field. }
    assert (FE : find_roots_evenly (ZRidd_solve 1) 4 0 (1000 * 2) f = 500 :: flat_map (root_of_step (ZRidd_solve 1) f 0 ((1000 * 2 - 0) / INR 4)) (seq 1 3)).
    { unfold find_roots_evenly. cbn [seq flat_map]. match goal with |- ?a ++ ?b = _ => replace a with [500]; [reflexivity|] end. unfold root_of_step, ZRidd_solve, zridd. replace (INR 4) with 4 by (cbn; lra). replace (INR 0) with 0 by reflexivity. replace (INR (0 + 1)) with 1 by reflexivity.
      replace (0 + (1000 * 2 - 0) / 4 * 0) with 0 by field. replace (0 + (1000 * 2 - 0) / 4 * 1) with 500 by field. rewrite F5, Rmult_0_r. rewrite (proj2 (Rleb_true 0 0)) by lra. rewrite (proj2 (Reqb_f _ 0)) by exact F0. replace (Reqb 0 0) with true by (symmetry; apply Reqb_iff; reflexivity). reflexivity. }
    rewrite FE. rewrite index0 by (cbn; lia). cbn [nth]. rewrite normalize_unit by (unfold norm2, sdot; cbn; ring). cbn [option_map]. eexists. do 3 f_equal. unfold vscale. cbn. f_equal; ring. }
  destruct PS as (w & PS). rewrite PS. cbn [bind]. eexists. reflexivity.
Qed.
