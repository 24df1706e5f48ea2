(** Proofs for C69: retries, coefficients and witnesses. *)
From Coq Require Import FunctionalExtensionality Reals Lra Lia.
From Coquelicot Require Import Coquelicot.
From Verif Require Import Base RotModel RotSpec ChanModel ChanProofs ShapeModel ShapeSpec ShapeProofs ScatModel ScatSpec UnitModel UnitSpec UnitProofs KinModel KinSpec KinProofs KinProofs2 GridModel GridProofs PowdModel PowdSpec PowdProofs PowdProofs3 PhonModel PhonSpec PhonProofs3 RootModel RootSpec RootProofs RootProofs2 ConeModel ConeSpec ConeProofs CohModel CohSpec CohProofs CohProofs2 CohProofs3.
Open Scope R_scope.

Lemma draws_ext' k good vi d1 d2 left : forall i j, (forall m, (m < left)%nat -> d1 (i + m)%nat = d2 (j + m)%nat) -> choose_state k good vi d1 left i = choose_state k good vi d2 left j.
Proof.
  induction left as [|left IH]; intros i j H; [reflexivity|]. cbn. pose proof (H 0%nat ltac:(lia)) as H0. rewrite !Nat.add_0_r in H0. rewrite H0. rewrite (IH (S i) (S j)); [reflexivity|]. intros m M. specialize (H (S m) ltac:(lia)). now replace (S i + m)%nat with (i + S m)%nat by lia; replace (S j + m)%nat with (j + S m)%nat by lia.
Qed.
Lemma const_cases k good vi u : (forall m i, choose_state k good vi (fun _ => u) m i = Ok None) \/ exists r, r <> Ok None /\ forall m i, choose_state k good vi (fun _ => u) (S m) i = r.
Proof.
  cbn [choose_state]. destruct (choose_scattering_direction (dr_1 u) (dr_2 u) (sx_target k) (sx_radius k)) as [dir sol] eqn:DE. destruct good as [|g0 gl] eqn:GE; [right; exists (Err UndefinedBehaviour); split; [discriminate|reflexivity]|].
  destruct (match dir with None => None | Some d => normalize d end) as [n|] eqn:NE; [|right; exists (Err UndefinedBehaviour); split; [discriminate|reflexivity]].
  destruct (pick_v_f k (nth (random_index (dr_branch u) (List.length (g0 :: gl))) (g0 :: gl) 0%nat) n vi (dr_root u)) as [r|] eqn:PE; [right; eexists; split; [|reflexivity]; discriminate|].
  left. induction m as [|m IH]; intros i; [reflexivity|]. cbn [choose_state]. now rewrite DE, NE, PE.
Qed.
Lemma same_none k b v : later_factors k b v v = None.
Proof.
  unfold later_factors. cbv zeta. destruct (sum_of_scattering_length _ _ _ _); [|reflexivity]. destruct (phonon_bose_factor _ _); [|reflexivity]. replace (v2E (vnorm v) - v2E (vnorm v)) with 0 by ring. replace (Reqb 0 0) with true by (symmetry; apply Reqb_iff; reflexivity). now rewrite Bool.orb_true_r.
Qed.
Lemma retries k ev bad good j r : (j < 100)%nat -> pick_a_final_state k (fun _ => bad) ev = Ok (Some (e_v ev), Some (e_p ev)) -> pick_a_final_state k (fun _ => good) ev = r ->
  pick_a_final_state k (fun i => if (i <? j)%nat then bad else good) ev = r.
Proof.
  intros J HB HG. subst r. unfold pick_a_final_state in *. cbv zeta in *. set (gb := good_branches (sx_disp k) (v2E (vnorm (e_v ev)))) in *.
  assert (JN : (j < Niters)%nat) by exact J. clear J. generalize dependent Niters. intros n HB JN. destruct n as [|n]; [lia|].
  assert (BN : forall m i, choose_state k gb (e_v ev) (fun _ => bad) m i = Ok None).
  { destruct (const_cases k gb (e_v ev) bad) as [N|(r & RN & N)]; [exact N|]. exfalso. rewrite N in HB. destruct r as [[[[sa b] [[vf|] w]]|]|]; cbn [bind] in HB; try discriminate; [|now apply RN]. injection HB as HV HP. subst vf. rewrite same_none in HP. now destruct w, sa. }
  assert (E : choose_state k gb (e_v ev) (fun i => if (i <? j)%nat then bad else good) (S n) 0 = choose_state k gb (e_v ev) (fun _ => good) (S n) 0); [|now rewrite E].
  apply (loop_shift k gb (e_v ev) _ (S n) 0 j); [lia| |].
  - rewrite <- (BN j 0%nat). apply draws_ext'. intros m M. cbn [Nat.add]. now rewrite (proj2 (Nat.ltb_lt m j) M).
  - replace (choose_state k gb (e_v ev) (fun i => if (i <? j)%nat then bad else good) (S n - j) (0 + j)) with (choose_state k gb (e_v ev) (fun _ => good) (S n - j) (0 + j)).
    2:{ apply draws_ext'. intros m M. cbn [Nat.add]. now rewrite (proj2 (Nat.ltb_ge (j + m) j)) by lia. }
    destruct (const_cases k gb (e_v ev) good) as [N|(r & RN & N)]; [now rewrite !N|]. destruct (S n - j)%nat as [|m] eqn:E; [lia|]. now rewrite !N.
Qed.
(** sums *)
Lemma fold_sum (A : Type) (g : A -> R) l : forall s, fold_left (fun s a => s + g a) l s = s + total (map g l).
Proof. induction l as [|a l IH]; intros s; unfold total in *; cbn; [ring|]. rewrite IH. ring. Qed.

(** a crystal of two equal atoms in one place *)
Definition flat (c : R) : disp := mkD 1 (fun _ _ => 3 / 4 * v2E 1000) (fun _ i _ => stretched (if Nat.eqb i 0 then 1 else c) ((0, 0), (0, 0), (1, 0))) (fun _ => 3 / 4 * v2E 1000).
Definition crystal (c : R) : single := new_single (flat c) [mkCA (mkV 0 0 0) 1 1 1 0; mkCA (mkV 0 0 0) 1 1 1 0] 10 (fun _ => 0) 100 (1 / 10) 1 4 (mkV 0 0 0) 0.
Definition neutron1 : event := RotModel.mkE (mkV 0 0 0) (mkV 0 0 1000) 0 0 0 1.
Definition forward : nat -> draw := fun _ => mkDraw 1 0 0 0.
Lemma speed1 : speed (mkV 0 0 1000) = 1000. Proof. unfold speed, norm2, sdot. cbn. replace (0 * 0 + 0 * 0 + 1000 * 1000) with (1000 * 1000) by ring. apply sqrt_square. lra. Qed.
Lemma v2E_pos x : 0 < x -> 0 < v2E x. Proof. intros X. unfold v2E. pose proof vsq2e_pos. apply Rmult_lt_0_compat; [nra|assumption]. Qed.
Lemma up : choose_direction 1 0 = mkV 0 0 1.
Proof. unfold choose_direction, random. cbv zeta. replace (1 * (1 - -1) + -1) with 1 by ring. rewrite acos_1, sin_0. f_equal; ring. Qed.
Lemma index0 n : (0 < n)%nat -> random_index 0 n = 0%nat.
Proof. intros N. destruct (index_floor 0 n ltac:(lra) N) as [E _]. rewrite E, Rmult_0_l. replace 0 with (IZR 0) by reflexivity. rewrite <- (trunc_nonneg (IZR 0)) by (cbn; lra). now rewrite trunc_IZR. Qed.
Lemma crystal_f c x : omega_minus_deltaE (flat c) 0 (mkV 0 0 1) (mkV 0 0 1000) 1000 x = vsq2e * (3 / 4 * 1000 * 1000 - Rabs (1000 * 1000 - x * x)).
Proof. unfold omega_minus_deltaE. cbv zeta. cbn [flat en]. unfold v2E, vsquare2E. ring. Qed.
Lemma crystal_pick c : exists w, pick_v_f (crystal c) 0 (mkV 0 0 1) (mkV 0 0 1000) 0 = Some (Some (mkV 0 0 500), w).
Proof.
  unfold pick_v_f. cbv zeta. cbn [crystal new_single sx_disp sx_xacc sx_nSteps]. change (vnorm (mkV 0 0 1000)) with (speed (mkV 0 0 1000)). rewrite speed1. set (f := omega_minus_deltaE _ _ _ _ _).
  assert (FE : find_roots_evenly (ZRidd_solve 1) 4 0 (1000 * 2) f = 500 :: flat_map (root_of_step (ZRidd_solve 1) f 0 ((1000 * 2 - 0) / INR 4)) (seq 1 3)).
  { unfold find_roots_evenly. cbn [seq flat_map]. match goal with |- ?a ++ ?b = _ => replace a with [500]; [reflexivity|] end. unfold root_of_step, ZRidd_solve, zridd. replace (INR 4) with 4 by (cbn; lra). replace (INR 0) with 0 by reflexivity. replace (INR (0 + 1)) with 1 by reflexivity.
    replace (0 + (1000 * 2 - 0) / 4 * 0) with 0 by field. replace (0 + (1000 * 2 - 0) / 4 * 1) with 500 by field. unfold f. rewrite !crystal_f. replace (1000 * 1000 - 0 * 0) with 1000000 by ring. replace (1000 * 1000 - 500 * 500) with 750000 by ring. rewrite !Rabs_right by lra.
    replace (3 / 4 * 1000 * 1000 - 750000) with 0 by field. rewrite !Rmult_0_r. rewrite (proj2 (Rleb_true 0 0)) by lra. pose proof vsq2e_pos. rewrite (proj2 (Reqb_f _ 0)) by nra. replace (Reqb 0 0) with true by (symmetry; apply Reqb_iff; reflexivity). reflexivity. }
  rewrite FE. rewrite index0 by (cbn; lia). cbn [nth]. rewrite normalize_unit by (unfold norm2, sdot; cbn; ring). cbn [option_map]. eexists. do 3 f_equal. unfold vscale. cbn. f_equal; ring.
Qed.
Lemma crystal_good c : good_branches (flat c) (v2E 1000) = [0%nat].
Proof. unfold good_branches. cbn [flat nBr seq filter min_en]. pose proof (v2E_pos 1000 ltac:(lra)). now rewrite (proj2 (Rltb_t _ _)) by lra. Qed.
Lemma crystal_runs c : exists p, pick_a_final_state (crystal c) forward neutron1 = Ok (Some (mkV 0 0 500), p).
Proof.
  unfold pick_a_final_state. cbv zeta. cbn [neutron1 e_v crystal new_single sx_disp]. change (vnorm (mkV 0 0 1000)) with (speed (mkV 0 0 1000)). rewrite speed1, crystal_good. unfold Niters. cbn [choose_state]. cbn [forward dr_1 dr_2 dr_branch dr_root crystal new_single sx_target sx_radius]. unfold choose_scattering_direction. rewrite (proj2 (Rleb_true 0 0)) by lra. rewrite up, normalize_unit by (unfold norm2, sdot; cbn; ring).
  rewrite index0 by (cbn; lia). cbn [nth]. destruct (crystal_pick c) as (w & E). fold (new_single (flat c) [mkCA (mkV 0 0 0) 1 1 1 0; mkCA (mkV 0 0 0) 1 1 1 0] 10 (fun _ => 0) 100 (1 / 10) 1 4 (mkV 0 0 0) 0). fold (crystal c). rewrite E. cbn [bind]. eexists. reflexivity.
Qed.
Lemma crystal_pre : e_v neutron1 <> mkV 0 0 0 /\ (forall c, 0 < sx_radius (crystal c) -> sx_target (crystal c) <> mkV 0 0 0) /\ (forall i, 0 <= dr_1 (forward i) <= 1) /\
  (forall c, (0 < sx_nSteps (crystal c))%nat /\ 0 < sx_xacc (crystal c) < 10 ^ 30 /\ 2 * speed (e_v neutron1) <= INR (sx_nSteps (crystal c)) * (2 ^ 59 * sx_xacc (crystal c))).
Proof.
  split; [intros E; injection E as E; lra|]. split; [cbn; intros _ H; lra|]. split; [intros i; cbn; lra|]. intros c. cbn [crystal new_single sx_nSteps sx_xacc neutron1 e_v]. rewrite speed1. split; [lia|]. split; [lra|]. cbn [INR]. lra.
Qed.
Definition demo_q : vec3 := mkV 0 0 (v2k * 500).
Lemma demo_wave : wave_vector demo_q (vsub (mkV 0 0 1000) (mkV 0 0 500)).
Proof. apply wave_vector_iff. unfold demo_q, vscale, vsub. cbn. f_equal; ring. Qed.
Lemma demo_factor c : structure_factor demo_q (map (fun j => pol (flat c) 0 j demo_q) (seq 0 2)) (sx_atoms (crystal c)) = (v2k * 500 * (1 + c), 0).
Proof. cbn [crystal new_single sx_atoms seq map flat pol Nat.eqb stretched structure_factor ca_b ca_mass ca_position fst snd demo_q vx vy vz]. unfold sdot. cbn [vx vy vz]. rewrite !Rmult_0_r, !Rplus_0_r, cos_0, sin_0, sqrt_1. f_equal; field. Qed.
Lemma recoil_pos x e : 0 < x -> recoil x e -> 0 < e.
Proof. intros X (k & s & E & W & N). apply is_wavenumber_iff in W. apply is_energy_iff in N. subst. unfold v2E. pose proof vsq2e_pos. apply Rmult_lt_0_compat; [|assumption]. assert (s <> 0). { intros ->. rewrite Rmult_0_r in X. lra. } nra. Qed.
Lemma occupation_pos E T n : 0 < E -> 0 < T -> occupation E T n -> 0 < n.
Proof.
  intros E0 T0 H. unfold occupation in H. assert (1 < exp (E * (11605 / 1000) / T)). { rewrite <- exp_0 at 1. apply exp_increasing. apply Rdiv_lt_0_compat; lra. } apply (Rmult_lt_reg_r (exp (E * (11605 / 1000) / T) - 1)); lra.
Qed.
Lemma thermal_pos E T f : 0 < T -> thermal E T f -> 0 < f.
Proof. intros T0 [(E0 & n & H & ->)|(E0 & H)]; [apply occupation_pos in H|apply occupation_pos in H]; lra. Qed.
Lemma one_phonon_pos F sigma omega T ki kf dw w : 0 < fst F ^ 2 + snd F ^ 2 -> 0 < sigma -> 0 < T -> omega <> 0 -> 0 < ki -> 0 < kf -> one_phonon_factor F sigma omega T ki kf dw w -> 0 < w.
Proof.
  intros FP SP TP ON KI KF (r & f & R1 & TH & ->). apply recoil_pos in R1; [|apply Rdiv_lt_0_compat; lra]. apply thermal_pos in TH; [|exact TP]. pose proof (exp_pos (- dw)). pose proof (Rabs_pos_lt _ ON). pose proof (Rdiv_lt_0_compat _ _ R1 H0). pose proof (Rdiv_lt_0_compat _ _ KF KI).
  repeat first [assumption|apply Rmult_lt_0_compat].
Qed.
Lemma speed500 : speed (mkV 0 0 500) = 500. Proof. unfold speed, norm2, sdot. cbn. replace (0 * 0 + 0 * 0 + 500 * 500) with (500 * 500) by ring. apply sqrt_square. lra. Qed.
Lemma length2_stretched c : length2 (stretched c ((0, 0), (0, 0), (1, 0))) = c * c. Proof. cbn. ring. Qed.
Lemma unit_demo c : 0 < c -> structure_factor demo_q (unit_displacements (flat c) 0 demo_q 2) (sx_atoms (crystal c)) = (v2k * 500 * 2, 0).
Proof.
  intros C. unfold unit_displacements. cbn [seq map flat pol Nat.eqb]. rewrite !length2_stretched. rewrite !sqrt_square by lra. cbn [crystal new_single sx_atoms stretched structure_factor ca_b ca_mass ca_position fst snd demo_q vx vy vz]. unfold sdot. cbn [vx vy vz]. rewrite !Rmult_0_r, !Rplus_0_r, cos_0, sin_0, sqrt_1. f_equal; field; lra.
Qed.
Lemma crystal_weight c : 0 < c -> exists p, pick_a_final_state (crystal c) forward neutron1 = Ok (Some (mkV 0 0 500), Some p) /\ 0 < p.
Proof.
  intros C0. destruct (crystal_runs c) as (p & E). rewrite E. destruct crystal_pre as (N & T & U & P). destruct (P c) as (P1 & P2 & P3).
  destruct (state (crystal c) forward neutron1 (mkV 0 0 500) p N (T c) U P1 P2 P3 E) as [[H _]|(b & dir & s & f & chg & i & Ei & Ef & q & ki & kf & E1 & E2 & Q & K1 & K2 & B & _ & NN & _ & VE & FX & H)]; [exfalso; injection H as H; lra|].
  cbv zeta in H. destruct H as (CG & IL & IE & W). cbn [sx_nSteps sx_disp crystal new_single neutron1 e_v] in *. rewrite speed1 in *.
  assert (b = 0%nat) by (cbn in B; lia). subst b. pose proof (proj1 (wave_vector_iff _ _) Q) as QE. pose proof (proj1 (wave_vector_iff _ _) demo_wave) as QD. assert (QQ : q = demo_q) by congruence. clear QE QD. subst q.
  apply zridd_found in IE. destruct IE as (SG & WI & _).
  assert (S0 : 0 <= s). { pose proof (grid_within 0 (2 * 1000) 4 i ltac:(lia) ltac:(lia)) as G1. pose proof (grid_within 0 (2 * 1000) 4 (i + 1) ltac:(lia) ltac:(lia)) as G2. unfold within, Rmin, Rmax in *. repeat destruct (Rle_dec _ _); lra. }
  assert (SE : s = 500). { pose proof (speed_scale_abs s dir NN) as K. rewrite <- VE, speed500, Rabs_right in K by lra. lra. } subst s.
  assert (CH : chg i = true) by (apply CG; [exact IL|]; apply sign_cases; exact SG).
  apply is_energy_iff in E1, E2. apply is_wavenumber_iff in K1, K2. rewrite speed500 in *.
  assert (SL : Rabs (f (500 + 1 / 10 * 1000) - f (500 - 1 / 10 * 1000)) / (2 * (1 / 10 * 1000)) = 2 * vsq2e * 500).
  { apply (flat_slope (flat c) 0 (mkV 0 0 1000) dir f (3 / 4 * v2E 1000)); try lra; [reflexivity|exact FX|left; rewrite speed1; lra|apply rate_of]. }
  pose proof vsq2e_pos as VP. pose proof v2k_pos as KP. cbn [crystal new_single sx_T sx_scattering sx_DV sx_atoms sx_target sx_radius sx_DW fold_left ca_coh] in W.
  destruct W as (rate & w & bs & ND & BS & RT & OP & PE); try lra; [repeat constructor; cbn; lra| | |].
  - intros j J. cbn [flat pol]. rewrite length2_stretched. destruct (Nat.eqb j 0); nra.
  - intros Z. rewrite Z, Rminus_diag_eq in SL by reflexivity. rewrite Rabs_R0 in SL. lra.
  - exists (1 * (INR (List.length (filter chg (seq 0 4))) * (rate / (Rabs (f (500 + 1 / 10 * 1000) - f (500 - 1 / 10 * 1000)) / (2 * (1 / 10 * 1000)))) * target_solid (mkV 0 0 0) 0 * INR (List.length bs) * w)). split; [rewrite PE; reflexivity|].
    rewrite SL. pose proof (is_derive_unique _ _ _ (RT v2E (fun x => proj2 (is_energy_iff _ _) eq_refl))) as R1. pose proof (is_derive_unique _ _ _ (rate_of 500 v2E (fun x => proj2 (is_energy_iff _ _) eq_refl))) as R2. rewrite R1 in R2. subst rate.
    replace (2 * vsq2e * 500 / (2 * vsq2e * 500)) with 1 by (field; lra). assert (N1 : 0 < INR (List.length (filter chg (seq 0 4)))).
    { apply lt_0_INR. assert (In i (filter chg (seq 0 4))) as I by (apply filter_In; split; [apply in_seq; lia|exact CH]). destruct (filter chg (seq 0 4)); [destruct I|cbn; lia]. }
    assert (N2 : 0 < INR (List.length bs)). { apply lt_0_INR. assert (In 0%nat bs) as I. { apply BS. split; [cbn; lia|]. cbn [flat min_en]. rewrite E1. pose proof (v2E_pos 1000 ltac:(lra)). lra. } destruct bs; [destruct I|cbn; lia]. }
    assert (N3 : 0 < target_solid (mkV 0 0 0) 0). { unfold target_solid. destruct (Rle_dec 0 0); [|lra]. pose proof PI_RGT_0. lra. }
    apply one_phonon_pos in OP; try lra; [rewrite Rmult_1_l; repeat first [assumption|lra|apply Rmult_lt_0_compat|apply Rinv_0_lt_compat]| | ].
    + match goal with |- context [structure_factor ?x ?y ?z] => replace (structure_factor x y z) with (v2k * 500 * 2, 0) by (symmetry; exact (unit_demo c C0)) end. cbn [fst snd]. assert (0 < v2k * 500 * 2) by lra. nra.
    + rewrite E1, E2. apply energy_neq; lra.
Qed.
(** a crystal whose phonons the neutron can not make in the directions to the target *)
Definition hard : single := new_single (mkD 1 (fun _ q => if Req_EM_T (norm2 q) 0 then 0 else 4 * v2E 1000) (fun _ _ _ => ((0, 0), (0, 0), (1, 0))) (fun _ => 0)) [mkCA (mkV 0 0 0) 1 1 1 0] 10 (fun _ => 0) 100 (1 / 10) 1 4 (mkV 0 0 (-10)) 1.
Lemma hard_gives_up draws : (forall i, 0 <= dr_1 (draws i) <= 1) -> pick_a_final_state hard draws neutron1 = Ok (Some (mkV 0 0 1000), Some 1).
Proof.
  intros U. pose proof (v2E_pos 1000 ltac:(lra)) as EP. apply (gives_up hard draws neutron1 (v2E 1000) 0%nat).
  - intros _ E. injection E as E. lra.
  - exact U.
  - cbn. lra.
  - cbn [hard new_single sx_nSteps sx_xacc neutron1 e_v]. rewrite speed1. cbn [INR]. lra.
  - cbn [neutron1 e_v]. rewrite speed1. now apply is_energy_iff.
  - cbn. lia.
  - cbn [hard new_single sx_disp min_en]. lra.
  - intros b dir f _ NN HD FX j J. cbn [hard new_single sx_nSteps sx_radius sx_target neutron1 e_v] in *. rewrite speed1. specialize (HD ltac:(lra)).
    assert (ZN : vz dir < 0). { destruct HD as (t & T0 & H1 & H2). unfold sdot, vscale, vsub, norm2, sdot in *. cbn in *. destruct dir as [x y z]. cbn in *. nra. }
    assert (FP : forall x, 0 <= x <= 2000 -> 0 < f x).
    { intros x X. pose proof (excess_unique _ _ _ _ _ _ (FX x) (excess_of _ b (mkV 0 0 1000) dir x NN)) as ->. unfold omega_minus_deltaE. cbv zeta. cbn [hard new_single sx_disp en]. change (vnorm (mkV 0 0 1000)) with (speed (mkV 0 0 1000)). rewrite speed1. match goal with |- context [Req_EM_T ?y 0] => destruct (Req_EM_T y 0) as [Z|Z] end.
      - exfalso. pose proof v2k_pos as KP. assert (0 < v2k * (1000 - x * vz dir)) by (apply Rmult_lt_0_compat; nra). unfold norm2, sdot, vscale, vsub in Z. cbn in Z. nra.
      - unfold vsquare2E, v2E. pose proof vsq2e_pos as VP. assert (Rabs (1000 * 1000 - x * x) <= 3000000) by (apply Rabs_le; split; nra). nra. }
    intros [C|C]; pose proof (grid_within 0 (2 * 1000) 4 j ltac:(lia) ltac:(lia)) as G1; pose proof (grid_within 0 (2 * 1000) 4 (j + 1) ltac:(lia) ltac:(lia)) as G2; unfold within, Rmin, Rmax in G1, G2; destruct (Rle_dec 0 (2 * 1000)); try lra; pose proof (FP (grid 0 (2 * 1000) 4 j)); pose proof (FP (grid 0 (2 * 1000) 4 (j + 1))); lra.
Qed.
