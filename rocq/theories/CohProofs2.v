(** Proofs for C69: weights. *)
From Coq Require Import Reals Lra Lia.
From Coquelicot Require Import Coquelicot.
From Verif Require Import Base RotModel RotSpec ChanModel ChanProofs ShapeModel ShapeSpec ShapeProofs ScatModel ScatSpec UnitModel UnitSpec UnitProofs KinModel KinSpec KinProofs KinProofs2 GridModel GridProofs PowdModel PowdSpec PowdProofs PowdProofs3 PhonModel PhonSpec PhonProofs3 RootModel RootSpec RootProofs RootProofs2 ConeModel ConeSpec ConeProofs CohModel CohSpec CohProofs.
Open Scope R_scope.

Lemma eps2_length e : eps2 e = length2 e. Proof. destruct e as [[[a b] [c d]] [f g]]. cbn. ring. Qed.
Lemma sum_is Q e : forall atoms i, (forall j, (i <= j < i + List.length atoms)%nat -> 0 < length2 (e j)) -> Forall (fun a => 0 < ca_mass a) atoms ->
  sum_of_scattering_length Q i e atoms = Some (structure_factor Q (map (fun j => stretched (/ sqrt (length2 (e j))) (e j)) (seq i (List.length atoms))) atoms).
Proof.
  induction atoms as [|a l IH]; intros i E M; [reflexivity|]. cbn [sum_of_scattering_length List.length seq map]. inversion M as [|? ? M1 M2]; subst. rewrite IH; [|intros j J; apply E; cbn; lia|exact M2].
  unfold atom_term. cbv zeta. rewrite eps2_length. assert (LP : 0 < sqrt (length2 (e i))) by (apply sqrt_lt_R0, E; cbn; lia). rewrite (proj2 (Reqb_f _ _)) by lra. rewrite (proj2 (Rleb_false _ _)) by exact M1. cbn [orb].
  set (L := sqrt (length2 (e i))) in *. clearbody L. destruct (e i) as [[[x1 x2] [y1 y2]] [z1 z2]]. cbn [stretched structure_factor dot_eps fst snd]. unfold cadd, cmul. cbn [fst snd]. change (vdot Q (ca_position a)) with (sdot Q (ca_position a)). pose proof (sqrt_lt_R0 _ M1) as MP. set (mm := sqrt (ca_mass a)) in *. clearbody mm. f_equal. f_equal; field; lra.
Qed.
Lemma recoil_of x : 0 <= x -> recoil x (ksquare2E x).
Proof.
  intros X. exists (sqrt x), (k2v * sqrt x). split; [cbn; rewrite Rmult_1_r; symmetry; now apply sqrt_sqrt|]. split.
  - apply is_wavenumber_iff. rewrite <- Rmult_assoc, (Rmult_comm v2k), k2v_v2k. ring.
  - apply is_energy_iff. unfold ksquare2E, vsquare2E, v2E. replace (k2v * sqrt x * (k2v * sqrt x)) with (k2v * k2v * (sqrt x * sqrt x)) by ring. now rewrite sqrt_sqrt.
Qed.
Lemma energy_neq a b : 0 <= a -> 0 <= b -> a <> b -> v2E a - v2E b <> 0.
Proof. intros A B N H. apply N. unfold v2E in H. pose proof vsq2e_pos. assert ((a - b) * (a + b) = 0) by (apply Rmult_eq_reg_r with vsq2e; lra). destruct (Rmult_integral _ _ H1); lra. Qed.
Lemma later_is k b v v' ki kf Ei Ef q : v <> mkV 0 0 0 -> speed v' <> speed v -> 0 < sx_T k -> 0 < sx_scattering k -> Forall (fun a => 0 < ca_mass a) (sx_atoms k) ->
  wave_vector q (vsub v v') -> is_wavenumber ki (speed v) -> is_wavenumber kf (speed v') -> is_energy Ei (speed v) -> is_energy Ef (speed v') ->
  (forall j, (j < List.length (sx_atoms k))%nat -> 0 < length2 (pol (sx_disp k) b j q)) ->
  exists w, later_factors k b v v' = Some w /\ one_phonon_factor (structure_factor q (unit_displacements (sx_disp k) b q (List.length (sx_atoms k))) (sx_atoms k)) (sx_scattering k) (Ei - Ef) (sx_T k) ki kf (sx_DW k (speed q)) w.
Proof.
  intros N V T Sg M Q KI KF EI EF P. apply wave_vector_iff in Q. apply is_wavenumber_iff in KI, KF. apply is_energy_iff in EI, EF. subst. set (q := vscale v2k (vsub v v')) in *.
  pose proof (energy_neq (speed v) (speed v') (sqrt_pos _) (sqrt_pos _) (fun h => V (eq_sym h))) as ON. destruct (factor_thermal _ (sx_T k) ON T) as (f & FE & TH). unfold later_factors. cbv zeta. change (vnorm v) with (speed v). change (vnorm v') with (speed v'). fold q.
  rewrite (sum_is q (fun i => pol (sx_disp k) b i q)); [|intros j J; apply P; lia|exact M]. fold (unit_displacements (sx_disp k) b q (List.length (sx_atoms k))). rewrite FE. pose proof (speed_pos v N) as SP. pose proof v2k_pos as KP.
  rewrite (proj2 (Reqb_f (sx_scattering k) 0)) by lra. rewrite (proj2 (Reqb_f _ 0) ON). rewrite (proj2 (Reqb_f (v2k * speed v) 0)) by nra. cbn [orb]. set (F := structure_factor _ _ _). eexists. split; [reflexivity|].
  exists (ksquare2E (cnorm F / 10 ^ 30 / (sx_scattering k * (1 / 10 ^ 28)))), f. split; [|split; [exact TH|reflexivity]].
  assert (CP : 0 <= cnorm F) by (unfold cnorm; nra). replace ((fst F ^ 2 + snd F ^ 2) / (100 * sx_scattering k)) with (cnorm F / 10 ^ 30 / (sx_scattering k * (1 / 10 ^ 28))) by (unfold cnorm; field; lra).
  apply recoil_of. apply Rmult_le_pos; [apply Rmult_le_pos; [exact CP|left; apply Rinv_0_lt_compat; lra]|left; apply Rinv_0_lt_compat; nra].
Qed.
Lemma rate_of s : forall E : R -> R, (forall x, is_energy (E x) x) -> is_derive E s (2 * vsq2e * s).
Proof.
  intros E H. apply (is_derive_ext v2E); [intros x; symmetry; now apply is_energy_iff|]. unfold v2E. auto_derive; [trivial|ring].
Qed.
Lemma good_iff d Ei b : In b (good_branches d Ei) <-> (b < nBr d)%nat /\ min_en d b < 3 / 2 * Ei.
Proof. unfold good_branches. rewrite filter_In, in_seq, Rltb_t. split; intros [A B]; split; try lia; lra. Qed.

(** everything about a state *)
Lemma state k draws ev v' p : e_v ev <> mkV 0 0 0 -> (0 < sx_radius k -> sx_target k <> mkV 0 0 0) -> (forall i, 0 <= dr_1 (draws i) <= 1) ->
  (0 < sx_nSteps k)%nat -> 0 < sx_xacc k < 10 ^ 30 -> 2 * speed (e_v ev) <= INR (sx_nSteps k) * (2 ^ 59 * sx_xacc k) -> pick_a_final_state k draws ev = Ok (Some v', p) ->
  (v' = e_v ev /\ p = Some (e_p ev)) \/
  exists b dir s f chg i Ei Ef q ki kf,
    is_energy Ei (speed (e_v ev)) /\ is_energy Ef (speed v') /\ wave_vector q (vsub (e_v ev) v') /\ is_wavenumber ki (speed (e_v ev)) /\ is_wavenumber kf (speed v') /\
    (b < nBr (sx_disp k))%nat /\ min_en (sx_disp k) b < 3 / 2 * Ei /\ norm2 dir = 1 /\ (0 < sx_radius k -> hits_disk (sx_target k) (sx_radius k) dir) /\ v' = vscale s dir /\
    (forall x, excess (sx_disp k) b (e_v ev) (vscale x dir) (f x)) /\
    let pt := grid 0 (2 * speed (e_v ev)) (sx_nSteps k) in
    (forall j, (j < sx_nSteps k)%nat -> chg j = true <-> changes_sign f (pt j) (pt (j + 1)%nat)) /\ (i < sx_nSteps k)%nat /\ ZRidd_solve (sx_xacc k) (pt i) (pt (i + 1)%nat) f = Found s /\
    (0 < sx_T k -> 0 < sx_scattering k -> 0 < sx_DV k -> Forall (fun a => 0 < ca_mass a) (sx_atoms k) -> (forall j, (j < List.length (sx_atoms k))%nat -> 0 < length2 (pol (sx_disp k) b j q)) -> speed v' <> speed (e_v ev) ->
     let dv := sx_DV k * speed (e_v ev) in f (s - dv) <> f (s + dv) ->
     exists (rate w : R) (bs : list nat), NoDup bs /\ (forall c, In c bs <-> (c < nBr (sx_disp k))%nat /\ min_en (sx_disp k) c < 3 / 2 * Ei) /\ (forall E : R -> R, (forall x, is_energy (E x) x) -> is_derive E s rate) /\
       one_phonon_factor (structure_factor q (unit_displacements (sx_disp k) b q (List.length (sx_atoms k))) (sx_atoms k)) (sx_scattering k) (Ei - Ef) (sx_T k) ki kf (sx_DW k (speed q)) w /\
       p = Some (e_p ev * (INR (List.length (filter chg (seq 0 (sx_nSteps k)))) * (rate / (Rabs (f (s + dv) - f (s - dv)) / (2 * dv))) * target_solid (sx_target k) (sx_radius k) * INR (List.length bs) * w))).
Proof.
  intros N T U NS X W H. unfold pick_a_final_state in H. cbv zeta in H. set (good := good_branches (sx_disp k) (v2E (vnorm (e_v ev)))) in *.
  destruct (choose_state k good (e_v ev) draws Niters 0) as [o|] eqn:C; [|discriminate]. cbn [bind] in H. destruct o as [[[sa b] [vf w0]]|]; [|injection H as <- <-; now left]. right.
  destruct (loop_some k good (e_v ev) draws U T _ _ _ _ _ C) as (dir & u & G & NN & HD & -> & PE). destruct (picked k b dir (e_v ev) u vf w0 NN PE) as (s & SI & -> & WE). cbv zeta in H. injection H as <- HP.
  set (f := omega_minus_deltaE (sx_disp k) b dir (e_v ev) (vnorm (e_v ev))) in *. change (vnorm (e_v ev)) with (speed (e_v ev)) in *. rewrite (Rmult_comm (speed (e_v ev)) 2) in *.
  apply in_roots in SI; [|exact NS]. destruct SI as (i & IL & IE). pose proof (speed_pos _ N) as SP. destruct (count_roots f (sx_xacc k) (sx_nSteps k) (2 * speed (e_v ev)) X ltac:(lra) W) as (chg & CG & CL).
  apply good_iff in G. destruct G as [G1 G2]. exists b, dir, s, f, chg, i, (v2E (speed (e_v ev))), (v2E (speed (vscale s dir))), (vscale v2k (vsub (e_v ev) (vscale s dir))), (v2k * speed (e_v ev)), (v2k * speed (vscale s dir)).
  do 2 (split; [now apply (proj2 (is_energy_iff _ _))|]). split; [now apply (proj2 (wave_vector_iff _ _))|]. do 2 (split; [now apply (proj2 (is_wavenumber_iff _ _))|]). split; [exact G1|]. split; [exact G2|]. split; [exact NN|]. split; [exact HD|]. split; [reflexivity|]. split; [exact (fun x => excess_of _ _ _ _ x NN)|]. cbv zeta. split; [exact CG|]. split; [exact IL|]. split; [exact IE|].
  intros T0 S0 D0 M P V J. set (dv := sx_DV k * speed (e_v ev)) in *. destruct (later_is k b (e_v ev) (vscale s dir) _ _ _ _ _ N V T0 S0 M (proj2 (wave_vector_iff _ _) eq_refl) (proj2 (is_wavenumber_iff _ _) eq_refl) (proj2 (is_wavenumber_iff _ _) eq_refl) (proj2 (is_energy_iff _ _) eq_refl) (proj2 (is_energy_iff _ _) eq_refl) P) as (w & LE & OP).
  exists (2 * vsq2e * s), w, good. split; [apply NoDup_filter, seq_NoDup|]. split; [exact (good_iff _ _)|]. split; [exact (rate_of s)|]. split; [exact OP|]. rewrite LE in HP. cbv zeta in WE. fold dv in WE. assert (DP : 0 < dv) by (unfold dv; nra). rewrite (proj2 (Reqb_f (2 * dv) 0)) in WE by lra.
  assert (JP : 0 < Rabs (f (s + dv) - f (s - dv)) / (2 * dv)) by (apply Rdiv_lt_0_compat; [apply Rabs_pos_lt; intros Z; apply J; lra|lra]). rewrite (proj2 (Reqb_f (Rabs (f (s + dv) - f (s - dv)) / (2 * dv)) 0)) in WE by lra. rewrite WE in HP. rewrite <- HP, <- CL. reflexivity.
Qed.
