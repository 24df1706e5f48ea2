(** C69, C70: coherent scattering by one phonon, in single crystals and powders. *)
From Coq Require Import FunctionalExtensionality Reals Lra Lia.
From Coquelicot Require Import Coquelicot.
From Verif Require Import Base RotModel RotSpec ChanModel ChanProofs ShapeModel ShapeSpec ShapeProofs ScatModel ScatSpec UnitModel UnitSpec UnitProofs KinModel KinSpec KinProofs KinProofs2 KinProofs3 GridModel GridProofs PowdModel PowdSpec PowdProofs PowdProofs3 PhonModel PhonSpec PhonProofs3 RootModel RootSpec RootProofs RootProofs2 RootProofs3 ConeModel ConeSpec ConeProofs CohModel CohSpec CohProofs CohProofs2 CohProofs3 CohProofs4 CohProofs5 CohProofs6.
Open Scope R_scope.

(** C69.  A neutron leaves a single crystal as it came, or along a direction towards the target with a speed from a step of the search in which the energy balance of some branch changes sign.
    The weight is that of one-phonon scattering, with unit displacements, and the number of steps with a root, the solid angle and the number of branches that were tried. *)
Theorem C69_state : forall (k : single) (draws : nat -> draw) (ev : event) (v' : vec3) (p : option R),
  e_v ev <> mkV 0 0 0 -> (0 < sx_radius k -> sx_target k <> mkV 0 0 0) -> (forall i, 0 <= dr_1 (draws i) <= 1) ->
  (0 < sx_nSteps k)%nat -> 0 < sx_xacc k < 10 ^ 30 -> 2 * speed (e_v ev) <= INR (sx_nSteps k) * (2 ^ 59 * sx_xacc k) ->
  pick_a_final_state k draws ev = Ok (Some v', p) ->
  (v' = e_v ev /\ p = Some (e_p ev)) \/
  exists (b : nat) (dir : vec3) (s : R) (f : R -> R) (chg : nat -> bool) (i : nat) (Ei Ef ki kf : R) (q : vec3),
    arrives (e_v ev) Ei ki /\ arrives v' Ef kf /\ wave_vector q (vsub (e_v ev) v') /\
    (b < nBr (sx_disp k))%nat /\ min_en (sx_disp k) b < 3 / 2 * Ei /\ norm2 dir = 1 /\ (0 < sx_radius k -> hits_disk (sx_target k) (sx_radius k) dir) /\ v' = vscale s dir /\
    (forall x, excess (sx_disp k) b (e_v ev) (vscale x dir) (f x)) /\
    let pt := grid 0 (2 * speed (e_v ev)) (sx_nSteps k) in
    (forall j, (j < sx_nSteps k)%nat -> chg j = true <-> changes_sign f (pt j) (pt (j + 1)%nat)) /\ (i < sx_nSteps k)%nat /\ chg i = true /\ within (pt i) (pt (i + 1)%nat) s /\
    (forall m M, 0 < m <= M -> continuous_between f (pt i) (pt (i + 1)%nat) -> slopes_within f (pt i) (pt (i + 1)%nat) m M \/ slopes_within (fun x => - f x) (pt i) (pt (i + 1)%nat) m M ->
       exists r, within (pt i) (pt (i + 1)%nat) r /\ conserved (sx_disp k) b (e_v ev) (vscale r dir) /\ Rabs (s - r) <= 2 * (M / m) ^ 2 * sx_xacc k) /\
    (0 < sx_T k -> 0 < sx_scattering k -> 0 < sx_DV k -> Forall (fun a => 0 < ca_mass a) (sx_atoms k) -> (forall j, (j < List.length (sx_atoms k))%nat -> 0 < length2 (pol (sx_disp k) b j q)) -> speed v' <> speed (e_v ev) ->
     let dv := sx_DV k * speed (e_v ev) in f (s - dv) <> f (s + dv) ->
     exists (rate w : R) (bs : list nat), NoDup bs /\ (forall c, In c bs <-> (c < nBr (sx_disp k))%nat /\ min_en (sx_disp k) c < 3 / 2 * Ei) /\
       (forall E : R -> R, (forall x, is_energy (E x) x) -> is_derive E s rate) /\
       one_phonon_factor (structure_factor q (unit_displacements (sx_disp k) b q (List.length (sx_atoms k))) (sx_atoms k)) (sx_scattering k) (Ei - Ef) (sx_T k) ki kf (sx_DW k (speed q)) w /\
       p = Some (e_p ev * (INR (List.length (filter chg (seq 0 (sx_nSteps k)))) * (rate / (Rabs (f (s + dv) - f (s - dv)) / (2 * dv))) * target_solid (sx_target k) (sx_radius k) * INR (List.length bs) * w))).
Proof.
  intros k draws ev v' p N T U NS X W H. destruct (state k draws ev v' p N T U NS X W H) as [A|(b & dir & s & f & chg & i & Ei & Ef & q & ki & kf & E1 & E2 & Q & K1 & K2 & B & BM & NN & HD & VE & FX & CG & IL & IE & WT)]; [now left|right].
  exists b, dir, s, f, chg, i, Ei, Ef, ki, kf, q. split; [now split|]. split; [now split|]. split; [exact Q|]. split; [exact B|]. split; [exact BM|]. split; [exact NN|]. split; [exact HD|]. split; [exact VE|]. split; [exact FX|]. cbv zeta.
  split; [exact CG|]. split; [exact IL|]. pose proof (zridd_found _ _ _ _ _ IE) as (SG & WI & _). split; [apply CG; [exact IL|]; now apply sign_cases|]. split; [exact WI|]. split; [|exact WT].
  intros m M [M0 M1] C S. assert (X0 : 0 <= sx_xacc k) by lra. destruct (zridd_accuracy f _ _ _ s m M C S M0 M1 X0 IE) as (r & RW & RE & RA). exists r. split; [exact RW|]. split; [|exact RA]. now apply (conserved_iff _ _ _ dir f).
Qed.
Print Assumptions C69_state.
(** From 1000 m/s to 500 m/s, a crystal with a flat branch. *)
Example C69_state_example : exists p, pick_a_final_state (crystal 1) forward neutron1 = Ok (Some (mkV 0 0 500), Some p) /\ 0 < p.
Proof. apply crystal_weight. lra. Qed.
Print Assumptions C69_state_example.

(** The quotient of differences in the weight is a slope of the energy balance somewhere between, so that with a flat branch both factors cancel. *)
Theorem C69_jacobian : forall (f f' : R -> R) (s dv : R),
  0 < dv -> (forall x, s - dv <= x <= s + dv -> derivable_pt_lim f x (f' x)) -> exists x, s - dv <= x <= s + dv /\ Rabs (f (s + dv) - f (s - dv)) / (2 * dv) = Rabs (f' x).
Proof. exact mean_slope. Qed.
Print Assumptions C69_jacobian.
Theorem C69_flat : forall (d : disp) (b : nat) (v dir : vec3) (f : R -> R) (w0 s dv rate : R),
  norm2 dir = 1 -> (forall q, en d b q = w0) -> (forall x, excess d b v (vscale x dir) (f x)) -> 0 < dv -> dv <= s -> (s + dv <= speed v \/ speed v <= s - dv) ->
  (forall E : R -> R, (forall x, is_energy (E x) x) -> is_derive E s rate) -> Rabs (f (s + dv) - f (s - dv)) / (2 * dv) = rate.
Proof. exact flat_slope. Qed.
Print Assumptions C69_flat.
Example C69_flat_example : (forall q, en (flat 1) 0 q = 3 / 4 * v2E 1000) /\ 100 <= 500 /\ 500 + 100 <= speed (mkV 0 0 1000) /\ forall E : R -> R, (forall x, is_energy (E x) x) -> is_derive E 500 (2 * vsq2e * 500).
Proof. split; [reflexivity|]. split; [lra|]. split; [rewrite speed1; lra|apply rate_of]. Qed.
Print Assumptions C69_flat_example.

(** How far each atom moves in a phonon makes no difference. *)
Theorem C69_amplitudes_ignored : forall (k : single) (d' : disp) (c : nat -> nat -> vec3 -> R) (draws : nat -> draw) (ev : event),
  nBr d' = nBr (sx_disp k) -> (forall b, min_en d' b = min_en (sx_disp k) b) -> (forall b q, en d' b q = en (sx_disp k) b q) ->
  (forall b i q, 0 < c b i q) -> (forall b i q, pol d' b i q = stretched (c b i q) (pol (sx_disp k) b i q)) ->
  pick_a_final_state (mkSX d' (sx_atoms k) (sx_DW k) (sx_T k) (sx_vol k) (sx_scattering k) (sx_absorption k) (sx_xacc k) (sx_nSteps k) (sx_DV k) (sx_target k) (sx_radius k)) draws ev = pick_a_final_state k draws ev.
Proof. exact stretch. Qed.
Print Assumptions C69_amplitudes_ignored.
Lemma flat_pol : forall (b i : nat) (q : vec3), pol (flat 3) b i q = stretched ((fun _ j _ => if Nat.eqb j 0 then 1 else 3) b i q) (pol (sx_disp (crystal 1)) b i q).
Proof. intros b i q. cbn. destruct (Nat.eqb i 0); repeat f_equal; ring. Qed.
Example C69_amplitudes_ignored_example : pick_a_final_state (crystal 3) forward neutron1 = pick_a_final_state (crystal 1) forward neutron1.
Proof. apply (C69_amplitudes_ignored (crystal 1) (flat 3) (fun _ j _ => if Nat.eqb j 0 then 1 else 3)); try reflexivity; [intros b i q; destruct (Nat.eqb i 0); lra|apply flat_pol]. Qed.
Print Assumptions C69_amplitudes_ignored_example.

(** So weights are not as the squares of the structure factors. *)
Theorem C69_structure_refuted : ~ (forall (k : single) (d' : disp) (draws : nat -> draw) (ev : event) (v' q : vec3) (p p' : R),
  nBr (sx_disp k) = 1%nat -> nBr d' = 1%nat -> (forall b, min_en d' b = min_en (sx_disp k) b) -> (forall b q, en d' b q = en (sx_disp k) b q) ->
  pick_a_final_state k draws ev = Ok (Some v', Some p) -> wave_vector q (vsub (e_v ev) v') -> v' <> e_v ev ->
  pick_a_final_state (mkSX d' (sx_atoms k) (sx_DW k) (sx_T k) (sx_vol k) (sx_scattering k) (sx_absorption k) (sx_xacc k) (sx_nSteps k) (sx_DV k) (sx_target k) (sx_radius k)) draws ev = Ok (Some v', Some p') ->
  let F d := structure_factor q (map (fun j => pol d 0 j q) (seq 0 (List.length (sx_atoms k)))) (sx_atoms k) in
  p * (fst (F d') ^ 2 + snd (F d') ^ 2) = p' * (fst (F (sx_disp k)) ^ 2 + snd (F (sx_disp k)) ^ 2)).
Proof.
  intros H. destruct (crystal_weight 1 ltac:(lra)) as (p & E & P). pose proof C69_amplitudes_ignored_example as E3. rewrite E in E3.
  specialize (H (crystal 1) (flat 3) forward neutron1 (mkV 0 0 500) demo_q p p eq_refl eq_refl (fun _ => eq_refl) (fun _ _ => eq_refl) E demo_wave ltac:(intros Z; injection Z as Z; lra) E3). cbv beta zeta in H.
  assert (F1 : structure_factor demo_q (map (fun j => pol (sx_disp (crystal 1)) 0 j demo_q) (seq 0 (List.length (sx_atoms (crystal 1))))) (sx_atoms (crystal 1)) = (v2k * 500 * (1 + 1), 0)) by exact (demo_factor 1).
  assert (F3 : structure_factor demo_q (map (fun j => pol (flat 3) 0 j demo_q) (seq 0 (List.length (sx_atoms (crystal 1))))) (sx_atoms (crystal 1)) = (v2k * 500 * (1 + 3), 0)) by exact (demo_factor 3).
  rewrite F1, F3 in H. cbn [fst snd] in H. pose proof v2k_pos as K. assert (0 < p * (v2k * v2k)) by (apply Rmult_lt_0_compat; nra). assert (p * ((v2k * 500 * (1 + 3)) ^ 2 + 0 ^ 2) - p * ((v2k * 500 * (1 + 1)) ^ 2 + 0 ^ 2) = 3000000 * (p * (v2k * v2k))) by ring. lra.
Qed.
Print Assumptions C69_structure_refuted.

(** A neutron for which a hundred tries found no state leaves as it came, with its whole weight. *)
Theorem C69_gives_up : forall (k : single) (draws : nat -> draw) (ev : event) (Ei : R) (b0 : nat),
  (0 < sx_radius k -> sx_target k <> mkV 0 0 0) -> (forall i, 0 <= dr_1 (draws i) <= 1) ->
  0 < sx_xacc k < 10 ^ 30 -> 2 * speed (e_v ev) <= INR (sx_nSteps k) * (2 ^ 59 * sx_xacc k) -> is_energy Ei (speed (e_v ev)) -> (b0 < nBr (sx_disp k))%nat -> min_en (sx_disp k) b0 < 3 / 2 * Ei ->
  (forall b dir f, (b < nBr (sx_disp k))%nat -> norm2 dir = 1 -> (0 < sx_radius k -> hits_disk (sx_target k) (sx_radius k) dir) -> (forall x, excess (sx_disp k) b (e_v ev) (vscale x dir) (f x)) ->
     forall j, (j < sx_nSteps k)%nat -> ~ changes_sign f (grid 0 (2 * speed (e_v ev)) (sx_nSteps k) j) (grid 0 (2 * speed (e_v ev)) (sx_nSteps k) (j + 1))) ->
  pick_a_final_state k draws ev = Ok (Some (e_v ev), Some (e_p ev)).
Proof. exact gives_up. Qed.
Print Assumptions C69_gives_up.
Example C69_gives_up_example : forall draws, (forall i, 0 <= dr_1 (draws i) <= 1) -> pick_a_final_state hard draws neutron1 = Ok (Some (mkV 0 0 1000), Some 1).
Proof. exact hard_gives_up. Qed.
Print Assumptions C69_gives_up_example.
Theorem C69_target_refuted : ~ (forall (k : single) (draws : nat -> draw) (ev : event) (v' : vec3) (p : R),
  e_v ev <> mkV 0 0 0 -> sx_target k <> mkV 0 0 0 -> 0 < sx_radius k -> (forall i, 0 <= dr_1 (draws i) <= 1) -> (forall b q, min_en (sx_disp k) b <= en (sx_disp k) b q) -> (forall b, exists q, en (sx_disp k) b q = min_en (sx_disp k) b) ->
  pick_a_final_state k draws ev = Ok (Some v', Some p) -> p = 0 \/ hits_disk (sx_target k) (sx_radius k) v').
Proof.
  intros H. pose proof (v2E_pos 1000 ltac:(lra)) as EP. destruct (H hard forward neutron1 (mkV 0 0 1000) 1) as [Z|(t & T0 & A & B)]; cbn [neutron1 e_v] in *.
  - intros E. injection E as E. lra.
  - intros E. injection E as E. lra.
  - cbn. lra.
  - intros i. cbn. lra.
  - intros b q. cbn [hard new_single sx_disp min_en en]. destruct (Req_EM_T (norm2 q) 0); lra.
  - intros b. exists (mkV 0 0 0). cbn [hard new_single sx_disp min_en en]. destruct (Req_EM_T _ 0) as [_|Z]; [reflexivity|]. exfalso. apply Z. unfold norm2, sdot. cbn. ring.
  - apply hard_gives_up. intros i. cbn. lra.
  - lra.
  - cbn [hard new_single sx_target] in A. unfold sdot, vsub, vscale in A. cbn in A. lra.
Qed.
Print Assumptions C69_target_refuted.

(** Tries that failed leave no trace in the weight. *)
Theorem C69_retries : forall (k : single) (ev : event) (bad good : draw) (j : nat) (r : result (option vec3 * option R)),
  (j < 100)%nat -> pick_a_final_state k (fun _ => bad) ev = Ok (Some (e_v ev), Some (e_p ev)) -> pick_a_final_state k (fun _ => good) ev = r ->
  pick_a_final_state k (fun i => if (i <? j)%nat then bad else good) ev = r.
Proof. exact retries. Qed.
Print Assumptions C69_retries.
Example C69_retries_example : pick_a_final_state mixed (fun _ => mkDraw 0 0 0 0) neutron1 = Ok (Some (mkV 0 0 1000), Some 1) /\ exists p, pick_a_final_state mixed (fun i => if (i <? 50)%nat then mkDraw 0 0 0 0 else mkDraw 1 0 0 0) neutron1 = Ok (Some (mkV 0 0 500), p).
Proof. split; [exact mixed_fails|]. destruct mixed_scatters as (p & E). exists p. apply retries; [lia|exact mixed_fails|exact E]. Qed.
Print Assumptions C69_retries_example.
(** Without a branch below one and a half times the energy of the neutron, a remainder by zero. *)
Theorem C69_no_branch : forall (k : single) (draws : nat -> draw) (ev : event) (Ei : R),
  is_energy Ei (speed (e_v ev)) -> (forall b, (b < nBr (sx_disp k))%nat -> 3 / 2 * Ei <= min_en (sx_disp k) b) -> pick_a_final_state k draws ev = Err UndefinedBehaviour.
Proof. exact no_branch. Qed.
Print Assumptions C69_no_branch.
Example C69_no_branch_example : is_energy (v2E 100) (speed (mkV 0 0 100)) /\ forall b, (b < nBr (sx_disp (crystal 1)))%nat -> 3 / 2 * v2E 100 <= min_en (sx_disp (crystal 1)) b.
Proof. split; [apply is_energy_iff; rewrite speed_z, Rabs_right by lra; reflexivity|]. intros b _. cbn [crystal new_single sx_disp flat min_en]. unfold v2E. pose proof vsq2e_pos. lra. Qed.
Print Assumptions C69_no_branch_example.

(** Coefficients in 1/m: barns per cubic angstrom times 100, absorption at 2200 m/s. *)
Theorem C69_coefficients : forall (d : disp) (atoms : list catom) (vol : R) (dw : R -> R) (T DV xacc : R) (n : nat) (target : vec3) (radius : R) (v : vec3),
  0 < vol -> v <> mkV 0 0 0 -> let k := new_single d atoms vol dw T DV xacc n target radius in
  exists a s, sx_absorption_coefficient k v = Some a /\ sx_scattering_coefficient k = Some s /\
    s * vol = 100 * total (map ca_coh atoms) /\ a * vol * speed v = 100 * 2200 * total (map ca_abs atoms).
Proof.
  intros d atoms vol dw T DV xacc n target radius v V N. cbv zeta. unfold sx_absorption_coefficient, sx_scattering_coefficient. cbn [new_single sx_vol sx_absorption sx_scattering]. pose proof (speed_pos v N) as SP. change (vnorm v) with (speed v). rewrite (proj2 (Reqb_f vol 0)), (proj2 (Reqb_f (speed v) 0)) by lra. cbn [orb].
  rewrite !fold_sum. eexists. eexists. split; [reflexivity|]. split; [reflexivity|]. split; field; lra.
Qed.
Print Assumptions C69_coefficients.
Example C69_coefficients_example : sx_scattering_coefficient (crystal 1) = Some 20.
Proof. unfold sx_scattering_coefficient. cbn [crystal new_single sx_vol sx_scattering fold_left ca_coh]. rewrite (proj2 (Reqb_f 10 0)) by lra. f_equal. lra. Qed.
Print Assumptions C69_coefficients_example.

(** C70.  With phonons of at least the least energy, a neutron leaves a powder with the energy of a phonon more or less, and its wave vector changed by the length of the wave vector of that phonon;
    the weight is that of one-phonon scattering, over k k' Q, twice, times the number of branches and the volume given to wave vectors. *)
Theorem C70_state : forall (k : poly) (u u' : R) (draws : list draw) (ev : event) (v' : option vec3) (p : option R) (Ei ki : R),
  e_v ev <> mkV 0 0 0 -> 0 <= px_epsilon k < 1 / 2 -> KinSpec.off_axis (px_epsilon k) (e_v ev) -> 0 <= px_min_omega k -> (forall b q, px_min_omega k <= en (px_disp k) b q) -> arrives (e_v ev) Ei ki ->
  px_S k u u' draws ev = Ok (v', p) ->
  exists d b Q Ef kf v1, In d draws /\ pickQ (px_max_omega k) Ei (dr_1 d) (dr_2 d) (dr_branch d) = Some Q /\ (b < nBr (px_disp k))%nat /\ v' = Some v1 /\ arrives v1 Ef kf /\ Rabs (Ei - Ef) = en (px_disp k) b Q /\ transfers (e_v ev) v1 (speed Q) (Ei - Ef) /\ 0 < Ef /\ 0 < kf /\
  (0 < px_T k -> 0 < px_scattering k -> 0 < px_max_omega k -> Forall (fun a => 0 < ca_mass a) (px_atoms k) -> (forall j, (j < List.length (px_atoms k))%nat -> 0 < length2 (pol (px_disp k) b j Q)) -> Ei <> Ef -> Q <> mkV 0 0 0 ->
   exists w kq kb, one_phonon_factor (structure_factor Q (unit_displacements (px_disp k) b Q (List.length (px_atoms k))) (px_atoms k)) (px_scattering k / (4 * physics_pi)) (Ei - Ef) (px_T k) ki kf (px_DW k (speed Q)) w /\
     wave_at (px_max_omega k) kq /\ wave_at (Ei + px_max_omega k / (1 + 76 / 10 * (ki / kq) ^ 4)) kb /\
     p = Some (e_p ev * INR (nBr (px_disp k)) * 2 * w * (1 / (ki * kf * speed Q)) * (4 / 3 * physics_pi * (ki + kb) ^ 3) / (8 * physics_pi))).
Proof. exact poly_state. Qed.
Print Assumptions C70_state.
Example C70_state_example : exists v' p, px_S (powder (fun _ => 3 / 4 * v2E 1000) 0) 0 0 [middle (2 / 3) 0] neutron1 = Ok (Some v', p) /\ speed v' = 500 /\ KinSpec.off_axis 0 (e_v neutron1).
Proof.
  destruct (powder_runs _ _ _ _ _ _ (powder_flat_Q 0)) as (v' & p & H & S & _); [lra| |exists v', p; split; [exact H|split; [exact S|exact off_axis1]]].
  rewrite speed_z, Rabs_right, k2v_1000 by (pose proof v2k1000; lra). split; [rewrite Rabs_right|]; lra.
Qed.
Print Assumptions C70_state_example.

(** The cube wave vectors are taken from holds every wave vector that a phonon of at most the greatest energy can have. *)
Theorem C70_reachable : forall (v v' Q : vec3) (E W Ei ki : R),
  v <> mkV 0 0 0 -> 0 <= W -> Rabs E <= W -> arrives v Ei ki -> transfers v v' (speed Q) E -> exists u1 u2 u3, (0 <= u1 <= 1 /\ 0 <= u2 <= 1 /\ 0 <= u3 <= 1) /\ pickQ W Ei u1 u2 u3 = Some Q.
Proof. intros v v' Q E W Ei ki. apply reachable. Qed.
Print Assumptions C70_reachable.
Example C70_reachable_example : arrives (mkV 0 0 1000) (v2E 1000) (v2k * 1000) /\ exists v', transfers (mkV 0 0 1000) v' (speed (mkV 0 0 (v2k * 1000))) (v2E 1000 - v2E 500).
Proof.
  split; [split; [apply is_energy_iff|apply is_wavenumber_iff]; now rewrite speed1|]. destruct (powder_runs _ _ _ _ _ _ (powder_flat_Q 0)) as (v' & p & _ & _ & T); [lra| |exists v'; exact T].
  rewrite speed_z, Rabs_right, k2v_1000 by (pose proof v2k1000; lra). split; [rewrite Rabs_right|]; lra.
Qed.
Print Assumptions C70_reachable_example.

(** Phonons below the least energy: the energy of a wave vector that was refused before remains. *)
Theorem C70_energy_refuted : ~ (forall (k : poly) (u u' : R) (draws : list draw) (ev : event) (v' : vec3) (p : option R),
  e_v ev <> mkV 0 0 0 -> 0 <= px_epsilon k < 1 / 2 -> KinSpec.off_axis (px_epsilon k) (e_v ev) -> 0 <= px_min_omega k -> (forall b q, 0 <= en (px_disp k) b q) -> px_S k u u' draws ev = Ok (Some v', p) ->
  exists b Q E, transfers (e_v ev) v' (speed Q) E /\ Rabs E = en (px_disp k) b Q).
Proof.
  intros H. pose proof (v2E_pos 1000 ltac:(lra)) as EP. pose proof v2k1000 as KP. destruct (powder_runs _ _ _ _ _ _ (powder_strange_Q 0)) as (v' & p & R1 & S & T); [lra| |].
  { rewrite speed_z, Rabs_right, k2v_1000 by lra. split; [rewrite Rabs_right|]; lra. }
  destruct (H (powder strange (1 / 2 * v2E 1000)) 0 0 [middle (1 / 2) 0; middle (2 / 3) 0] neutron1 v' p (proj1 crystal_pre)) as (b & Q & E & (E1 & E2 & A1 & A2 & -> & QW) & EE);
    [cbn; lra|exact off_axis1|cbn [powder px_min_omega]; lra|intros b q; cbn [powder px_disp en]; unfold strange; destruct (Req_EM_T (norm2 q) 0); lra|exact R1|].
  cbn [neutron1 e_v] in *. apply is_energy_iff in A1, A2. apply is_wavenumber_iff in QW. destruct T as (E3 & E4 & _ & _ & _ & TW). apply is_wavenumber_iff in TW. rewrite speed_z, Rabs_right in TW by lra. rewrite speed1 in A1. rewrite S in A2. subst E1 E2.
  cbn [powder px_disp en] in EE. unfold strange in EE. destruct (Req_EM_T (norm2 Q) 0) as [Z|Z].
  - rewrite <- TW in QW. unfold speed in QW. rewrite Z, sqrt_0 in QW. lra.
  - rewrite <- v2E_500 in EE. rewrite Rabs_right in EE by lra. lra.
Qed.
Print Assumptions C70_energy_refuted.
(** If it is the first one, a variable without value is read. *)
Theorem C70_uninitialised : forall (k : poly) (u u' c : R) (draws : list draw) (ev : event),
  0 <= px_max_omega k -> (forall b, en (px_disp k) b (mkV 0 0 0) < px_min_omega k) -> px_S k u u' (mkDraw (1 / 2) (1 / 2) (1 / 2) c :: draws) ev = Err UndefinedBehaviour.
Proof. exact uninitialised. Qed.
Print Assumptions C70_uninitialised.
Example C70_uninitialised_example : let k := powder (fun q => speed q) 1 in 0 <= px_max_omega k /\ forall b, en (px_disp k) b (mkV 0 0 0) < px_min_omega k.
Proof. cbn [powder px_max_omega px_disp en px_min_omega]. split; [unfold v2E; pose proof vsq2e_pos; lra|]. intros _. rewrite speed_z, Rabs_R0. lra. Qed.
Print Assumptions C70_uninitialised_example.

(** Twice the weight also where the neutron can only gain energy. *)
Theorem C70_twice_refuted : ~ (forall (k : poly) (u u' : R) (d : draw) (ev : event) (v' Q : vec3) (p : option R) (Ei ki : R),
  e_v ev <> mkV 0 0 0 -> 0 <= px_epsilon k < 1 / 2 -> KinSpec.off_axis (px_epsilon k) (e_v ev) -> 0 <= px_min_omega k -> (forall b q, px_min_omega k <= en (px_disp k) b q) -> arrives (e_v ev) Ei ki ->
  0 < px_T k -> 0 < px_scattering k -> 0 < px_max_omega k -> Forall (fun a => 0 < ca_mass a) (px_atoms k) -> (forall b j q, 0 < length2 (pol (px_disp k) b j q)) -> nBr (px_disp k) = 1%nat ->
  pickQ (px_max_omega k) Ei (dr_1 d) (dr_2 d) (dr_branch d) = Some Q -> px_S k u u' [d] ev = Ok (Some v', p) ->
  exists Ef kf w kq kb, arrives v' Ef kf /\
    one_phonon_factor (structure_factor Q (unit_displacements (px_disp k) 0 Q (List.length (px_atoms k))) (px_atoms k)) (px_scattering k / (4 * physics_pi)) (Ei - Ef) (px_T k) ki kf (px_DW k (speed Q)) w /\
    wave_at (px_max_omega k) kq /\ wave_at (Ei + px_max_omega k / (1 + 76 / 10 * (ki / kq) ^ 4)) kb /\
    p = Some (e_p ev * (if Rle_dec Ei (en (px_disp k) 0 Q) then 1 else 2) * w * (1 / (ki * kf * speed Q)) * (4 / 3 * physics_pi * (ki + kb) ^ 3) / (8 * physics_pi))).
Proof.
  intros H. pose proof (v2E_pos 1000 ltac:(lra)) as EP. pose proof v2k1000 as KP. assert (E4 : v2E 2000 = 4 * v2E 1000) by (unfold v2E; ring). destruct high_runs as (v' & p & R1). assert (AR : arrives (e_v neutron1) (v2E 1000) (v2k * 1000)) by (split; [apply is_energy_iff|apply is_wavenumber_iff]; cbn [neutron1 e_v]; now rewrite speed1).
  pose proof (proj1 crystal_pre) as C1. assert (C2 : 0 <= px_epsilon high < 1 / 2) by (cbn; lra). assert (C3 : 0 <= px_min_omega high) by (cbn; lra). assert (C4 : forall b q, px_min_omega high <= en (px_disp high) b q) by (intros b q; cbn [high powder px_min_omega px_disp en]; lra).
  assert (C5 : 0 < px_T high) by (cbn; lra). assert (C6 : 0 < px_scattering high) by (cbn; lra). assert (C7 : 0 < px_max_omega high) by (cbn [high powder px_max_omega]; lra). assert (C8 : Forall (fun a => 0 < ca_mass a) (px_atoms high)) by (repeat constructor; cbn; lra). assert (C9 : forall b j q, 0 < length2 (pol (px_disp high) b j q)) by (intros b j q; cbn; lra).
  assert (PQ : pickQ (px_max_omega high) (v2E 1000) (1 / 2) (1 / 2) (2 / 3) = Some (mkV 0 0 (v2k * 1000))) by (cbn [high powder px_max_omega]; rewrite powder_pickQ, third; reflexivity).
  destruct (H high 0 0 (middle (2 / 3) 0) neutron1 v' _ p _ _ C1 C2 off_axis1 C3 C4 AR C5 C6 C7 C8 C9 eq_refl PQ R1) as (Ef & kf & w & kq & kb & A1 & A2 & A3 & A4 & A5).
  destruct (poly_state high 0 0 _ neutron1 _ p _ _ C1 C2 off_axis1 C3 C4 AR R1) as (d & b & Q & Ef' & kf' & v1 & DI & PQ' & BL & VE & AR' & EE & _ & E0 & K0 & W). destruct DI as [<-|[]]. cbn [middle dr_1 dr_2 dr_branch] in PQ'. rewrite PQ in PQ'. injection PQ' as <-. assert (b = 0%nat) by (cbn in BL; lia). subst b. injection VE as <-.
  destruct A1 as [A1 A1']. destruct AR' as [B1 B1']. apply is_energy_iff in A1, B1. apply is_wavenumber_iff in A1', B1'. assert (X1 : Ef' = Ef) by congruence. assert (X2 : kf' = kf) by congruence. clear A1 A1' B1 B1'. subst Ef' kf'. cbn [high powder px_disp en] in EE.
  assert (EN : v2E 1000 <> Ef). { intros Z. rewrite Z, Rminus_diag_eq, Rabs_R0 in EE by reflexivity. lra. }
  destruct (W C5 C6 C7 C8 (fun j _ => C9 0%nat j _) EN) as (w' & kq' & kb' & W1 & W2 & W3 & W4); [intros Z; injection Z as Z; lra|]. rewrite (wave_unique _ _ _ A3 W2) in A4. rewrite (wave_unique _ _ _ A4 W3) in A5. rewrite (factor_unique _ _ _ _ _ _ _ _ _ A2 W1) in A5. rewrite A5 in W4. apply (f_equal (fun o => match o with Some x => x | None => 0 end)) in W4. cbv beta iota in W4.
  destruct (Rle_dec _ _) as [_|L]; [|exfalso; apply L; cbn [high powder px_disp en]; lra]. change (INR (nBr (px_disp high))) with 1 in W4. change (e_p neutron1) with 1 in W4.
  assert (WP : 0 < w'). { apply one_phonon_pos in W1; try assumption; [|apply Rdiv_lt_0_compat; [exact C6|unfold physics_pi; lra]|lra].
    unfold unit_displacements. cbn [high powder px_atoms px_disp pol List.length seq map length2 fst snd structure_factor stretched ca_b ca_mass ca_position vx vy vz]. unfold sdot. cbn [vx vy vz]. rewrite !Rmult_0_r, !Rplus_0_r, cos_0, sin_0, sqrt_1. replace (0 ^ 2 + 0 ^ 2 + 0 ^ 2 + 0 ^ 2 + 1 ^ 2 + 0 ^ 2) with 1 by ring. cbn [fst snd]. rewrite ?sqrt_1. nra. }
  destruct W3 as (vb & V0 & _ & KB). apply is_wavenumber_iff in KB. assert (0 <= kb') by (subst kb'; pose proof v2k_pos; nra). assert (PP : 0 < physics_pi) by (unfold physics_pi; lra). rewrite speed_z, Rabs_right in W4 by lra.
  set (a := 1 / (v2k * 1000 * kf * (v2k * 1000))) in *. set (c := 4 / 3 * physics_pi * (v2k * 1000 + kb') ^ 3) in *.
  assert (A0 : 0 < a) by (apply Rdiv_lt_0_compat; [lra|]; repeat first [assumption|apply Rmult_lt_0_compat]). assert (C0 : 0 < c). { apply Rmult_lt_0_compat; [lra|]. apply pow_lt. lra. }
  assert (X0 : 0 < w' * a * c / (8 * physics_pi)) by (apply Rdiv_lt_0_compat; [repeat first [assumption|apply Rmult_lt_0_compat]|lra]). clearbody a c. replace (1 * 1 * w' * a * c / (8 * physics_pi)) with (w' * a * c / (8 * physics_pi)) in W4 by (field; lra). replace (1 * 1 * 2 * w' * a * c / (8 * physics_pi)) with (2 * (w' * a * c / (8 * physics_pi))) in W4 by (field; lra). lra.
Qed.
Print Assumptions C70_twice_refuted.

Theorem C70_coefficients : forall (natoms : nat) (d : disp) (atoms : list catom) (a b c : vec3) (dw : R -> R) (T mx mn eps : R) (v : vec3) (k : poly),
  sdot a (vcross b c) <> 0 -> v <> mkV 0 0 0 -> new_poly natoms d atoms a b c dw T mx mn eps = Ok k ->
  List.length atoms = natoms /\ exists ab s, px_absorption_coefficient k v = Some ab /\ px_scattering_coefficient k = Some s /\
    s * Rabs (sdot a (vcross b c)) = 100 * total (map ca_coh atoms) /\ ab * Rabs (sdot a (vcross b c)) * speed v = 100 * 2200 * total (map ca_abs atoms).
Proof.
  intros natoms d atoms a b c dw T mx mn eps v k V N H. unfold new_poly in H. destruct (Nat.eqb _ natoms) eqn:E; [|discriminate]. apply Nat.eqb_eq in E. cbn [negb] in H. split; [exact E|]. cbv zeta in H. injection H as <-.
  change (vdot a (vcross b c)) with (sdot a (vcross b c)). set (x := sdot a (vcross b c)) in *. replace (if Rltb x 0 then x * -1 else x) with (Rabs x). 2:{ destruct (Rltb x 0) eqn:L; [apply Rltb_t in L; rewrite Rabs_left; lra|apply Rltb_f in L; apply Rabs_right; lra]. }
  unfold px_absorption_coefficient, px_scattering_coefficient. cbn [px_vol px_absorption px_scattering]. pose proof (speed_pos v N) as SP. change (vnorm v) with (speed v). pose proof (Rabs_pos_lt _ V) as XP. rewrite (proj2 (Reqb_f (Rabs x) 0)), (proj2 (Reqb_f (speed v) 0)) by lra. cbn [orb].
  rewrite !fold_sum. eexists. eexists. split; [reflexivity|]. split; [reflexivity|]. split; field; lra.
Qed.
Print Assumptions C70_coefficients.
Example C70_coefficients_example : sdot (mkV 0 2 0) (vcross (mkV 2 0 0) (mkV 0 0 2)) = -8 /\ exists k, new_poly 1 (flat 1) [mkCA (mkV 0 0 0) 1 1 1 0] (mkV 0 2 0) (mkV 2 0 0) (mkV 0 0 2) (fun _ => 0) 100 100 1 0 = Ok k.
Proof. split; [unfold sdot, vcross; cbn; ring|]. eexists. reflexivity. Qed.
Print Assumptions C70_coefficients_example.
