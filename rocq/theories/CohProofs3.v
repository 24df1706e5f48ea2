(** Proofs for C69: conservation, Jacobian, retries and witnesses. *)
From Coq Require Import FunctionalExtensionality Reals Lra Lia.
From Coquelicot Require Import Coquelicot.
From Verif Require Import Base RotModel RotSpec ChanModel ChanProofs ShapeModel ShapeSpec ShapeProofs ScatModel ScatSpec UnitModel UnitSpec UnitProofs KinModel KinSpec KinProofs KinProofs2 GridModel GridProofs PowdModel PowdSpec PowdProofs PowdProofs3 PhonModel PhonSpec PhonProofs3 RootModel RootSpec RootProofs RootProofs2 ConeModel ConeSpec ConeProofs CohModel CohSpec CohProofs CohProofs2.
Open Scope R_scope.

Lemma conserved_iff d b v dir f r : norm2 dir = 1 -> (forall x, excess d b v (vscale x dir) (f x)) -> f r = 0 -> conserved d b v (vscale r dir).
Proof. intros N H E. unfold conserved. rewrite <- E. apply H. Qed.
(** a flat branch *)
Lemma flat_slope d b v dir f w0 s dv rate : norm2 dir = 1 -> (forall q, en d b q = w0) -> (forall x, excess d b v (vscale x dir) (f x)) -> 0 < dv -> dv <= s -> (s + dv <= speed v \/ speed v <= s - dv) ->
  (forall E : R -> R, (forall x, is_energy (E x) x) -> is_derive E s rate) -> Rabs (f (s + dv) - f (s - dv)) / (2 * dv) = rate.
Proof.
  intros N W F D S0 C RT. assert (FE : forall x, 0 <= x -> f x = w0 - Rabs (v2E (speed v) - v2E x)).
  { intros x X. pose proof (excess_unique _ _ _ _ _ _ (F x) (excess_of d b v dir x N)) as ->. unfold omega_minus_deltaE. cbv zeta. rewrite W. change (vnorm v) with (speed v). unfold vsquare2E, v2E. pose proof vsq2e_pos.
    replace (speed v * speed v * vsq2e - x * x * vsq2e) with ((speed v * speed v - x * x) * vsq2e) by ring. now rewrite Rabs_mult, (Rabs_right vsq2e) by lra. }
  pose proof (is_derive_unique _ _ _ (RT v2E (fun x => proj2 (is_energy_iff _ _) eq_refl))) as R1. pose proof (is_derive_unique _ _ _ (rate_of s v2E (fun x => proj2 (is_energy_iff _ _) eq_refl))) as R2. rewrite R1 in R2. rewrite R2.
  rewrite !FE by lra. pose proof vsq2e_pos as VP. unfold v2E. assert (SP : 0 <= speed v) by apply sqrt_pos. destruct C as [C|C].
  - rewrite (Rabs_right (_ - (s + dv) * (s + dv) * vsq2e)) by (assert ((s + dv) * (s + dv) <= speed v * speed v) by nra; nra). rewrite (Rabs_right (_ - (s - dv) * (s - dv) * vsq2e)) by (assert ((s - dv) * (s - dv) <= speed v * speed v) by nra; nra).
    match goal with |- Rabs ?e / _ = _ => replace e with (4 * vsq2e * s * dv) by ring end. rewrite Rabs_right by (assert (0 <= s * dv) by nra; nra). field. lra.
  - rewrite (Rabs_left1 (_ - (s + dv) * (s + dv) * vsq2e)) by (assert (speed v * speed v <= (s + dv) * (s + dv)) by nra; nra). rewrite (Rabs_left1 (_ - (s - dv) * (s - dv) * vsq2e)) by (assert (speed v * speed v <= (s - dv) * (s - dv)) by nra; nra).
    match goal with |- Rabs ?e / _ = _ => replace e with (- (4 * vsq2e * s * dv)) by ring end. rewrite Rabs_Ropp, Rabs_right by (assert (0 <= s * dv) by nra; nra). field. lra.
Qed.
(** a slope somewhere in between *)
Lemma mean_slope (f f' : R -> R) s dv : 0 < dv -> (forall x, s - dv <= x <= s + dv -> derivable_pt_lim f x (f' x)) -> exists x, s - dv <= x <= s + dv /\ Rabs (f (s + dv) - f (s - dv)) / (2 * dv) = Rabs (f' x).
Proof.
  intros D H. destruct (MVT_cor2 f f' (s - dv) (s + dv) ltac:(lra) H) as (c & E & C). exists c. split; [lra|]. rewrite E. replace (s + dv - (s - dv)) with (2 * dv) by ring. rewrite Rabs_mult, (Rabs_right (2 * dv)) by lra. field. lra.
Qed.

(** stretched polarisations *)
Lemma term_stretched Q c e a : 0 < c -> atom_term Q (stretched c e) a = atom_term Q e a.
Proof.
  intros C. unfold atom_term. cbv zeta. rewrite !eps2_length. assert (LE : sqrt (length2 (stretched c e)) = c * sqrt (length2 e)).
  { replace (length2 (stretched c e)) with ((c * c) * length2 e) by (destruct e as [[[x1 x2] [y1 y2]] [z1 z2]]; cbn; ring). rewrite sqrt_mult_alt by nra. rewrite sqrt_square by lra. reflexivity. }
  rewrite LE. replace (Reqb (c * sqrt (length2 e)) 0) with (Reqb (sqrt (length2 e)) 0).
  2:{ destruct (Req_dec (sqrt (length2 e)) 0) as [Z|Z]; [rewrite Z, Rmult_0_r; reflexivity|]. rewrite !(proj2 (Reqb_f _ _)); [reflexivity| |exact Z]. intros K. apply Rmult_integral in K. lra. }
  destruct (Reqb (sqrt (length2 e)) 0) eqn:Z; [reflexivity|]. cbn [orb]. apply Reqb_f in Z. destruct (Rleb (ca_mass a) 0); [reflexivity|]. set (L := sqrt (length2 e)) in *. clearbody L. destruct e as [[[x1 x2] [y1 y2]] [z1 z2]]. cbn [stretched dot_eps fst snd]. do 2 f_equal. unfold cadd, cmul. cbn [fst snd]. f_equal; field; lra.
Qed.
Lemma sum_stretched Q (c : nat -> R) e : (forall i, 0 < c i) -> forall atoms i, sum_of_scattering_length Q i (fun j => stretched (c j) (e j)) atoms = sum_of_scattering_length Q i e atoms.
Proof. intros C. induction atoms as [|a l IH]; intros i; [reflexivity|]. cbn. now rewrite term_stretched, IH. Qed.
Lemma sum_ext Q e e' : (forall i, e i = e' i) -> forall atoms i, sum_of_scattering_length Q i e atoms = sum_of_scattering_length Q i e' atoms.
Proof. intros C. induction atoms as [|a l IH]; intros i; [reflexivity|]. cbn. now rewrite C, IH. Qed.
Lemma loop_disp k d' good vi draws : (forall b q, en d' b q = en (sx_disp k) b q) -> forall left i,
  choose_state (mkSX d' (sx_atoms k) (sx_DW k) (sx_T k) (sx_vol k) (sx_scattering k) (sx_absorption k) (sx_xacc k) (sx_nSteps k) (sx_DV k) (sx_target k) (sx_radius k)) good vi draws left i = choose_state k good vi draws left i.
Proof.
  intros E. assert (PE : forall b dir u, pick_v_f (mkSX d' (sx_atoms k) (sx_DW k) (sx_T k) (sx_vol k) (sx_scattering k) (sx_absorption k) (sx_xacc k) (sx_nSteps k) (sx_DV k) (sx_target k) (sx_radius k)) b dir vi u = pick_v_f k b dir vi u).
  { intros b dir u. unfold pick_v_f. cbn [sx_disp sx_xacc sx_nSteps sx_DV]. replace (omega_minus_deltaE d' b dir vi (vnorm vi)) with (omega_minus_deltaE (sx_disp k) b dir vi (vnorm vi)); [reflexivity|]. unfold omega_minus_deltaE. cbv zeta. apply functional_extensionality. intros x. now rewrite E. }
  induction left as [|left IH]; intros i; [reflexivity|]. cbn [choose_state sx_target sx_radius]. destruct (choose_scattering_direction _ _ _ _) as [dir sol]. destruct good as [|g0 gl]; [reflexivity|]. destruct (match dir with None => None | Some d => normalize d end) as [n|]; [|reflexivity]. rewrite PE. destruct (pick_v_f k _ n vi _); [reflexivity|apply IH].
Qed.
Lemma stretch k d' (c : nat -> nat -> vec3 -> R) draws ev : nBr d' = nBr (sx_disp k) -> (forall b, min_en d' b = min_en (sx_disp k) b) -> (forall b q, en d' b q = en (sx_disp k) b q) -> (forall b i q, 0 < c b i q) -> (forall b i q, pol d' b i q = stretched (c b i q) (pol (sx_disp k) b i q)) ->
  pick_a_final_state (mkSX d' (sx_atoms k) (sx_DW k) (sx_T k) (sx_vol k) (sx_scattering k) (sx_absorption k) (sx_xacc k) (sx_nSteps k) (sx_DV k) (sx_target k) (sx_radius k)) draws ev = pick_a_final_state k draws ev.
Proof.
  intros NB ME EN CP PO. unfold pick_a_final_state. cbv zeta. cbn [sx_disp]. assert (GE : good_branches d' (v2E (vnorm (e_v ev))) = good_branches (sx_disp k) (v2E (vnorm (e_v ev)))).
  { unfold good_branches. rewrite NB. apply filter_ext. intros b. now rewrite ME. }
  rewrite GE, (loop_disp k d' _ _ _ EN). destruct (choose_state k _ _ _ _ _) as [[[[sa b] [[vf|] w]]|]|]; try reflexivity. cbn [bind]. do 2 f_equal. destruct w, sa; try reflexivity.
  replace (later_factors _ b (e_v ev) vf) with (later_factors k b (e_v ev) vf); [reflexivity|]. unfold later_factors. cbv zeta. cbn [sx_disp sx_atoms sx_T sx_scattering sx_DW]. rewrite (sum_ext _ (fun i => pol d' b i _) (fun i => stretched (c b i (vscale v2k (vsub (e_v ev) vf))) (pol (sx_disp k) b i (vscale v2k (vsub (e_v ev) vf))))); [|intros i; apply PO]. rewrite sum_stretched by (intros i; apply CP). reflexivity.
Qed.

(** giving up *)
Lemma no_roots f xacc n b : 0 < xacc < 10 ^ 30 -> 0 <= b -> b <= INR n * (2 ^ 59 * xacc) -> (forall j, (j < n)%nat -> ~ changes_sign f (grid 0 b n j) (grid 0 b n (j + 1))) -> find_roots_evenly (ZRidd_solve xacc) n 0 b f = [].
Proof.
  intros X B W H. destruct (count_roots f xacc n b X B W) as (chg & CG & CL). destruct (find_roots_evenly _ _ _ _ _); [reflexivity|]. exfalso. replace (filter chg (seq 0 n)) with (@nil nat) in CL; [discriminate|]. symmetry.
  assert (G : forall m, (forall j, In j m -> chg j = false) -> filter chg m = []). { intros m. induction m as [|j m IH]; intros K; [reflexivity|]. cbn. rewrite (K j (or_introl eq_refl)). apply IH. intros i I. apply K. now right. }
  apply G. intros j J. apply in_seq in J. destruct (chg j) eqn:E; [|reflexivity]. exfalso. apply (H j); [lia|]. apply CG; [lia|exact E].
Qed.
Lemma gives_up k draws ev Ei b0 : (0 < sx_radius k -> sx_target k <> mkV 0 0 0) -> (forall i, 0 <= dr_1 (draws i) <= 1) ->
  0 < sx_xacc k < 10 ^ 30 -> 2 * speed (e_v ev) <= INR (sx_nSteps k) * (2 ^ 59 * sx_xacc k) -> is_energy Ei (speed (e_v ev)) -> (b0 < nBr (sx_disp k))%nat -> min_en (sx_disp k) b0 < 3 / 2 * Ei ->
  (forall b dir f, (b < nBr (sx_disp k))%nat -> norm2 dir = 1 -> (0 < sx_radius k -> hits_disk (sx_target k) (sx_radius k) dir) -> (forall x, excess (sx_disp k) b (e_v ev) (vscale x dir) (f x)) ->
     forall j, (j < sx_nSteps k)%nat -> ~ changes_sign f (grid 0 (2 * speed (e_v ev)) (sx_nSteps k) j) (grid 0 (2 * speed (e_v ev)) (sx_nSteps k) (j + 1))) ->
  pick_a_final_state k draws ev = Ok (Some (e_v ev), Some (e_p ev)).
Proof.
  intros T U X W EI B0 M0 H. apply is_energy_iff in EI. subst Ei. unfold pick_a_final_state. cbv zeta. rewrite (loop_none k _ (e_v ev) draws U T); [reflexivity| |].
  - intros E. assert (I0 : In b0 (good_branches (sx_disp k) (v2E (vnorm (e_v ev))))) by (apply good_iff; split; assumption). rewrite E in I0. destruct I0.
  - intros b dir u G NN HD. apply good_iff in G. apply picked_none. rewrite (Rmult_comm (vnorm (e_v ev)) 2). apply no_roots; [exact X|pose proof (sqrt_pos (norm2 (e_v ev))); change (vnorm (e_v ev)) with (speed (e_v ev)); unfold speed; lra|exact W|].
    apply (H b dir); [tauto|exact NN|exact HD|]. intros x. now apply excess_of.
Qed.
Lemma no_branch k draws ev Ei : is_energy Ei (speed (e_v ev)) -> (forall b, (b < nBr (sx_disp k))%nat -> 3 / 2 * Ei <= min_en (sx_disp k) b) -> pick_a_final_state k draws ev = Err UndefinedBehaviour.
Proof.
  intros EI H. apply is_energy_iff in EI. subst Ei. unfold pick_a_final_state. cbv zeta. replace (good_branches (sx_disp k) (v2E (vnorm (e_v ev)))) with (@nil nat).
  - unfold Niters. cbn [choose_state]. now destruct (choose_scattering_direction _ _ _ _).
  - symmetry. destruct (good_branches _ _) as [|b l] eqn:E; [reflexivity|]. exfalso. assert (I : In b (good_branches (sx_disp k) (v2E (vnorm (e_v ev))))) by (rewrite E; now left). apply good_iff in I. specialize (H b (proj1 I)). unfold speed in H. unfold vnorm in I. destruct I as [_ I]. change (sqrt (norm2 (e_v ev))) with (vnorm (e_v ev)) in *. unfold vnorm in *. unfold norm2, sdot, vdot in *. lra.
Qed.
