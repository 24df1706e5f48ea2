(** Proofs for C73: the mean over the roots, the slope, and flat excitations. *)
From Coq Require Import Reals Lra Lia.
From Coquelicot Require Import Coquelicot.
From Verif Require Import Base RotModel RotSpec ChanModel ChanProofs ShapeModel ShapeSpec ShapeProofs ScatModel ScatSpec UnitModel UnitSpec UnitProofs KinModel KinSpec KinProofs KinProofs2 GridModel GridProofs PowdModel PowdSpec PowdProofs PowdProofs3 PhonModel PhonSpec PhonProofs3 RootModel RootSpec RootProofs RootProofs2 ConeModel ConeSpec ConeProofs CohModel CohSpec CohProofs CohProofs2 EvqModel EvqSpec EvqProofs EvqProofs2.
Open Scope R_scope.

Definition seen (k : evq) (G : vec3 -> R) (ev : event) (d : vec3) (f : R -> R) (ki kf : R) : R :=
  2 * ksq2e * kf / Rabs (four_point f kf (ki / 200)) *
  (if Rltb (q_Emax k / 100000) (Rabs (f kf)) then G (e_v ev) else q_S k (vsub (vscale v2k (e_v ev)) (vscale kf d)) * (kf / ki) * G (vscale k2v (vscale kf d))).
Lemma seen_share k G ev d f ki kf : share (q_S k) G (e_v ev) d f (q_Emax k / 100000) ki kf (seen k G ev d f ki kf).
Proof.
  exists (2 * ksq2e * kf). split; [apply energy_rate_of|]. cbv zeta. unfold seen. destruct (Rltb _ _) eqn:RL.
  - left. apply Rltb_t in RL. split; [exact RL|reflexivity].
  - right. apply Rltb_f in RL. split; [lra|]. exists (vscale k2v (vscale kf d)), (vsub (vscale v2k (e_v ev)) (vscale kf d)). split; [now apply along_iff|]. split; [apply wave_vector_iff; symmetry; apply transfer_of|]. ring.
Qed.
Lemma carried_after k G ev d f ki n kf : four_point f kf (ki / 200) <> 0 -> carried G (after k ev d f ki n kf) = e_p ev * INR n * seen k G ev d f ki kf.
Proof.
  intros D. unfold after, seen. cbv zeta. rewrite (proj2 (Reqb_f _ 0)) by now apply Rabs_no_R0. destruct (Rltb _ _); cbn [carried with_pv k_v k_p]; ring.
Qed.
Lemma mean_n n k u1 u2 ev G kmin : (0 < n)%nat -> e_v ev <> mkV 0 0 0 -> 0 <= u1 <= 1 -> let ki := v2k * speed (e_v ev) in let d := choose_direction u1 u2 in let f := E_vq_minus_deltaE (q_E k) d (v2E (vnorm (e_v ev))) (vscale v2k (e_v ev)) in
  0 <= kmin <= ki -> Rabs (ki - kmin) <= INR n * (2 ^ 59 * (1 / 1000)) -> kf_list f (v2E (vnorm (e_v ev))) (q_Emax k) = find_roots_evenly (ZRidd_solve (1 / 1000)) n kmin ki f ->
  exists c r,
    (forall i, (i < n)%nat -> c i = true <-> changes_sign f (grid kmin ki n i) (grid kmin ki n (i + 1))) /\
    (forall i, (i < n)%nat -> c i = true -> within (grid kmin ki n i) (grid kmin ki n (i + 1)) (r i)) /\
    ((0 < chosen c n)%nat -> (forall i, (i < n)%nat -> c i = true -> four_point f (r i) (ki / 200) <> 0) ->
     exists T, (forall i, share (q_S k) G (e_v ev) d f (q_Emax k / 100000) ki (r i) (T i)) /\
       meanN 1 (fun l => carried G (evq_scatter k u1 u2 (stream l 0) ev)) (e_p ev * sum_chosen c T n)).
Proof.
  intros NP N U ki d f KM WD KL. destruct (roots_map f (1 / 1000) n kmin ki ltac:(lra) NP ltac:(lra) ltac:(lra) WD) as (R1 & R2 & R3). cbv zeta in R1, R2, R3.
  set (c := fun i => is_found (ZRidd_solve (1 / 1000) (grid kmin ki n i) (grid kmin ki n (i + 1)) f)) in *. set (r := fun i => value (ZRidd_solve (1 / 1000) (grid kmin ki n i) (grid kmin ki n (i + 1)) f)) in *.
  exists c, r. split; [exact R1|]. split; [exact R2|]. intros CP DZ. exists (fun i => seen k G ev d f ki (r i)). split; [intros i; apply seen_share|].
  set (l := map r (filter c (seq 0 n))) in *. assert (LL : List.length l = chosen c n) by (unfold l; rewrite map_length, chosen_filter; reflexivity).
  assert (ALL : forall x, In x l -> four_point f x (ki / 200) <> 0). { intros x I. unfold l in I. apply in_map_iff in I. destruct I as (i & <- & I). apply filter_In in I. destruct I as [I1 I2]. apply in_seq in I1. apply DZ; [lia|exact I2]. }
  assert (SC : forall u, carried G (evq_scatter k u1 u2 u ev) = (fun i => e_p ev * INR (List.length l) * seen k G ev d f ki (nth i l 0)) (choose u (List.length l))).
  { intros u. rewrite scatter_after by exact N. cbv zeta. fold d. fold f. rewrite KL, R3. fold ki. destruct (Nat.ltb_spec (List.length l) 1) as [L|L]; [lia|]. apply carried_after. apply ALL, nth_In, choose_below. lia. }
  exists (fun u => carried G (evq_scatter k u1 u2 u ev)). split; [intros u _; reflexivity|]. apply (is_RInt_ext (fun u => (fun i => e_p ev * INR (List.length l) * seen k G ev d f ki (nth i l 0)) (choose u (List.length l)))).
  - intros u _. symmetry. apply SC.
  - replace (e_p ev * sum_chosen c (fun i => seen k G ev d f ki (r i)) n) with (sum_to (fun i => e_p ev * INR (List.length l) * seen k G ev d f ki (nth i l 0)) (List.length l) / INR (List.length l)); [apply step_int; lia|].
    rewrite (sum_to_list (fun x => e_p ev * INR (List.length l) * seen k G ev d f ki x) l). rewrite sum_filter. assert (LP : 0 < INR (List.length l)) by (apply lt_0_INR; lia).
    replace (map (fun i => seen k G ev d f ki (r i)) (filter c (seq 0 n))) with (map (seen k G ev d f ki) l) by (unfold l; rewrite map_map; reflexivity). generalize (INR (List.length l)) LP. generalize l. clear. intros l a A.
    assert (H : fold_right Rplus 0 (map (fun x => e_p ev * a * seen k G ev d f ki x) l) = e_p ev * a * fold_right Rplus 0 (map (seen k G ev d f ki) l)) by (induction l as [|x l IH]; cbn [map fold_right]; [ring|rewrite IH; ring]). rewrite H. field. lra.
Qed.
Lemma mean k u1 u2 ev G : 0 <= q_Emax k -> e_v ev <> mkV 0 0 0 -> speed (e_v ev) <= 10 ^ 20 -> 0 <= u1 <= 1 ->
  exists d f c r Ei kmin ki,
    d = on_sphere (2 * u1 - 1) (2 * PI * u2) /\ norm2 d = 1 /\ balance (q_E k) (e_v ev) d f /\ is_energy Ei (speed (e_v ev)) /\ slowest Ei (q_Emax k) kmin /\ is_wavenumber ki (speed (e_v ev)) /\
    (forall i, (i < 1000)%nat -> c i = true <-> changes_sign f (grid kmin ki 1000 i) (grid kmin ki 1000 (i + 1))) /\
    (forall i, (i < 1000)%nat -> c i = true -> within (grid kmin ki 1000 i) (grid kmin ki 1000 (i + 1)) (r i)) /\
    ((0 < chosen c 1000)%nat -> (forall i, (i < 1000)%nat -> c i = true -> four_point f (r i) (ki / 200) <> 0) ->
     exists T, (forall i, share (q_S k) G (e_v ev) d f (q_Emax k / 100000) ki (r i) (T i)) /\
       meanN 1 (fun l => carried G (evq_scatter k u1 u2 (stream l 0) ev)) (e_p ev * sum_chosen c T 1000)).
Proof.
  intros EM N SV U. destruct (range_of (e_v ev) (q_Emax k) EM SV) as (kmin & SL & KM & _ & WD & KL).
  destruct (mean_n 1000 k u1 u2 ev G kmin (Nat.lt_0_succ 999) N U KM WD (KL _)) as (c & r & Q1 & Q2 & Q3). destruct (dir_on u1 u2 U) as [DE DN].
  eexists _, _, c, r, (v2E (speed (e_v ev))), kmin, (v2k * speed (e_v ev)). split; [exact DE|]. split; [exact DN|]. split; [apply balance_of; exact DN|]. split; [apply energy_of|]. split; [exact SL|]. split; [apply wave_of_speed|]. split; [exact Q1|]. split; [exact Q2|]. exact Q3.
Qed.

(** short forms *)
Lemma grid_between a b n i : a <= b -> (i <= n)%nat -> (0 < n)%nat -> a <= grid a b n i <= b.
Proof. intros L I N. pose proof (grid_within a b n i I N) as W. unfold within in W. rewrite Rmin_left, Rmax_right in W by exact L. exact W. Qed.
Lemma conserves k u1 u2 u3 ev o v' : 0 <= q_Emax k -> e_v ev <> mkV 0 0 0 -> speed (e_v ev) <= 10 ^ 20 -> 0 <= u1 <= 1 -> evq_scatter k u1 u2 u3 ev = Ok o -> k_v o = Some v' -> v' <> e_v ev ->
  exists x Ei Ef, left_over (q_E k) (e_v ev) v' x /\ Rabs x <= q_Emax k / 100000 /\ is_energy Ei (speed (e_v ev)) /\ is_energy Ef (speed v') /\ Ef <= Ei <= Ef + q_Emax k.
Proof.
  intros EM N SV U H HV NV. destruct (state k u1 u2 u3 ev o EM N SV U H) as (_ & d & f & c & Ei & kmin & ki & _ & DN & B & EI & SL & KI & _ & [(_ & V & _)|(i & kf & r & IL & _ & W & _ & _ & [(_ & V & _)|(X & w & q & V & A & _ & _)])]); try congruence.
  rewrite V in HV. injection HV as <-. exists (f kf), Ei, (v2E (speed w)). split; [apply B; exact A|]. split; [exact X|]. split; [exact EI|]. split; [apply energy_of|]. apply is_energy_iff in EI. subst Ei. apply along_iff in A. rewrite A, speed_along by exact DN. apply wave_speed in KI.
  destruct (range_of (e_v ev) (q_Emax k) EM SV) as (k0 & SL0 & KM & EL & _ & _). apply slowest_iff in SL, SL0. rewrite SL in SL0. injection SL0 as <-. assert (KE : ki = v2k * speed (e_v ev)). { rewrite KI. pose proof k2v_v2k as K. transitivity (k2v * v2k * ki); [rewrite K; ring|ring]. } rewrite <- KE in KM.
  pose proof (grid_between kmin ki 1000 i ltac:(lra) (Nat.lt_le_incl _ _ IL) (Nat.lt_0_succ 999)) as G1. assert (IL' : (i + 1 <= 1000)%nat) by (rewrite Nat.add_1_r; exact IL). pose proof (grid_between kmin ki 1000 (i + 1) ltac:(lra) IL' (Nat.lt_0_succ 999)) as G2.
  assert (KF : kmin <= kf <= ki). { unfold within in W. set (g1 := grid kmin ki 1000 i) in *. set (g2 := grid kmin ki 1000 (i + 1)) in *. clearbody g1 g2. unfold Rmin, Rmax in W. destruct (Rle_dec g1 g2); lra. } clear G1 G2 W IL IL'.
  rewrite KI at 1 2. rewrite Rabs_right by lra. rewrite <- !k2E_v in *. rewrite KI, <- k2E_v in EL. rewrite !k2E_ksq2e in *. pose proof ksq2e_pos. split; [apply Rmult_le_compat_l; nra|]. assert (ksq2e * (kmin * kmin) <= ksq2e * (kf * kf)) by (apply Rmult_le_compat_l; nra). lra.
Qed.
(** an excitation of negative energy, or of more than the neutron has, is not excited *)
Lemma out_of_reach k u1 u2 u3 ev Ei : 0 <= q_Emax k -> e_v ev <> mkV 0 0 0 -> speed (e_v ev) <= 10 ^ 20 -> 0 <= u1 <= 1 -> is_energy Ei (speed (e_v ev)) -> ((forall q, q_E k q < 0) \/ (forall q, Ei < q_E k q)) -> evq_scatter k u1 u2 u3 ev = Ok (as_is ev).
Proof.
  intros EM N SV U EI EN. rewrite scatter_after by exact N. cbv zeta. set (d := choose_direction u1 u2). set (f := E_vq_minus_deltaE _ d _ _). destruct (range_of (e_v ev) (q_Emax k) EM SV) as (kmin & _ & KM & _ & WD & KL). rewrite KL. apply is_energy_iff in EI.
  assert (FP : forall x y, 0 <= x <= v2k * speed (e_v ev) -> 0 <= y <= v2k * speed (e_v ev) -> 0 < f x * f y).
  { assert (B : forall x, 0 <= x <= v2k * speed (e_v ev) -> 0 <= k2E x <= v2E (vnorm (e_v ev))). { intros x X. change (vnorm (e_v ev)) with (speed (e_v ev)). replace (speed (e_v ev)) with (k2v * (v2k * speed (e_v ev))). - rewrite <- k2E_v, !k2E_ksq2e. pose proof ksq2e_pos. split; [apply Rmult_le_pos; nra|apply Rmult_le_compat_l; nra]. - pose proof k2v_v2k as K. transitivity (k2v * v2k * speed (e_v ev)); [ring|rewrite K; ring]. }
    assert (C : (forall x, 0 <= x <= v2k * speed (e_v ev) -> 0 < f x) \/ (forall x, 0 <= x <= v2k * speed (e_v ev) -> f x < 0)).
    { destruct EN as [EN|EN]; [left|right]; intros x X; specialize (B x X); unfold f, E_vq_minus_deltaE; cbv zeta; specialize (EN (vsub (vscale v2k (e_v ev)) (vscale x d))); change (vnorm (e_v ev)) with (speed (e_v ev)) in *; lra. }
    intros x y X Y. destruct C as [C|C]; pose proof (C x X); pose proof (C y Y); nra. }
  assert (G : forall n, (0 < n)%nat -> find_roots_evenly (ZRidd_solve (1 / 1000)) n kmin (v2k * speed (e_v ev)) f = []).
  { intros n NP. unfold find_roots_evenly. assert (A : forall i, In i (seq 0 n) -> (i < n)%nat) by (intros i I; apply in_seq in I; lia). revert A. generalize (seq 0 n) as l. induction l as [|i l IH]; intros A; [reflexivity|]. cbn [flat_map]. rewrite IH by (intros j J; apply A; now right). rewrite app_nil_r. unfold root_of_step. rewrite !grid_eq by exact NP.
    unfold ZRidd_solve. rewrite zridd_failed; [reflexivity|]. specialize (A i (or_introl eq_refl)). pose proof (grid_between kmin (v2k * speed (e_v ev)) n i ltac:(lra) ltac:(lia) NP). pose proof (grid_between kmin (v2k * speed (e_v ev)) n (i + 1) ltac:(lra) ltac:(lia) NP). apply FP; lra. }
  rewrite (G _ (Nat.lt_0_succ 999)). reflexivity.
Qed.
(** the slope *)
Lemma four_point_poly a0 a1 a2 a3 a4 x d : d <> 0 -> four_point (fun x => a0 + a1 * x + a2 * x ^ 2 + a3 * x ^ 3 + a4 * x ^ 4) x d = a1 + 2 * a2 * x + 3 * a3 * x ^ 2 + 4 * a4 * x ^ 3.
Proof. intros D. unfold four_point. field. exact D. Qed.
Lemma four_point_slopes (f f' : R -> R) x d : 0 < d -> (forall y, x - 2 * d <= y <= x + 2 * d -> derivable_pt_lim f y (f' y)) ->
  exists y z, x - d <= y <= x + d /\ x - 2 * d <= z <= x + 2 * d /\ four_point f x d = (4 * f' y - f' z) / 3.
Proof.
  intros D H. destruct (MVT_cor2 f f' (x - d) (x + d) ltac:(lra) ltac:(intros; apply H; lra)) as (y & E1 & Y). destruct (MVT_cor2 f f' (x - 2 * d) (x + 2 * d) ltac:(lra) ltac:(intros; apply H; lra)) as (z & E2 & Z). exists y, z. split; [lra|]. split; [lra|]. unfold four_point. rewrite E1, E2. field. lra.
Qed.
