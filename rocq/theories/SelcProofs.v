From Coq Require Import Reals Lra Lia.
From Verif Require Import Base RotModel ChanModel ShapeModel ChanProofs GridProofs OptModel OptSpec OptProofs OptProofs3 SelcModel SelcSpec.
Open Scope R_scope.

Lemma qf a b : a <> b -> Reqb a b = false.
Proof. apply Reqb_f. Qed.
Lemma lf a b : b <= a -> Rltb a b = false.
Proof. apply Rltb_f. Qed.
Lemma ltt a b : a < b -> Rltb a b = true.
Proof. apply Rltb_t. Qed.
Lemma dt_move dt r : 0 <= dt -> prop_dt dt None r = prop_dt_nogravity dt r.
Proof. intros H. unfold prop_dt. assert (0 < / 10 ^ 15) by (apply Rinv_0_lt_compat, pow_lt; lra). now rewrite lf by lra. Qed.
Lemma cross_start r : vz (r_vel r) <> 0 -> crossing r (vz (r_pos r)) = r.
Proof.
  intros N. unfold crossing. cbv zeta. replace ((vz (r_pos r) - vz (r_pos r)) / vz (r_vel r)) with 0 by (field; exact N). destruct r as [[x y z] v t s1 s2 p]. cbn. f_equal; [f_equal|]; ring.
Qed.
Lemma cross_step r z z' : 0 < vz (r_vel r) -> z <= z' -> prop_dt ((z' - z) / vz (r_vel r)) None (crossing r z) = crossing r z'.
Proof.
  intros N L. rewrite dt_move by (apply Rmult_le_pos; [lra|apply Rlt_le, Rinv_0_lt_compat, N]). unfold prop_dt_nogravity, crossing. cbv zeta. cbn [r_pos r_vel r_t r_s1 r_s2 r_p vx vy vz].
  f_equal; [f_equal; field; lra|field; lra].
Qed.
Lemma cross_p r z p : crossing (with_p r p) z = with_p (crossing r z) p.
Proof. reflexivity. Qed.
Lemma polar_radius r0 r rho phi : polar r0 r rho phi -> axis_radius r0 r = rho.
Proof.
  intros (P & _ & X & Y). unfold axis_radius. rewrite X, Y. pose proof (sin2_cos2 phi) as S. unfold Rsqr in S.
  replace (rho * sin phi * (rho * sin phi) + rho * cos phi * (rho * cos phi)) with (rho * rho * (sin phi * sin phi + cos phi * cos phi)) by ring. rewrite S, Rmult_1_r. apply sqrt_square. lra.
Qed.
Lemma polar_angle r0 r rho phi : polar r0 r rho phi -> axis_angle r0 r = phi.
Proof. intros (P & B & X & Y). unfold axis_angle. apply azimuth_arctan2. exists rho. tauto. Qed.
Lemma v_outside_iff c r : v_outside c r = true <-> ~ in_aperture (v_width c) (v_height c) r.
Proof.
  unfold v_outside, in_aperture. set (x := vx (r_pos r)). set (y := vy (r_pos r)). split.
  - intros H [A B]. pose proof (Rle_abs x). pose proof (Rle_abs (- x)) as X. pose proof (Rle_abs y). pose proof (Rle_abs (- y)) as Y. rewrite Rabs_Ropp in X, Y.
    rewrite !lf in H by lra. discriminate.
  - intros H. destruct (Rltb x (- v_width c / 2)) eqn:A; [reflexivity|]. destruct (Rltb (v_width c / 2) x) eqn:B; [reflexivity|]. destruct (Rltb y (- v_height c / 2)) eqn:C; [reflexivity|]. destruct (Rltb (v_height c / 2) y) eqn:D; [reflexivity|].
    apply Rltb_f in A, B, C, D. exfalso. apply H. split; apply Rabs_le; lra.
Qed.
Lemma s_outside_iff c r : s_outside c r = true <-> ~ in_window (s_frame c) r.
Proof.
  unfold s_outside, in_window. cbv zeta. set (x := vx (r_pos r)). set (y := vy (r_pos r)). set (o := s_frame c). split.
  - intros H [A B]. rewrite !lf in H by lra. discriminate.
  - intros H. destruct (Rltb x (xmin o)) eqn:A; [reflexivity|]. destruct (Rltb (xmax o) x) eqn:B; [reflexivity|]. destruct (Rltb y (ymin o)) eqn:C; [reflexivity|]. destruct (Rltb (ymax o) y) eqn:D; [reflexivity|].
    apply Rltb_f in A, B, C, D. exfalso. apply H. lra.
Qed.
(** the phases at which a neutron passes *)
Lemma free_interval gap delta : Rabs delta <= gap -> exists lo hi, lo <= hi /\ (forall psi, free gap delta psi <-> lo <= psi <= hi) /\ hi - lo = gap - Rabs delta.
Proof.
  intros H. unfold free. destruct (Rle_dec 0 delta) as [P|P].
  - rewrite Rabs_right in * by lra. exists 0, (gap - delta). repeat split; lra.
  - rewrite Rabs_left in * by lra. exists (- delta), gap. repeat split; lra.
Qed.
Lemma free_none gap delta psi : gap < Rabs delta -> ~ free gap delta psi.
Proof. intros H (A & B). unfold Rabs in H. destruct (Rcase_abs delta); lra. Qed.

Section V.
Variables (c : vselector) (r : ray).
Hypotheses (V : 0 < vz (r_vel r)) (Z : vz (r_pos r) <= - v_l0 c / 2) (L1 : 0 <= v_l1 c <= v_l0 c).
Let a := crossing r (- v_l0 c / 2).
Let b := crossing r (- v_l1 c / 2).
Let d := crossing r (v_l1 c / 2).
Let e := crossing r (v_l0 c / 2).
Lemma v_steps : prop_dt ((- v_l0 c / 2 - vz (r_pos r)) / vz (r_vel r)) None r = a /\ prop_dt ((v_l0 c - v_l1 c) / (2 * vz (r_vel r))) None a = b /\
  prop_dt (v_l1 c / vz (r_vel r)) None b = d /\ prop_dt ((v_l0 c - v_l1 c) / (2 * vz (r_vel r))) None d = e.
Proof.
  split; [|split; [|split]].
  - rewrite <- (cross_start r) at 3 by lra. now apply cross_step.
  - unfold a, b. rewrite <- (cross_step r (- v_l0 c / 2) (- v_l1 c / 2)) by lra. f_equal. field. lra.
  - unfold b, d. rewrite <- (cross_step r (- v_l1 c / 2) (v_l1 c / 2)) by lra. f_equal. field. lra.
  - unfold d, e. rewrite <- (cross_step r (v_l1 c / 2) (v_l0 c / 2)) by lra. f_equal. field. lra.
Qed.
Lemma v_run : vselector_trace None c r =
  if v_outside c a then Ok (absorb a) else if v_outside c e then Ok (absorb e) else
    let r_mean := (axis_radius (v_r0 c) b + axis_radius (v_r0 c) d) / 2 in
    if Reqb r_mean 0 then Err ZeroDivisionError else
    let A := v_nb c / (2 * PI) * (v_tb c / r_mean + Rabs (v_phi_rad c + (axis_angle (v_r0 c) d - axis_angle (v_r0 c) b) - v_omega c * v_l1 c / vz (r_vel r))) in
    if Rleb 1 A then Ok (absorb e) else Ok (with_p e (r_p e * (1 - A))).
Proof.
  destruct v_steps as (S1 & S2 & S3 & S4). unfold vselector_trace. cbv zeta. rewrite (qf (vz (r_vel r)) 0) by lra. rewrite S1. destruct (v_outside c a); [reflexivity|].
  change (vz (r_vel a)) with (vz (r_vel r)). rewrite (qf (2 * vz (r_vel r)) 0) by lra. cbn [bind]. rewrite S2. change (vz (r_vel b)) with (vz (r_vel r)). rewrite (qf (vz (r_vel r)) 0) by lra. cbn [bind]. rewrite S3.
  change (vz (r_vel d)) with (vz (r_vel r)). rewrite (qf (2 * vz (r_vel r)) 0) by lra. cbn [bind]. rewrite S4. destruct (v_outside c e); [reflexivity|].
  change (vz (r_vel e)) with (vz (r_vel r)). rewrite (qf (vz (r_vel r)) 0) by lra. rewrite Bool.orb_false_r. reflexivity.
Qed.
Lemma v_absorbs : ~ in_aperture (v_width c) (v_height c) a \/ ~ in_aperture (v_width c) (v_height c) e -> exists r', vselector_trace None c r = Ok r' /\ r_p r' = -1.
Proof.
  intros H. rewrite v_run. destruct (v_outside c a) eqn:A; [eexists; split; reflexivity|]. destruct H as [H|H]; apply v_outside_iff in H; [congruence|]. rewrite H. eexists. split; reflexivity.
Qed.
Lemma v_passes ri ti rf tf : in_aperture (v_width c) (v_height c) a -> in_aperture (v_width c) (v_height c) e -> polar (v_r0 c) b ri ti -> polar (v_r0 c) d rf tf -> 0 < v_nb c ->
  let pitch := 2 * PI / v_nb c in let gap := pitch - v_tb c / ((ri + rf) / 2) in
  let delta := v_phi c * (PI / 180) + (tf - ti) - 2 * PI * (v_rot c / 60) * (v_l1 c / vz (r_vel r)) in
  (gap <= Rabs delta -> exists r', vselector_trace None c r = Ok r' /\ r_p r' = -1) /\
  (Rabs delta < gap -> exists f, free_share pitch gap delta f /\ vselector_trace None c r = Ok (with_p e (r_p r * f))).
Proof.
  intros A E Pb Pd N pitch gap delta. rewrite v_run.
  replace (v_outside c a) with false by (symmetry; destruct (v_outside c a) eqn:K; [apply v_outside_iff in K; contradiction|reflexivity]).
  replace (v_outside c e) with false by (symmetry; destruct (v_outside c e) eqn:K; [apply v_outside_iff in K; contradiction|reflexivity]).
  rewrite (polar_radius _ _ _ _ Pb), (polar_radius _ _ _ _ Pd), (polar_angle _ _ _ _ Pb), (polar_angle _ _ _ _ Pd). cbv zeta. pose proof (proj1 Pb) as R1. pose proof (proj1 Pd) as R2. rewrite (qf ((ri + rf) / 2) 0) by lra.
  replace (v_phi_rad c + (tf - ti) - v_omega c * v_l1 c / vz (r_vel r)) with delta by (unfold delta, v_phi_rad, v_omega; field; lra).
  pose proof PI_RGT_0 as Pp. assert (Pt : 0 < pitch) by (apply Rdiv_lt_0_compat; lra).
  set (AA := v_nb c / (2 * PI) * (v_tb c / ((ri + rf) / 2) + Rabs delta)). assert (EA : 1 - AA = (gap - Rabs delta) / pitch) by (unfold AA, gap, pitch; field; repeat split; lra).
  split; intros H.
  - assert (1 <= AA). { assert (1 - AA <= 0); [|lra]. rewrite EA. unfold Rdiv. assert (0 < / pitch) by (now apply Rinv_0_lt_compat). nra. }
    replace (Rleb 1 AA) with true by (symmetry; now apply Rleb_true). eexists. split; reflexivity.
  - assert (AA < 1). { assert (0 < 1 - AA); [|lra]. rewrite EA. apply Rdiv_lt_0_compat; lra. } replace (Rleb 1 AA) with false by (symmetry; now apply Rleb_false).
    destruct (free_interval gap delta ltac:(lra)) as (lo & hi & O & F & Le). exists ((hi - lo) / pitch). split; [exists lo, hi; tauto|]. rewrite EA, Le. reflexivity.
Qed.
End V.

Section S.
Variables (c : selector) (r : ray).
Hypotheses (V : 0 < vz (r_vel r)) (L : 0 <= s_len c).
Let a := crossing r 0.
Let e := crossing r (s_len c).
Lemma s_start : prop_z0 None r = a.
Proof.
  unfold prop_z0, prop_z0_nogravity. rewrite (qf (vz (r_vel r)) 0) by lra. unfold prop_dt_nogravity, a, crossing. cbv zeta.
  replace ((0 - vz (r_pos r)) / vz (r_vel r)) with (- vz (r_pos r) / vz (r_vel r)) by (field; lra). f_equal. f_equal. field. lra.
Qed.
Lemma s_absorbs_entry u : ~ in_window (s_frame c) a -> exists r', selector_trace None c u r = Ok r' /\ r_p r' = -1.
Proof. intros H. unfold selector_trace. rewrite s_start. cbv zeta. apply s_outside_iff in H. rewrite H. eexists. split; reflexivity. Qed.
Lemma s_passes u ri ti : in_window (s_frame c) a -> polar (s_radius c) a ri ti -> 0 < s_num c ->
  let pitch := 2 * PI / s_num c in let gap := pitch - s_width c / ri in
  (~ in_window (s_frame c) e -> exists r', selector_trace None c u r = Ok r' /\ r_p r' = -1) /\
  (forall rf tf, in_window (s_frame c) e -> polar (s_radius c) e rf tf ->
    let delta := tf - ti + 2 * PI * s_feq c * (s_len c / vz (r_vel r)) - s_alfa c * (PI / 180) in
    (0 <= gap * u + delta <= gap -> selector_trace None c u r = Ok (with_p e (r_p r * (gap / pitch)))) /\
    (~ 0 <= gap * u + delta <= gap -> exists r', selector_trace None c u r = Ok r' /\ r_p r' = -1)).
Proof.
  intros A Pa N pitch gap. pose proof PI_RGT_0 as Pp. pose proof (proj1 Pa) as R1. assert (Pt : 0 < pitch) by (apply Rdiv_lt_0_compat; lra). unfold selector_trace. rewrite s_start. cbv zeta.
  replace (s_outside c a) with false by (symmetry; destruct (s_outside c a) eqn:K; [apply s_outside_iff in K; contradiction|reflexivity]).
  change (vz (r_vel a)) with (vz (r_vel r)). rewrite (qf (vz (r_vel r)) 0) by lra. rewrite (polar_radius _ _ _ _ Pa), (polar_angle _ _ _ _ Pa). rewrite (qf ri 0), (qf (s_num c) 0) by lra. cbn [orb].
  set (k := 180 / PI). assert (Kp : 0 < k) by (apply Rdiv_lt_0_compat; lra).
  assert (Eg : 360 / s_num c - s_width c / ri * k = gap * k) by (unfold gap, pitch, k; field; repeat split; lra). rewrite Eg.
  assert (Ep : s_width c / ri * k + gap * k = pitch * k) by (unfold gap; ring). rewrite Ep. rewrite qf by nra.
  replace (gap * k / (pitch * k)) with (gap / pitch) by (field; lra).
  assert (St : prop_dt (s_len c / vz (r_vel r)) None (with_p a (r_p a * (gap / pitch))) = with_p e (r_p r * (gap / pitch))).
  { unfold a, e. change (r_p (crossing r 0)) with (r_p r). rewrite <- !cross_p. replace (s_len c / vz (r_vel r)) with ((s_len c - 0) / vz (r_vel (with_p r (r_p r * (gap / pitch))))) by (cbn; field; lra). apply cross_step; [exact V|exact L]. }
  rewrite St. assert (Ow : s_outside c (with_p e (r_p r * (gap / pitch))) = s_outside c e) by reflexivity. rewrite Ow.
  split.
  - intros H. apply s_outside_iff in H. rewrite H. eexists. split; reflexivity.
  - intros rf tf E Pe. set (delta := tf - ti + 2 * PI * s_feq c * (s_len c / vz (r_vel r)) - s_alfa c * (PI / 180)). replace (s_outside c e) with false by (symmetry; destruct (s_outside c e) eqn:K; [apply s_outside_iff in K; contradiction|reflexivity]).
    change (axis_angle (s_radius c) (with_p e (r_p r * (gap / pitch)))) with (axis_angle (s_radius c) e). rewrite (polar_angle _ _ _ _ Pe).
    replace (ti * k - (gap * k * u + s_feq c * (s_len c / vz (r_vel r)) * 360 - s_alfa c)) with (tf * k - (gap * u + delta) * k) by (unfold delta, k; field; repeat split; lra).
    set (w := gap * u + delta). split; intros H.
    + rewrite !lf by nra. reflexivity.
    + assert (K : w < 0 \/ gap < w) by lra. destruct K as [K|K].
      * rewrite (ltt (tf * k) (tf * k - w * k)) by nra. cbn [orb]. eexists. split; reflexivity.
      * rewrite (ltt (tf * k - w * k + gap * k) (tf * k)) by nra. rewrite Bool.orb_true_r. eexists. split; reflexivity.
Qed.
End S.
