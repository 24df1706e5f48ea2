From Coq Require Import Reals Lra Lia.
From Coquelicot Require Import Coquelicot.
From Verif Require Import Base RotModel ChanModel ShapeModel ChanProofs GridProofs McsModel OptModel BsrcModel BsrcSpec BsrcProofs BsrcProofs3.
Open Scope R_scope.

Lemma wave_between a b u : fraction u -> Rmin a b <= a + (b - a) * u <= Rmax a b.
Proof. exact (between a b u). Qed.
Lemma maxwell_run c w h range m u1 u2 u3 u4 u5 n : maxwell_init c = Ok (w, h, range, m) -> fraction u1 -> fraction u2 -> fraction u3 -> fraction u4 -> fraction u5 -> 0 < x_xw c -> 0 < x_yh c ->
  let x := x_xw c * (1 - 2 * u3) / 2 in let y := x_yh c * (1 - 2 * u4) / 2 in let l := x_low c + (x_high c - x_low c) * u5 in
  exists r, maxwell_trace c (w, h, range, m) u1 u2 u3 u4 u5 n = Ok r /\ in_rectangle w h r /\ vx (r_pos r) = w * (u1 - 1 / 2) /\ vy (r_pos r) = h * (u2 - 1 / 2) /\ r_t r = 0 /\ r_s1 r = r_s1 n /\ r_s2 r = r_s2 n /\
    Rabs x <= x_xw c / 2 /\ Rabs y <= x_yh c / 2 /\ flies_to r (x_dist c) x y /\ has_wavelength r l /\ Rmin (x_low c) (x_high c) <= l <= Rmax (x_low c) (x_high c) /\
    r_p r = r_p n * (w * h * 10000 * (x_high c - x_low c)) * (x_xw c * x_yh c * seen 0 0 x y (x_dist c)) *
      (x_I1 c * maxwellian (x_T1 c) l + x_I2 c * maxwellian (x_T2 c) l + x_I3 c * maxwellian (x_T3 c) l).
Proof.
  intros Ini U1 U2 U3 U4 U5 W H x y l. apply maxwell_init_iff in Ini. destruct Ini as (_ & Er & Em & Pw & Ph & L1 & L2 & D & _).
  pose proof (wave_between (x_low c) (x_high c) u5 U5) as Bt. fold l in Bt. assert (Lp : 0 < l) by (assert (0 < Rmin (x_low c) (x_high c)) by (unfold Rmin; destruct (Rle_dec _ _); assumption); lra).
  destruct (wave_speed l Lp) as (S1 & S2 & S3). unfold maxwell_trace. cbv zeta. rewrite (aim_eq u3 u4 _ _ _ D) by lra. fold x y. cbn [bind]. rewrite Er. fold l. rewrite S1. cbn [bind]. rewrite (launch_eq _ _ _ _ x y D). cbn [bind].
  eexists. split; [reflexivity|]. cbn [r_t r_s1 r_s2 r_p r_pos vx vy vz].
  split; [split; [|split; [|reflexivity]]; cbn [r_pos vx vy]; [replace (1 / 2 * w * randpm1 u1) with (randpm1 u1 * w / 2) by field|replace (1 / 2 * h * randpm1 u2) with (randpm1 u2 * h / 2) by field]; now apply centred|].
  unfold randpm1 at 1 2. split; [field|]. split; [field|]. do 3 (split; [reflexivity|]).
  split; [apply target_in; [assumption|lra]|]. split; [apply target_in; [assumption|lra]|]. split; [now apply launch_flies|]. split; [split; [exact Lp|]; rewrite launch_speed by exact D; exact S2|].
  split; [exact Bt|]. rewrite Em, Er. ring.
Qed.
Lemma RInt_close (f : R -> R) a b I I' : is_RInt f a b I -> I = I' -> is_RInt f a b I'.
Proof. now intros H <-. Qed.
Lemma maxwell_drawn T a b : 0 < T -> 0 < a -> 0 < b -> is_RInt (fun u => (b - a) * maxwellian T (a + (b - a) * u)) 0 1 (maxwell_below T b - maxwell_below T a).
Proof.
  intros HT A B. assert (K : is_RInt (maxwellian T) ((b - a) * 0 + a) ((b - a) * 1 + a) (maxwell_below T b - maxwell_below T a)).
  { replace ((b - a) * 0 + a) with a by ring. replace ((b - a) * 1 + a) with b by ring. now apply maxwell_integral. }
  apply is_RInt_comp_lin in K. eapply is_RInt_ext; [|exact K]. intros u _. cbn. unfold scal. cbn. unfold mult. cbn. f_equal. f_equal. ring.
Qed.
Lemma maxwell_mean c w h range m u1 u2 u3 u4 n : maxwell_init c = Ok (w, h, range, m) -> fraction u1 -> fraction u2 -> fraction u3 -> fraction u4 -> 0 < x_xw c -> 0 < x_yh c ->
  let x := x_xw c * (1 - 2 * u3) / 2 in let y := x_yh c * (1 - 2 * u4) / 2 in let part := fun T => maxwell_below T (x_high c) - maxwell_below T (x_low c) in
  is_RInt (fun u => weight_of (maxwell_trace c (w, h, range, m) u1 u2 u3 u4 u n)) 0 1
    (r_p n * (w * h * 10000) * (x_xw c * x_yh c * seen 0 0 x y (x_dist c)) * (x_I1 c * part (x_T1 c) + x_I2 c * part (x_T2 c) + x_I3 c * part (x_T3 c))).
Proof.
  intros Ini U1 U2 U3 U4 W H x y part. pose proof Ini as Ini'. apply maxwell_init_iff in Ini'. destruct Ini' as (_ & Er & Em & Pw & Ph & L1 & L2 & D & T1 & T2 & T3).
  set (k := r_p n * (w * h * 10000) * (x_xw c * x_yh c * seen 0 0 x y (x_dist c))).
  pose proof (maxwell_drawn _ _ _ T1 L1 L2) as M1. pose proof (maxwell_drawn _ _ _ T2 L1 L2) as M2. pose proof (maxwell_drawn _ _ _ T3 L1 L2) as M3.
  apply (is_RInt_scal _ _ _ (x_I1 c)) in M1. apply (is_RInt_scal _ _ _ (x_I2 c)) in M2. apply (is_RInt_scal _ _ _ (x_I3 c)) in M3.
  pose proof (is_RInt_scal _ _ _ k _ (is_RInt_plus _ _ _ _ _ _ (is_RInt_plus _ _ _ _ _ _ M1 M2) M3)) as M.
  eapply RInt_close; [eapply is_RInt_ext; [|exact M]|].
  - intros u Hu. rewrite Rmin_left, Rmax_right in Hu by lra. destruct (maxwell_run c w h range m u1 u2 u3 u4 u n Ini U1 U2 U3 U4 ltac:(split; lra) W H) as (r & -> & K). cbv zeta in K. cbn [weight_of].
    replace (r_p r) with (r_p n * (w * h * 10000 * (x_high c - x_low c)) * (x_xw c * x_yh c * seen 0 0 (x_xw c * (1 - 2 * u3) / 2) (x_yh c * (1 - 2 * u4) / 2) (x_dist c)) *
      (x_I1 c * maxwellian (x_T1 c) (x_low c + (x_high c - x_low c) * u) + x_I2 c * maxwellian (x_T2 c) (x_low c + (x_high c - x_low c) * u) + x_I3 c * maxwellian (x_T3 c) (x_low c + (x_high c - x_low c) * u))) by (symmetry; apply K).
    unfold scal, plus, k, x, y. cbn. unfold mult. cbn. ring.
  - unfold part, scal, plus. cbn. unfold mult. cbn. ring.
Qed.
(** all of a Maxwellian *)
Lemma below_bounds T l : 0 < T -> 0 < l -> 0 < maxwell_below T l < 1.
Proof.
  intros HT Hl. unfold maxwell_below. assert (A : 0 < 949 / T / l ^ 2) by (apply Rdiv_lt_0_compat; [apply Rdiv_lt_0_compat; lra|now apply pow_lt]).
  replace (- (949 / T) / l ^ 2) with (- (949 / T / l ^ 2)) by (field; lra). set (a := 949 / T / l ^ 2) in *. clearbody a. pose proof (exp_pos (- a)) as E. split; [nra|].
  pose proof (exp_ineq1 a ltac:(lra)) as I. rewrite exp_Ropp. apply Rmult_lt_reg_l with (exp a); [apply exp_pos|]. rewrite <- Rmult_assoc, Rinv_r by (pose proof (exp_pos a); lra). lra.
Qed.
Lemma below_increasing T a b : 0 < T -> 0 < a -> a < b -> maxwell_below T a < maxwell_below T b.
Proof.
  intros HT A B. assert (P : forall l, 0 < l -> 0 < maxwellian T l).
  { intros l Hl. unfold maxwellian. cbv zeta. assert (Ha : 0 < 949 / T) by (apply Rdiv_lt_0_compat; lra). set (a' := 949 / T) in *. clearbody a'. pose proof (exp_pos (- a' / (l * l))). apply Rdiv_lt_0_compat; [|repeat apply Rmult_lt_0_compat; assumption]. repeat apply Rmult_lt_0_compat; try assumption; lra. }
  destruct (MVT_gen (maxwell_below T) a b (maxwellian T)) as (x & X & E).
  - intros x X. rewrite Rmin_left, Rmax_right in X by lra. apply below_derive; lra.
  - intros x X. rewrite Rmin_left, Rmax_right in X by lra. apply continuity_pt_filterlim. apply (@ex_derive_continuous R_AbsRing R_NormedModule). exists (maxwellian T x). apply below_derive; lra.
  - rewrite Rmin_left, Rmax_right in X by lra. assert (0 < maxwellian T x * (b - a)) by (apply Rmult_lt_0_compat; [apply P|]; lra). lra.
Qed.
(** nearly all wavelengths are below a large one *)
Lemma below_all T eps : 0 < T -> 0 < eps -> exists L, 0 < L /\ forall l, L <= l -> 1 - eps < maxwell_below T l.
Proof.
  intros HT He. set (a := 949 / T). assert (A : 0 < a) by (apply Rdiv_lt_0_compat; lra). exists (sqrt (a / eps) + 1). pose proof (sqrt_pos (a / eps)) as Q. split; [lra|]. intros l Ll.
  assert (Q2 : sqrt (a / eps) * sqrt (a / eps) = a / eps) by (apply sqrt_sqrt, Rlt_le, Rdiv_lt_0_compat; lra).
  assert (L2 : a / eps < l ^ 2) by nra. assert (l2 : 0 < l ^ 2) by (apply pow_lt; lra).
  assert (X : a / l ^ 2 < eps). { apply Rmult_lt_reg_r with (l ^ 2); [exact l2|]. unfold Rdiv. rewrite Rmult_assoc, Rinv_l by lra. apply (Rmult_lt_compat_l eps) in L2; [|exact He]. replace (eps * (a / eps)) with a in L2 by (field; lra). lra. }
  unfold maxwell_below. fold a. replace (- a / l ^ 2) with (- (a / l ^ 2)) by (field; lra). assert (B : 0 < a / l ^ 2) by (now apply Rdiv_lt_0_compat). set (b := a / l ^ 2) in *. clearbody b.
  pose proof (exp_ineq1 (- b) ltac:(lra)). pose proof (exp_pos (- b)). assert (0 < exp (- b) * b) by (now apply Rmult_lt_0_compat). lra.
Qed.
(** few are below a small one *)
Lemma below_none T eps : 0 < T -> 0 < eps -> exists L, 0 < L /\ forall l, 0 < l <= L -> maxwell_below T l < eps.
Proof.
  intros HT He. set (a := 949 / T). assert (A : 0 < a) by (apply Rdiv_lt_0_compat; lra). exists (sqrt (a * eps / 4)). assert (Ap : 0 < a * eps / 4) by nra. split; [now apply sqrt_lt_R0|]. intros l [L0 Ll].
  assert (L2 : l ^ 2 <= a * eps / 4). { pose proof (sqrt_sqrt (a * eps / 4) (Rlt_le _ _ Ap)). nra. } assert (l2 : 0 < l ^ 2) by (apply pow_lt; lra).
  assert (X : 4 / eps <= a / l ^ 2). { apply Rmult_le_reg_r with (l ^ 2); [exact l2|]. unfold Rdiv at 2. rewrite Rmult_assoc, Rinv_l by lra. apply (Rmult_le_compat_l (4 / eps)) in L2; [|apply Rlt_le, Rdiv_lt_0_compat; lra]. replace (4 / eps * (a * eps / 4)) with a in L2 by (field; lra). lra. }
  unfold maxwell_below. fold a. replace (- a / l ^ 2) with (- (a / l ^ 2)) by (field; lra). assert (B : 0 < a / l ^ 2) by (now apply Rdiv_lt_0_compat). set (b := a / l ^ 2) in *. clearbody b.
  assert (H1 : 1 + b / 2 < exp (b / 2)) by (apply exp_ineq1; lra).
  assert (H2 : exp b = exp (b / 2) * exp (b / 2)) by (rewrite <- exp_plus; f_equal; field).
  rewrite exp_Ropp. apply Rmult_lt_reg_l with (exp b); [apply exp_pos|]. rewrite <- Rmult_assoc, Rinv_r by (pose proof (exp_pos b); lra). rewrite H2.
  assert (H3 : 4 <= eps * b) by (apply (Rmult_le_compat_l eps) in X; [|lra]; replace (eps * (4 / eps)) with 4 in X by (field; lra); lra).
  assert (H4 : (1 + b / 2) * (1 + b / 2) < exp (b / 2) * exp (b / 2)) by nra.
  assert (H5 : 1 + b < (1 + b / 2) * (1 + b / 2) * eps) by nra. nra.
Qed.
