(** Proofs for C65: the accuracy for a function with bounded slopes. *)
From Coq Require Import Reals Lra.
From Verif Require Import Base RotModel ShapeModel ChanModel RootModel RootSpec RootProofs.
Open Scope R_scope.

(** The estimate is not much nearer to an end of the bracket than the root is. *)
Lemma estimate_sym f a b : f a * f b < 0 -> estimate f b a = estimate f a b.
Proof.
  intros N. unfold estimate, place. replace (1 / 2 * (b + a)) with (1 / 2 * (a + b)) by lra. set (fm := f (1 / 2 * (a + b))). replace (fm * fm - f a * f b) with (fm * fm - f b * f a) by ring.
  set (s := sqrt _). destruct (Rleb (f b) (f a)) eqn:C; [apply Rleb_iff in C; rewrite (proj2 (Rleb_not (f a) (f b)))|apply Rleb_not in C; rewrite (proj2 (Rleb_iff (f a) (f b)))]; try (unfold Rdiv; ring); try nra.
Qed.
Lemma estimate_core f a b r m M : 0 < m -> m <= M -> f a * f b < 0 -> f r = 0 ->
  m * Rabs (a - r) <= Rabs (f a) <= M * Rabs (a - r) -> m * Rabs (b - r) <= Rabs (f b) <= M * Rabs (b - r) -> Rabs (f (1 / 2 * (a + b))) <= M * Rabs (1 / 2 * (a + b) - r) ->
  Rabs (a - r) + Rabs (b - r) = Rabs (b - a) -> (f (1 / 2 * (a + b)) * f a < 0 -> Rabs (1 / 2 * (a + b) - r) + Rabs (a - r) = Rabs (b - a) / 2) ->
  m * m * Rabs (a - r) <= 2 * (M * M) * Rabs (estimate f a b - a).
Proof.
  intros m0 mM N Er A B Mi S T. set (d := Rabs (a - r)) in *. set (H := Rabs (b - a) / 2). assert (EH : Rabs (b - a) = 2 * H) by (unfold H; lra). rewrite EH in S, T. replace (2 * H / 2) with H in T by lra.
  assert (P : 0 < f (1 / 2 * (a + b)) * f (1 / 2 * (a + b)) - f b * f a) by nra. pose proof (sqrt_lt_R0 _ P) as S0.
  assert (QQ : -1 < place f a b < 1 /\ (f (1 / 2 * (a + b)) * f a < 0 -> 1 + place f a b = 1 - Rabs (f (1 / 2 * (a + b))) / sqrt (f (1 / 2 * (a + b)) * f (1 / 2 * (a + b)) - f b * f a)) /\ (0 <= f (1 / 2 * (a + b)) * f a -> 0 <= place f a b)).
  { assert (G : good f (mkB a (f a) b (f b) UNUSED)) by (split; [reflexivity|split; [reflexivity|exact N]]).
    destruct (next_x_spec f _ G) as (q & Eq & _ & Q & Z & Pq & Nq). cbn [b_xl b_xh b_fl b_fh] in *. rewrite <- Eq. split; [exact Q|]. split.
    - intros K. rewrite Eq. unfold place. set (fm := f (1 / 2 * (a + b))) in *. set (s := sqrt _). destruct (Rleb (f b) (f a)) eqn:C; [apply Rleb_iff in C|apply Rleb_not in C].
      + assert (0 < f a) by nra. rewrite (Rabs_left fm) by nra. unfold Rdiv. ring.
      + assert (f a < 0) by nra. rewrite (Rabs_right fm) by nra. unfold Rdiv. ring.
    - intros K. destruct (Req_dec (f (1 / 2 * (a + b))) 0) as [E|E]; [rewrite (Z E); lra|]. assert (f a <> 0) by nra. assert (f (1 / 2 * (a + b)) * f a <> 0) by (intros K1; apply Rmult_integral in K1; tauto). apply Rlt_le, Pq. lra. }
  destruct QQ as (Q & Q1 & Q2). set (fm := f (1 / 2 * (a + b))) in *.
  assert (D0 : 0 <= d) by apply Rabs_pos. assert (D1 : 0 <= Rabs (b - r)) by apply Rabs_pos. assert (H0 : 0 <= H) by lra.
  assert (EE : Rabs (estimate f a b - a) = H * (1 + place f a b)).
  { unfold estimate. replace (a + (b - a) / 2 * (1 + place f a b) - a) with ((b - a) * ((1 + place f a b) / 2)) by field. rewrite Rabs_mult, EH, (Rabs_right ((1 + place f a b) / 2)) by lra. lra. }
  rewrite EE. assert (MM : m * m <= M * M) by nra. destruct (Rle_dec 0 (fm * f a)) as [C|C].
  - specialize (Q2 C). assert (H <= H * (1 + place f a b)) by nra. assert (d <= 2 * H) by lra. nra.
  - apply Rnot_le_lt in C. specialize (Q1 C). specialize (T C). rewrite Q1. set (s := sqrt (fm * fm - f b * f a)) in *.
    assert (SS : s * s = fm * fm - f b * f a) by (apply sqrt_sqrt; lra). set (F := Rabs fm) in *. assert (FF : F * F = fm * fm) by (unfold F; rewrite <- Rabs_mult; apply Rabs_right; nra).
    assert (AB : Rabs (f a) * Rabs (f b) = - (f b * f a)) by (rewrite <- Rabs_mult, Rabs_left by exact N; ring).
    assert (F0 : 0 <= F) by apply Rabs_pos. assert (A0 : 0 <= Rabs (f a)) by apply Rabs_pos. assert (B0 : 0 <= Rabs (f b)) by apply Rabs_pos.
    set (u := Rabs (f a)) in *. set (v := Rabs (f b)) in *. set (e := Rabs (1 / 2 * (a + b) - r)) in *. set (o := Rabs (b - r)) in *. assert (e0 : 0 <= e) by apply Rabs_pos.
    assert (O : o = 2 * H - d) by lra. assert (Ee : e = H - d) by lra.
    assert (L1 : u * v <= M * d * (M * o)) by (apply Rmult_le_compat; lra).
    assert (L2 : m * d * (m * o) <= u * v) by (apply Rmult_le_compat; try lra; apply Rmult_le_pos; lra).
    assert (L3 : F * F <= M * e * (M * e)) by (apply Rmult_le_compat; lra).
    assert (S1 : s * s <= M * M * (H * H)) by (rewrite SS, <- FF; rewrite O in L1; rewrite Ee in L3; lra).
    assert (HP : 0 < H). { destruct (Req_dec H 0) as [K|K]; [|lra]. exfalso. rewrite K in S1. assert (0 < s * s) by (apply Rmult_lt_0_compat; exact S0). lra. }
    assert (UV : 0 < u * v) by (rewrite AB; lra). assert (S2 : F < s) by (apply Rnot_le_lt; intros K; assert (s * s <= F * F) by (apply Rmult_le_compat; lra); lra).
    assert (S3 : u * v <= 2 * s * (s - F)) by nra.
    replace (1 - F / s) with ((s - F) / s) by (field; lra).
    apply (Rmult_le_reg_r (s * s)); [nra|]. replace (2 * (M * M) * (H * ((s - F) / s)) * (s * s)) with (M * M * H * (2 * s * (s - F))) by (field; lra).
    apply Rle_trans with (m * m * d * (M * M * (H * H))); [apply Rmult_le_compat_l; [nra|exact S1]|]. apply Rle_trans with (M * M * H * (m * d * (m * o))).
    + replace (m * m * d * (M * M * (H * H))) with (M * M * H * (m * d * (m * H))) by ring. apply Rmult_le_compat_l; [nra|]. apply Rmult_le_compat_l; [nra|]. apply Rmult_le_compat_l; lra.
    + apply Rmult_le_compat_l; [nra|lra].
Qed.
(** What bounded slopes give for the distances from a root. *)
Lemma slopes_abs f x1 x2 m M x r : (slopes_within f x1 x2 m M \/ slopes_within (fun x => - f x) x1 x2 m M) -> 0 <= m -> within x1 x2 x -> within x1 x2 r -> f r = 0 -> m * Rabs (x - r) <= Rabs (f x) <= M * Rabs (x - r).
Proof.
  intros S m0 X Rr E. destruct S as [S|S]; (destruct (Rle_dec x r) as [L|L]; [pose proof (S x r X Rr L) as K|pose proof (S r x Rr X ltac:(lra)) as K]); cbv beta in K; rewrite E in K.
  - rewrite (Rabs_left1 (x - r)), (Rabs_left1 (f x)) by nra. lra.
  - rewrite (Rabs_right (x - r)), (Rabs_right (f x)) by nra. lra.
  - rewrite (Rabs_left1 (x - r)), (Rabs_right (f x)) by nra. lra.
  - rewrite (Rabs_right (x - r)), (Rabs_left1 (f x)) by nra. lra.
Qed.
Lemma slopes_between f x1 x2 m M x y r : (slopes_within f x1 x2 m M \/ slopes_within (fun x => - f x) x1 x2 m M) -> 0 < m -> within x1 x2 x -> within x1 x2 y -> within x1 x2 r -> f r = 0 -> f x * f y < 0 -> Rabs (x - r) + Rabs (y - r) = Rabs (y - x).
Proof.
  intros S m0 X Y Rr E N. assert (D : (x - r) * (y - r) <= 0).
  { destruct S as [S|S]; destruct (Rle_dec x r) as [L|L]; destruct (Rle_dec y r) as [L'|L']; try nra.
    - pose proof (S x r X Rr L). pose proof (S y r Y Rr L'). exfalso. rewrite E in *. assert (f x <= 0) by nra. assert (f y <= 0) by nra. nra.
    - pose proof (S r x Rr X ltac:(lra)). pose proof (S r y Rr Y ltac:(lra)). exfalso. rewrite E in *. assert (0 <= f x) by nra. assert (0 <= f y) by nra. nra.
    - pose proof (S x r X Rr L). pose proof (S y r Y Rr L'). exfalso. cbv beta in *. rewrite E in *. assert (0 <= f x) by nra. assert (0 <= f y) by nra. nra.
    - pose proof (S r x Rr X ltac:(lra)). pose proof (S r y Rr Y ltac:(lra)). exfalso. cbv beta in *. rewrite E in *. assert (f x <= 0) by nra. assert (f y <= 0) by nra. nra. }
  unfold Rabs. destruct (Rcase_abs (x - r)), (Rcase_abs (y - r)), (Rcase_abs (y - x)); nra.
Qed.
Lemma zridd_accuracy f x1 x2 xacc x m M : continuous_between f x1 x2 -> (slopes_within f x1 x2 m M \/ slopes_within (fun x => - f x) x1 x2 m M) -> 0 < m -> m <= M -> 0 <= xacc -> zridd f x1 x2 xacc = Found x ->
  exists r, within x1 x2 r /\ f r = 0 /\ Rabs (x - r) <= 2 * (M / m) ^ 2 * xacc.
Proof.
  intros C S m0 mM X0 H. assert (Hq : forall t, m * m * t <= 2 * (M * M) * xacc -> t <= 2 * (M / m) ^ 2 * xacc).
  { intros t K. apply (Rmult_le_reg_l (m * m)); [nra|]. replace (m * m * (2 * (M / m) ^ 2 * xacc)) with (2 * (M * M) * xacc) by (field; lra). exact K. }
  assert (MM : m * m <= M * M) by nra.
  apply zridd_found in H. destruct H as (N & W & [Z|(a & b & Wa & Wb & NN & E & K)]).
  - exists x. split; [exact W|]. split; [exact Z|]. apply Hq. rewrite Rminus_diag_eq, Rabs_R0 by reflexivity. nra.
  - destruct (ivt f a b) as (r & Wr & Er); [intros y Y; apply C; now apply (within_trans x1 x2 a b)|lra|]. assert (Wr' : within x1 x2 r) by now apply (within_trans x1 x2 a b).
    exists r. split; [exact Wr'|]. split; [exact Er|]. apply Hq.
    pose proof (slopes_between f x1 x2 m M a b r S m0 Wa Wb Wr' Er NN) as SB. pose proof (Rabs_pos (a - r)). pose proof (Rabs_pos (b - r)).
    assert (Wm : within x1 x2 (1 / 2 * (a + b))) by (apply (within_trans x1 x2 a b); try assumption; unfold within, Rmin, Rmax; destruct (Rle_dec a b); lra).
    destruct K as [K|(y & _ & Ey & K)].
    + assert (Rabs (x - r) <= xacc) by (destruct E as [-> | ->]; lra). pose proof (Rabs_pos (x - r)). nra.
    + subst y. apply Rle_trans with (2 * (M * M) * Rabs (estimate f a b - x)); [|apply Rmult_le_compat_l; [nra|exact K]].
      pose proof (slopes_abs f x1 x2 m M a r S (Rlt_le _ _ m0) Wa Wr' Er) as Ka. pose proof (slopes_abs f x1 x2 m M b r S (Rlt_le _ _ m0) Wb Wr' Er) as Kb. pose proof (slopes_abs f x1 x2 m M _ r S (Rlt_le _ _ m0) Wm Wr' Er) as Km.
      destruct E as [E|E]; subst x.
      * apply (estimate_core f a b r m M); try assumption; try lra. intros L. rewrite (slopes_between f x1 x2 m M (1 / 2 * (a + b)) a r) by assumption. unfold Rabs. destruct (Rcase_abs (a - 1 / 2 * (a + b))), (Rcase_abs (b - a)); lra.
      * rewrite <- (estimate_sym f a b NN). assert (Em : 1 / 2 * (b + a) = 1 / 2 * (a + b)) by lra. apply (estimate_core f b a r m M); try rewrite !Em; try assumption; try lra.
        -- replace (a - b) with (- (b - a)) by ring. rewrite Rabs_Ropp. lra.
        -- intros L. rewrite (slopes_between f x1 x2 m M (1 / 2 * (a + b)) b r) by assumption. unfold Rabs. destruct (Rcase_abs (b - 1 / 2 * (a + b))), (Rcase_abs (a - b)); lra.
Qed.
