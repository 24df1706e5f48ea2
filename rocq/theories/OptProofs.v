(** Lemmas on propagation. *)
From Coq Require Import Reals Lra Psatz.
From Verif Require Import Base RotModel ChanModel ChanProofs ShapeModel GridProofs OptModel OptSpec.
Open Scope R_scope.

Lemma absorb_lost r : lost r (absorb r). Proof. unfold lost, absorb. cbn. tauto. Qed.
Lemma dt_flown s r : flown weightless r s (prop_dt_nogravity s r).
Proof. unfold flown, coordinate, prop_dt_nogravity, weightless. cbn [vx vy vz r_pos r_vel r_t r_s1 r_s2 r_p]. repeat split; field. Qed.
Lemma grav_flown s a r : flown a r s (prop_dt_withgravity s a r).
Proof. unfold flown, coordinate, prop_dt_withgravity. cbn [vx vy vz r_pos r_vel r_t r_s1 r_s2 r_p]. repeat split; field. Qed.

Lemma prop_dt_spec s g r :
  (s < - / 10 ^ 15 -> lost r (prop_dt s g r)) /\
  (- / 10 ^ 15 <= s -> flown (match g with Some a => a | None => weightless end) r s (prop_dt s g r)).
Proof.
  unfold prop_dt. split; intros H.
  - apply Rltb_t in H. rewrite H. apply absorb_lost.
  - apply Rltb_f in H. rewrite H. destruct g; [apply grav_flown|apply dt_flown].
Qed.

Lemma z0_none r : vz (r_vel r) <> 0 -> flown weightless r (- vz (r_pos r) / vz (r_vel r)) (prop_z0 None r) /\ vz (r_pos (prop_z0 None r)) = 0.
Proof.
  intros N. cbn. unfold prop_z0_nogravity. rewrite (proj2 (Reqb_f _ _) N). split; [apply dt_flown|]. unfold prop_dt_nogravity. cbn. field. exact N.
Qed.
Lemma z0_none_lost r : vz (r_vel r) = 0 -> lost r (prop_z0 None r).
Proof. intros N. cbn. unfold prop_z0_nogravity. rewrite (proj2 (Reqb_t _ _) N). apply absorb_lost. Qed.
Lemma crossing_unique v z s : v <> 0 -> coordinate 0 v z s = 0 -> s = - z / v.
Proof. unfold coordinate. intros N H. apply (Rmult_eq_reg_r v); [|exact N]. unfold Rdiv. rewrite Rmult_assoc, Rinv_l by exact N. lra. Qed.

(* the root chosen by plane_intersect_Gfast *)
Lemma sq_lt_abs x y : Rabs x < Rabs y <-> x * x < y * y.
Proof. split; intros H. - apply Rsqr_lt_abs_1 in H. exact H. - apply Rsqr_lt_abs_0. exact H. Qed.
Lemma le_abs_sq x y : Rabs x <= Rabs y -> x * x <= y * y.
Proof. intros H. apply Rsqr_le_abs_1 in H. exact H. Qed.

Section Roots.
Variables A B C : R.
Hypothesis big : / 10 ^ 10 <= Rabs A.
Lemma A_nonzero : A <> 0.
Proof. intros E. rewrite E, Rabs_R0 in big. assert (0 < / 10 ^ 10) by (apply Rinv_0_lt_compat, pow_lt; lra). lra. Qed.
Definition poly (s : R) : R := A * s ^ 2 + B * s + C.
Let D := B * B - 4 * A * C.
Lemma no_root : D < 0 -> forall s, poly s <> 0.
Proof.
  unfold D, poly. intros H s E. pose proof (Rle_0_sqr (2 * A * s + B)) as S. unfold Rsqr in S. nra.
Qed.
Lemma gfast_none : D < 0 -> plane_intersect_Gfast A B C = (0%Z, 0).
Proof.
  unfold D. intros H. unfold plane_intersect_Gfast. rewrite (proj2 (Rltb_f _ _) big). apply Rleb_false in H. rewrite H. reflexivity.
Qed.
Let q1 := (- B + sqrt D) / 2 / A.
Let q2 := (- B - sqrt D) / 2 / A.
Lemma gfast_some : 0 <= D -> exists dt ret, plane_intersect_Gfast A B C = (ret, dt) /\ ret <> 0%Z /\
  ((B = 0 /\ (dt = q1 /\ q1 <= q2 \/ dt = q2 /\ q2 < q1)) \/
   (B <> 0 /\ (dt = q1 /\ Rabs (- C / B - q1) < Rabs (- C / B - q2) \/ dt = q2 /\ Rabs (- C / B - q2) <= Rabs (- C / B - q1)))).
Proof.
  intros H. unfold plane_intersect_Gfast. rewrite (proj2 (Rltb_f _ _) big). fold D. rewrite (proj2 (Rleb_true _ _) H). fold q1 q2.
  destruct (Reqb B 0) eqn:E.
  - apply Reqb_t in E. destruct (Rleb q1 q2) eqn:L.
    + apply Rleb_true in L. exists q1, 1%Z. split; [reflexivity|]. split; [discriminate|]. left. tauto.
    + apply Rleb_false in L. exists q2, 2%Z. split; [reflexivity|]. split; [discriminate|]. left. tauto.
  - apply Reqb_f in E. destruct (Rltb (Rabs (- C / B - q1)) (Rabs (- C / B - q2))) eqn:L.
    + apply Rltb_t in L. exists q1, 1%Z. split; [reflexivity|]. split; [discriminate|]. right. tauto.
    + apply Rltb_f in L. exists q2, 2%Z. split; [reflexivity|]. split; [discriminate|]. right. tauto.
Qed.
Lemma roots_sum : A * (q1 + q2) = - B.
Proof. unfold q1, q2. field. apply A_nonzero. Qed.
Lemma roots_prod : 0 <= D -> A * (q1 * q2) = C.
Proof.
  intros H. unfold q1, q2. pose proof A_nonzero as N. pose proof (sqrt_def D H) as S.
  transitivity ((B * B - sqrt D * sqrt D) / 4 / A); [field; exact N|]. rewrite S. unfold D. field. exact N.
Qed.
Lemma factor s : 0 <= D -> poly s = A * ((s - q1) * (s - q2)).
Proof.
  intros H. unfold poly. pose proof roots_sum as S. pose proof (roots_prod H) as P.
  transitivity (A * s ^ 2 - A * (q1 + q2) * s + A * (q1 * q2)); [rewrite S, P; ring|ring].
Qed.
Lemma root_is s : 0 <= D -> poly s = 0 -> s = q1 \/ s = q2.
Proof.
  intros H E. rewrite (factor s H) in E. apply Rmult_integral in E. destruct E as [E|E]; [now destruct A_nonzero|]. apply Rmult_integral in E. destruct E; [left|right]; lra.
Qed.
(* the root nearest to -C/B is the one of least absolute value *)
Lemma nearest : 0 <= D -> B <> 0 -> Rabs (- C / B - q1) * Rabs (q1 + q2) = q1 * q1 /\ Rabs (- C / B - q2) * Rabs (q1 + q2) = q2 * q2.
Proof.
  intros H NB. pose proof roots_sum as S. pose proof (roots_prod H) as P. pose proof A_nonzero as NA.
  assert (E : - C / B * (q1 + q2) = q1 * q2).
  { apply (Rmult_eq_reg_l A); [|exact NA]. transitivity (- C / B * (A * (q1 + q2))); [ring|]. rewrite S, P. field. exact NB. }
  rewrite <- !Rabs_mult. split.
  - replace ((- C / B - q1) * (q1 + q2)) with (- (q1 * q1)) by (rewrite Rmult_minus_distr_r, E; ring). rewrite Rabs_Ropp. apply Rabs_right, Rle_ge, Rle_0_sqr.
  - replace ((- C / B - q2) * (q1 + q2)) with (- (q2 * q2)) by (rewrite Rmult_minus_distr_r, E; ring). rewrite Rabs_Ropp. apply Rabs_right, Rle_ge, Rle_0_sqr.
Qed.
Lemma sum_nonzero : B <> 0 -> 0 < Rabs (q1 + q2).
Proof. intros NB. apply Rabs_pos_lt. intros E. pose proof roots_sum as S. rewrite E, Rmult_0_r in S. apply NB. lra. Qed.

(* the chosen time: a root m, with M the other one *)
Lemma chosen : 0 <= D -> B <> 0 -> exists m M ret, plane_intersect_Gfast A B C = (ret, m) /\ ret <> 0%Z /\
  (forall s, poly s = A * ((s - m) * (s - M))) /\ m * m <= M * M /\ A * (m + M) = - B /\ A * (m * M) = C.
Proof.
  intros H NB. destruct (gfast_some H) as (dt & ret & E & NR & K). destruct (nearest H NB) as [N1 N2]. pose proof (sum_nonzero NB) as SP.
  destruct K as [(Z & _)|(_ & [(-> & L)|(-> & L)])]; [contradiction| |].
  - exists q1, q2, ret. split; [exact E|]. split; [exact NR|]. split; [intros s; apply factor, H|]. split; [|split; [apply roots_sum|apply roots_prod, H]].
    rewrite <- N1, <- N2. apply Rmult_le_compat_r; lra.
  - exists q2, q1, ret. split; [exact E|]. split; [exact NR|]. split; [intros s; rewrite (factor s H); ring|]. split; [|split; [rewrite Rplus_comm; apply roots_sum|rewrite (Rmult_comm q2 q1); apply roots_prod, H]].
    rewrite <- N1, <- N2. apply Rmult_le_compat_r; lra.
Qed.

Lemma hit_yes s0 : 0 < s0 -> poly s0 = 0 -> C * B < 0 -> exists m ret, plane_intersect_Gfast A B C = (ret, m) /\ ret <> 0%Z /\
  0 < m /\ poly m = 0 /\ forall s, 0 <= s < m -> poly s <> 0.
Proof.
  intros S0 P0 CB. assert (H : 0 <= D). { destruct (Rlt_le_dec D 0) as [L|]; [|assumption]. exfalso. exact (no_root L s0 P0). }
  assert (NB : B <> 0) by (intros ->; lra).
  destruct (chosen H NB) as (m & M & ret & E & NR & F & L & SU & PR). exists m, ret. split; [exact E|]. split; [exact NR|].
  pose proof A_nonzero as NA. assert (AA : 0 < A * A) by (destruct (Rtotal_order A 0) as [|[|]]; [nra|contradiction|nra]).
  assert (K : 0 < (A * A) * ((m * M) * (m + M))) by (replace (A * A * (m * M * (m + M))) with ((A * (m * M)) * (A * (m + M))) by ring; rewrite SU, PR; lra).
  assert (K2 : 0 < m * M * (m + M)) by nra.
  assert (MP : 0 < m).
  { destruct (Rtotal_order m 0) as [N|[Z|P]]; [|subst m; lra|assumption]. exfalso.
    destruct (Rle_lt_dec M 0) as [MN|MPo].
    - (* both not positive: product not negative, sum negative *) assert (0 <= m * M) by nra. nra.
    - assert (m * M < 0) by nra. assert (m + M < 0) by nra. nra. }
  split; [exact MP|]. split; [rewrite F; ring|]. intros s Hs. rewrite F. intros Z. apply Rmult_integral in Z. destruct Z as [Z|Z]; [contradiction|]. apply Rmult_integral in Z. destruct Z as [Z|Z]; [lra|]. assert (M = s) by lra. subst M. nra.
Qed.
Lemma hit_no : (forall s, 0 < s -> poly s <> 0) \/ 0 <= C * B -> exists m ret, plane_intersect_Gfast A B C = (ret, m) /\ (ret = 0%Z \/ m <= 0).
Proof.
  intros Q. destruct (Rlt_le_dec D 0) as [L|H]; [exists 0, 0%Z; split; [apply gfast_none, L|now left]|].
  destruct (Req_dec B 0) as [Z|NB].
  - destruct (gfast_some H) as (dt & ret & E & NR & K). exists dt, ret. split; [exact E|]. right. pose proof roots_sum as S. rewrite Z in S.
    assert (S2 : q1 + q2 = 0) by (apply (Rmult_eq_reg_l A); [lra|apply A_nonzero]).
    destruct K as [(_ & [(-> & L)|(-> & L)])|(N & _)]; [lra|lra|contradiction].
  - destruct (chosen H NB) as (m & M & ret & E & NR & F & L & SU & PR). exists m, ret. split; [exact E|]. right.
    destruct (Rle_lt_dec m 0) as [|MP]; [assumption|]. exfalso. destruct Q as [Q|Q]; [apply (Q m MP); rewrite F; ring|].
    pose proof A_nonzero as NA. assert (AA : 0 < A * A) by (destruct (Rtotal_order A 0) as [|[|]]; [nra|contradiction|nra]).
    assert (K : (A * A) * ((m * M) * (m + M)) <= 0) by (replace (A * A * (m * M * (m + M))) with ((A * (m * M)) * (A * (m + M))) by ring; rewrite SU, PR; lra).
    assert (K2 : m * M * (m + M) <= 0) by nra.
    assert (NS : m + M <> 0) by (intros Z; rewrite Z, Rmult_0_r in SU; apply NB; lra).
    destruct (Rtotal_order M 0) as [N|[Z|P]]; [|subst M; nra|assert (0 < m * M) by (apply Rmult_lt_0_compat; assumption); assert (0 < m * M * (m + M)) by (apply Rmult_lt_0_compat; lra); lra].
    assert (m <= - M) by (apply Rnot_lt_le; intros HH; assert (M * M < m * m) by nra; lra). assert (m + M < 0) by lra. assert (m * M < 0) by nra. assert (0 < (m * M) * (m + M)) by nra. lra.
Qed.
End Roots.

Lemma poly_coord a v z s : poly (- a / 2) (- v) (- z) s = - coordinate a v z s.
Proof. unfold poly, coordinate. field. Qed.

Lemma z0_gravity a r : / 10 ^ 10 <= Rabs (vz a / 2) ->
  let z := coordinate (vz a) (vz (r_vel r)) (vz (r_pos r)) in
  (vz (r_pos r) * vz (r_vel r) < 0 -> forall s, 0 < s -> z s = 0 -> exists m, 0 < m /\ z m = 0 /\ (forall s, 0 <= s < m -> z s <> 0) /\ flown a r m (prop_z0 (Some a) r)) /\
  ((forall s, 0 < s -> z s <> 0) \/ 0 <= vz (r_pos r) * vz (r_vel r) -> lost r (prop_z0 (Some a) r)).
Proof.
  intros big z. assert (big' : / 10 ^ 10 <= Rabs (- vz a / 2)) by (replace (- vz a / 2) with (- (vz a / 2)) by field; rewrite Rabs_Ropp; exact big).
  assert (PC : forall s, poly (- vz a / 2) (- vz (r_vel r)) (- vz (r_pos r)) s = - z s) by (intros s; apply poly_coord).
  split.
  - intros S s0 S0 Z0. destruct (hit_yes _ (- vz (r_vel r)) (- vz (r_pos r)) big' s0 S0) as (m & ret & E & NR & MP & ZM & F); [rewrite PC; lra|lra|].
    exists m. split; [exact MP|]. rewrite PC in ZM. split; [lra|]. split; [intros s Hs Z; apply (F s Hs); rewrite PC; lra|].
    cbn [prop_z0]. unfold prop_z0_withgravity. rewrite E. apply Z.eqb_neq in NR. rewrite NR. rewrite (proj2 (Rltb_t _ _) MP). cbn. apply grav_flown.
  - intros Q. destruct (hit_no _ (- vz (r_vel r)) (- vz (r_pos r)) big') as (m & ret & E & K).
    + destruct Q as [Q|Q]; [left; intros s Hs Z; apply (Q s Hs); rewrite PC in Z; lra|right; lra].
    + cbn [prop_z0]. unfold prop_z0_withgravity. rewrite E. destruct K as [->|K]; [cbn; apply absorb_lost|]. apply Rltb_f in K. rewrite K, Bool.andb_false_r. apply absorb_lost.
Qed.

(* nearly no acceleration across the plane *)
Lemma z0_gravity_small a r : Rabs (vz a / 2) < / 10 ^ 10 ->
  let s := - vz (r_pos r) / vz (r_vel r) in
  (vz (r_vel r) <> 0 /\ 0 < s -> flown a r s (prop_z0 (Some a) r) /\ vz (r_pos (prop_z0 (Some a) r)) = vz a * s ^ 2 / 2) /\
  (vz (r_vel r) = 0 \/ s <= 0 -> lost r (prop_z0 (Some a) r)).
Proof.
  intros small s. assert (small' : Rabs (- vz a / 2) < / 10 ^ 10) by (replace (- vz a / 2) with (- (vz a / 2)) by field; rewrite Rabs_Ropp; exact small).
  cbn [prop_z0]. unfold prop_z0_withgravity, plane_intersect_Gfast. rewrite (proj2 (Rltb_t _ _) small'). split.
  - intros (N & P). assert (N' : - vz (r_vel r) <> 0) by lra. rewrite (proj2 (Reqb_f _ _) N').
    replace (- - vz (r_pos r) / - vz (r_vel r)) with s by (unfold s; field; exact N). rewrite (proj2 (Rltb_t _ _) P). cbn [Z.eqb negb andb].
    split; [apply grav_flown|]. unfold prop_dt_withgravity. cbn. unfold s. field. exact N.
  - intros [Z|Q]; [rewrite (proj2 (Reqb_t _ _)) by lra; apply absorb_lost|]. destruct (Reqb (- vz (r_vel r)) 0) eqn:E; [apply absorb_lost|]. apply Reqb_f in E.
    replace (- - vz (r_pos r) / - vz (r_vel r)) with s by (unfold s; field; lra). rewrite (proj2 (Rltb_f _ _) Q). apply absorb_lost.
Qed.

Lemma flown_energy a r s r' : flown a r s r' -> energy a r' = energy a r.
Proof.
  unfold flown, energy, coordinate. intros (X & Y & Z & VX & VY & VZ & _). rewrite X, Y, Z, VX, VY, VZ. field.
Qed.
Lemma prop_z0_cases g r : lost r (prop_z0 g r) \/ exists s, flown (match g with Some a => a | None => weightless end) r s (prop_z0 g r).
Proof.
  destruct g as [a|]; cbn [prop_z0].
  - unfold prop_z0_withgravity. destruct (plane_intersect_Gfast _ _ _) as [ret dt]. destruct (_ && _)%bool; [right; exists dt; apply grav_flown|left; apply absorb_lost].
  - unfold prop_z0_nogravity. destruct (Reqb _ _); [left; apply absorb_lost|right; eexists; apply dt_flown].
Qed.

Lemma x0_turned g r : prop_x0 g r = turned_ray (prop_z0 (match g with Some a => Some (turn a) | None => None end) (turned_ray r)).
Proof.
  destruct r as [[x y z] [u v w] t s1 s2 p]. destruct g as [[a b c]|]; cbn [prop_x0 prop_z0].
  - unfold prop_x0_withgravity, prop_z0_withgravity. cbn. destruct (plane_intersect_Gfast _ _ _) as [ret dt]. destruct (_ && _)%bool; reflexivity.
  - unfold prop_x0_nogravity, prop_z0_nogravity. cbn. destruct (Reqb _ _); reflexivity.
Qed.
