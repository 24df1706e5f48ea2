(** C59, continued: plain bodies, hollow bodies, a ray through the opening of a container. *)
From Coq Require Import Reals Lra Lia Psatz Sorted Permutation.
From Verif Require Import Base RotModel RotSpec ChanModel ChanProofs ShapeModel ShapeSpec ShapeProofs ShapeProofs2 ShapeProofs3 ScatSpec HitModel HitSpec HitProofs HitProofs2.
Open Scope R_scope.

(** ** One body *)

Lemma sq_lt_range x k : 0 <= k -> x * x < k * k <-> - k < x < k.
Proof. intros K. split; [intros H; split; nra|intros H; nra]. Qed.
Lemma sq_le_range x k : 0 <= k -> x * x <= k * k <-> - k <= x <= k.
Proof. intros K. split; [intros H; split; nra|intros H; nra]. Qed.

Lemma sphere_line R0 r v t : v <> mkV 0 0 0 ->
  vdot v v * (vx (on_line r v t) * vx (on_line r v t) + vy (on_line r v t) * vy (on_line r v t) + vz (on_line r v t) * vz (on_line r v t) - R0 * R0)
  = (vdot v v * t + vdot r v) * (vdot v v * t + vdot r v) - (vdot v v * R0 * R0 - vdot (vcross r v) (vcross r v)).
Proof. intros V. unfold vdot, vcross, on_line. cbn. ring. Qed.
Lemma sphere_exact R0 r v : v <> mkV 0 0 0 -> meets (Sphere R0) r v ->
  exists t1 t2, entry_exit (Sphere R0) r v t1 t2 /\ intersect_sphere R0 r v = [t1; t2].
Proof.
  intros V (t0 & M). pose proof (dot_pos v V) as P. set (D := vdot v v * R0 * R0 - vdot (vcross r v) (vcross r v)).
  assert (QC : forall t, core (Sphere R0) (on_line r v t) <-> (vdot v v * t + vdot r v) * (vdot v v * t + vdot r v) < D).
  { intros t. pose proof (sphere_line R0 r v t V) as L. fold D in L. unfold core. cbn [body snd prim]. split; intros H; nra. }
  assert (QS : forall t, solid (Sphere R0) (on_line r v t) <-> (vdot v v * t + vdot r v) * (vdot v v * t + vdot r v) <= D).
  { intros t. pose proof (sphere_line R0 r v t V) as L. fold D in L. unfold solid. cbn [body fst prim]. split; intros H; nra. }
  apply QC in M. assert (DP : 0 < D) by (pose proof (Rle_0_sqr (vdot v v * t0 + vdot r v)) as Z; unfold Rsqr in Z; lra). pose proof (sqrt_lt_R0 D DP) as SP. pose proof (sqrt_sqrt D (Rlt_le _ _ DP)) as SS.
  exists (- (vdot r v + sqrt D) / vdot v v), (- (vdot r v - sqrt D) / vdot v v). split.
  - assert (E1 : vdot v v * (- (vdot r v + sqrt D) / vdot v v) = - (vdot r v + sqrt D)) by (field; lra).
    assert (E2 : vdot v v * (- (vdot r v - sqrt D) / vdot v v) = - (vdot r v - sqrt D)) by (field; lra).
    set (t1 := - (vdot r v + sqrt D) / vdot v v) in *. set (t2 := - (vdot r v - sqrt D) / vdot v v) in *. split; [nra|]. split; intros t.
    + rewrite QC, <- SS, sq_lt_range by lra. split; intros H; split; nra.
    + rewrite QS, <- SS, sq_le_range by lra. split; intros H; split; nra.
  - unfold intersect_sphere. rewrite (valid_dir v V). fold D. rewrite (proj2 (Rltb_f D 0)) by lra. reflexivity.
Qed.

Lemma ee_iff s s' r v r' v' t1 t2 : (forall t, core s (on_line r v t) <-> core s' (on_line r' v' t)) -> (forall t, solid s (on_line r v t) <-> solid s' (on_line r' v' t)) ->
  entry_exit s' r' v' t1 t2 -> entry_exit s r v t1 t2.
Proof. intros A B (L & C & D). split; [exact L|]. split; intros t; [rewrite A|rewrite B]; auto. Qed.
Lemma plain_exact tol s : plain s -> positive s -> forall r v, v <> mkV 0 0 0 -> regular s r v -> meets s r v ->
  exists t1 t2, entry_exit s r v t1 t2 /\ intersect tol s r v = [t1; t2].
Proof.
  induction s; intros PL PO r0 v0 V RG M; cbn in PL; try contradiction.
  - cbn [positive] in PO; cbn [regular] in RG. destruct (box_exact X Y Z r0 v0 ltac:(lra) ltac:(lra) ltac:(lra) V) as (_ & B). destruct (B M) as (t1 & t2 & EE & _ & K). exists t1, t2. split; [exact EE|].
    destruct RG as [N|(_ & N)]; [destruct M as (t & M); exfalso; apply (N t); apply core_solid; [cbn; lra|exact M]|].
    assert (BO : forall t, t = t1 \/ t = t2 -> border (Box X Y Z) (on_line r0 v0 t)).
    { intros t T. destruct EE as (L & C & D). split; [apply D; lra|]. rewrite C. lra. }
    cbn [intersect]. apply K; apply N; apply BO; auto.
  - exact (cyl_exact tol radius height r0 v0 V M).
  - exact (sphere_exact radius r0 v0 V M).
  - cbn [positive] in PO; cbn [regular] in RG. destruct PO as (PO & K).
    assert (K1 : 1 / scale <> 0) by (unfold Rdiv; rewrite Rmult_1_l; now apply Rinv_neq_0_compat).
    assert (A : forall t, core (Dilation s scale) (on_line r0 v0 t) <-> core s (on_line (vscale (1 / scale) r0) (vscale (1 / scale) v0) t)) by (intros t; rewrite line_dil; now apply core_dil).
    assert (B : forall t, solid (Dilation s scale) (on_line r0 v0 t) <-> solid s (on_line (vscale (1 / scale) r0) (vscale (1 / scale) v0) t)) by (intros t; rewrite line_dil; now apply solid_dil).
    destruct (IHs PL PO (vscale (1 / scale) r0) (vscale (1 / scale) v0) (vscale_nz _ _ K1 V) RG) as (t1 & t2 & EE & E).
    { destruct M as (t & M). exists t. now apply A. }
    exists t1, t2. split; [exact (ee_iff _ _ _ _ _ _ _ _ A B EE)|exact E].
  - cbn [positive] in PO; cbn [regular] in RG.
    assert (A : forall t, core (Translation s v) (on_line r0 v0 t) <-> core s (on_line (vsub r0 v) v0 t)) by (intros t; rewrite line_tr; apply core_tr).
    assert (B : forall t, solid (Translation s v) (on_line r0 v0 t) <-> solid s (on_line (vsub r0 v) v0 t)) by (intros t; rewrite line_tr; apply solid_tr).
    destruct (IHs PL PO (vsub r0 v) v0 V RG) as (t1 & t2 & EE & E).
    { destruct M as (t & M). exists t. now apply A. }
    exists t1, t2. split; [exact (ee_iff _ _ _ _ _ _ _ _ A B EE)|exact E].
  - cbn [positive] in PO; cbn [regular] in RG. destruct PO as (PO & OR).
    assert (A : forall t, core (Rotation s m) (on_line r0 v0 t) <-> core s (on_line (dot_mv (transpose m) r0) (dot_mv (transpose m) v0) t)) by (intros t; rewrite line_rot; now apply core_rot).
    assert (B : forall t, solid (Rotation s m) (on_line r0 v0 t) <-> solid s (on_line (dot_mv (transpose m) r0) (dot_mv (transpose m) v0) t)) by (intros t; rewrite line_rot; now apply solid_rot).
    destruct (IHs PL PO (dot_mv (transpose m) r0) (dot_mv (transpose m) v0)) as (t1 & t2 & EE & E).
    { apply rot_nz; [now apply orth_transpose|exact V]. }
    { exact RG. }
    { destruct M as (t & M). exists t. now apply A. }
    exists t1, t2. split; [exact (ee_iff _ _ _ _ _ _ _ _ A B EE)|exact E].
Qed.
Lemma plain_missed tol s r v : plain s -> positive s -> (forall t, ~ solid s (on_line r v t)) -> intersect tol s r v = [].
Proof.
  intros PL PO N. destruct (intersect tol s r v) as [|t l] eqn:E; [reflexivity|]. exfalso. apply (N t).
  assert (I : In t (intersect tol s r v)) by (rewrite E; now left). exact (proj1 (plain_border tol s PL PO r v t I)).
Qed.
Lemma profile_one s r v a b : entry_exit s r v a b -> profile s r v [(a, b)].
Proof.
  intros (L & C & D). split; [intros ? ? [E|[]]; injection E as <- <-; exact L|]. split; [repeat constructor|]. split; intros t.
  - rewrite C. split; [intros H; exists a, b; split; [now left|exact H]|]. intros (? & ? & [E|[]] & H). injection E as <- <-. exact H.
  - rewrite D. split; [intros H; exists a, b; split; [now left|exact H]|]. intros (? & ? & [E|[]] & H). injection E as <- <-. exact H.
Qed.
Lemma profile_none s r v : wf s -> (forall t, ~ solid s (on_line r v t)) -> profile s r v [].
Proof.
  intros W N. split; [intros ? ? []|]. split; [constructor|]. split; intros t.
  - split; [intros C; exfalso; apply (N t); now apply core_solid|]. intros (? & ? & [] & _).
  - split; [intros C; exfalso; now apply (N t)|]. intros (? & ? & [] & _).
Qed.
Lemma plain_followed tol s r v : plain s -> positive s -> v <> mkV 0 0 0 -> thick tol s r v ->
  (forall t, ~ solid s (on_line r v t)) \/ (meets s r v /\ regular s r v) -> followed tol s r v.
Proof.
  intros PL PO V TH [N|(M & RG)].
  - exists []. split; [apply profile_none; [now apply positive_wf|exact N]|]. split; [now apply plain_missed|]. intros ? ? [].
  - destruct (plain_exact tol s PL PO r v V RG M) as (a & b & EE & E). exists [(a, b)]. split; [now apply profile_one|]. split; [exact E|].
    intros a' b' [K|[]] B. injection K as <- <-. now apply TH.
Qed.

(** ** A body with a hole *)

Lemma hollow_followed tol a b r v a1 a2 b1 b2 : 0 < tol -> wf a -> wf b ->
  entry_exit a r v a1 a2 -> intersect tol a r v = [a1; a2] -> entry_exit b r v b1 b2 -> intersect tol b r v = [b1; b2] -> a1 < b1 -> b2 < a2 ->
  (0 < b1 -> locate tol (Difference a b) (on_line r v ((Rmax a1 0 + b1) / 2)) = Inside) ->
  (0 < a2 -> locate tol (Difference a b) (on_line r v ((Rmax b2 0 + a2) / 2)) = Inside) ->
  followed tol (Difference a b) r v.
Proof.
  intros Ht Wa Wb (La & Ca & Da) Ia (Lb & Cb & Db) Ib L1 L2 T1 T2. exists [(a1, b1); (b2, a2)].
  assert (PR : profile (Difference a b) r v [(a1, b1); (b2, a2)]).
  { split; [intros ? ? [E|[E|[]]]; injection E as <- <-; lra|]. split; [repeat constructor; cbn; lra|]. split; intros t.
    - rewrite core_diff, Ca, Db. split.
      + intros (A & B). destruct (Rlt_dec t b1) as [K|K]; [exists a1, b1; split; [now left|lra]|]. exists b2, a2. split; [right; now left|]. destruct (Rle_lt_dec t b2); lra.
      + intros (? & ? & [E|[E|[]]] & H); injection E as <- <-; lra.
    - rewrite solid_diff, Da, Cb. split.
      + intros (A & B). destruct (Rle_dec t b1) as [K|K]; [exists a1, b1; split; [now left|lra]|]. exists b2, a2. split; [right; now left|]. destruct (Rlt_le_dec t b2); lra.
      + intros (? & ? & [E|[E|[]]] & H); injection E as <- <-; lra. }
  split; [exact PR|]. split.
  - assert (BO : forall t, t = a1 \/ t = a2 \/ t = b1 \/ t = b2 -> on_border_of tol (Difference a b) r v t = true).
    { intros t T. unfold on_border_of. rewrite arrow_line.
      destruct (locate_right tol (Difference a b) (on_line r v t) (conj Wa Wb) Ht) as (_ & _ & K). rewrite K; [reflexivity|]. unfold border.
      rewrite core_diff, solid_diff, Ca, Da, Cb, Db. lra. }
    cbn [intersect]. unfold visit_composition. rewrite Ia, Ib. cbn [flat_map filter]. rewrite !BO by auto. cbn [app].
    apply perm_sorted_eq; [apply rsort_sorted| |].
    + unfold ends. cbn. repeat constructor; lra.
    + rewrite rsort_perm. unfold ends. cbn. constructor. apply Permutation_cons_append.
  - intros a' b' [E|[E|[]]] B; injection E as <- <-; auto.
Qed.
