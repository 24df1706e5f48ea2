(** Proofs about RotModel. *)
From Coq Require Import Reals Lra Psatz.
From Verif Require Import Base RotModel RotSpec.
Open Scope R_scope.

Lemma Rltb_true a b : Rltb a b = true <-> a < b.
Proof. unfold Rltb. destruct (Rlt_dec a b); split; try congruence; lra. Qed.
Lemma Rltb_false a b : Rltb a b = false <-> b <= a.
Proof. unfold Rltb. destruct (Rlt_dec a b); split; try congruence; lra. Qed.
Lemma Rltb_cases a b : (Rltb a b = true /\ a < b) \/ (Rltb a b = false /\ b <= a).
Proof. unfold Rltb. destruct (Rlt_dec a b); [left|right]; split; auto; lra. Qed.
Lemma tol_pos : 0 < tol. Proof. unfold tol. lra. Qed.
Lemma tol_small : tol < 1 / 1000. Proof. unfold tol. lra. Qed.

Lemma cs2 a : cos a * cos a = 1 - sin a * sin a.
Proof. pose proof (sin2_cos2 a) as H. unfold Rsqr in H. lra. Qed.

Lemma vec3_eta v : mkV (vx v) (vy v) (vz v) = v. Proof. destruct v; reflexivity. Qed.
Lemma mat3_eta m : mkM (m00 m) (m01 m) (m02 m) (m10 m) (m11 m) (m12 m) (m20 m) (m21 m) (m22 m) = m.
Proof. destruct m; reflexivity. Qed.
Lemma mk_eq (a b c a' b' c' : R) : a = a' -> b = b' -> c = c' -> mkV a b c = mkV a' b' c'. Proof. intros; subst; reflexivity. Qed.
Lemma mkM_eq a b c d e f g h i a' b' c' d' e' f' g' h' i' :
  a=a' -> b=b' -> c=c' -> d=d' -> e=e' -> f=f' -> g=g' -> h=h' -> i=i' ->
  mkM a b c d e f g h i = mkM a' b' c' d' e' f' g' h' i'.
Proof. intros; subst; reflexivity. Qed.

(** ** Linear algebra *)
Lemma dot_matmul a b v : dot_mv (matmul a b) v = dot_mv a (dot_mv b v).
Proof. destruct a, b, v. unfold dot_mv, matmul; cbn. apply mk_eq; ring. Qed.
Lemma matmul_assoc a b c : matmul a (matmul b c) = matmul (matmul a b) c.
Proof. destruct a, b, c. unfold matmul; cbn. apply mkM_eq; ring. Qed.
Lemma matmul_I_l a : matmul I3 a = a.
Proof. destruct a. unfold matmul, I3; cbn. apply mkM_eq; ring. Qed.
Lemma matmul_I_r a : matmul a I3 = a.
Proof. destruct a. unfold matmul, I3; cbn. apply mkM_eq; ring. Qed.
Lemma dot_I v : dot_mv I3 v = v.
Proof. destruct v. unfold dot_mv, I3; cbn. apply mk_eq; ring. Qed.
Lemma dot_vsub m a b : dot_mv m (vsub a b) = vsub (dot_mv m a) (dot_mv m b).
Proof. destruct m, a, b. unfold dot_mv, vsub; cbn. apply mk_eq; ring. Qed.
Lemma dot_vadd m a b : dot_mv m (vadd a b) = vadd (dot_mv m a) (dot_mv m b).
Proof. destruct m, a, b. unfold dot_mv, vadd; cbn. apply mk_eq; ring. Qed.
Lemma transpose_matmul a b : transpose (matmul a b) = matmul (transpose b) (transpose a).
Proof. destruct a, b. unfold transpose, matmul; cbn. apply mkM_eq; ring. Qed.
Lemma transpose_inv a : transpose (transpose a) = a. Proof. destruct a; reflexivity. Qed.
Lemma sdot_transpose m a b : sdot (dot_mv m a) b = sdot a (dot_mv (transpose m) b).
Proof. destruct m, a, b. unfold sdot, dot_mv, transpose; cbn. ring. Qed.
Lemma det_matmul a b : det (matmul a b) = det a * det b.
Proof. destruct a, b. unfold det, matmul; cbn. ring. Qed.
Lemma det_transpose a : det (transpose a) = det a.
Proof. destruct a. unfold det, transpose; cbn. ring. Qed.

(** preserving scalar products is the same as m^T m = 1 *)
Lemma orth_iff m : (forall a b, sdot (dot_mv m a) (dot_mv m b) = sdot a b) <-> matmul (transpose m) m = I3.
Proof.
  split.
  - intro H.
    pose proof (H (mkV 1 0 0) (mkV 1 0 0)) as H00. pose proof (H (mkV 1 0 0) (mkV 0 1 0)) as H01.
    pose proof (H (mkV 1 0 0) (mkV 0 0 1)) as H02. pose proof (H (mkV 0 1 0) (mkV 0 1 0)) as H11.
    pose proof (H (mkV 0 1 0) (mkV 0 0 1)) as H12. pose proof (H (mkV 0 0 1) (mkV 0 0 1)) as H22.
    destruct m. unfold sdot, dot_mv in *. unfold matmul, transpose, I3. cbn in *. apply mkM_eq; lra.
  - intros H a b. rewrite sdot_transpose, <- dot_matmul, H, dot_I. reflexivity.
Qed.
(** the adjugate: a left inverse with determinant 1 is also a right inverse *)
Definition adj (m : mat3) : mat3 :=
  mkM (m11 m * m22 m - m12 m * m21 m) (m02 m * m21 m - m01 m * m22 m) (m01 m * m12 m - m02 m * m11 m)
      (m12 m * m20 m - m10 m * m22 m) (m00 m * m22 m - m02 m * m20 m) (m02 m * m10 m - m00 m * m12 m)
      (m10 m * m21 m - m11 m * m20 m) (m01 m * m20 m - m00 m * m21 m) (m00 m * m11 m - m01 m * m10 m).
Lemma adj_right m : det m = 1 -> matmul m (adj m) = I3.
Proof. intro D. destruct m. unfold det in D. unfold matmul, adj, I3; cbn in *. apply mkM_eq; lra. Qed.
Lemma left_right m : rotation m -> matmul (transpose m) m = I3 /\ matmul m (transpose m) = I3.
Proof.
  intros [O D]. apply orth_iff in O. split; [exact O|].
  pose proof (adj_right m D) as A.
  assert (E : transpose m = adj m).
  { rewrite <- (matmul_I_r (transpose m)), <- A, matmul_assoc, O, matmul_I_l. reflexivity. }
  rewrite E. exact A.
Qed.
Lemma rotation_transpose m : rotation m -> rotation (transpose m).
Proof.
  intro H. destruct (left_right m H) as [_ R]. split.
  - apply orth_iff. rewrite transpose_inv. exact R.
  - rewrite det_transpose. apply H.
Qed.
Lemma rotation_matmul a b : rotation a -> rotation b -> rotation (matmul a b).
Proof.
  intros [Ha Da] [Hb Db]. split.
  - intros u v. rewrite !dot_matmul, Ha, Hb. reflexivity.
  - rewrite det_matmul, Da, Db. ring.
Qed.
Lemma rotation_I : rotation I3.
Proof. split; [intros; rewrite !dot_I; reflexivity|]. unfold det, I3; cbn. ring. Qed.

(** ** The matrix of three angles *)
Definition rad (unit : string) (a : R) : R := if is_degree unit then toradian a else a.
Lemma toMatrix_frames a b c unit v :
  dot_mv (toMatrix_ a b c unit) v = frame_z (rad unit c) (frame_y (rad unit b) (frame_x (rad unit a) v)).
Proof.
  unfold toMatrix_. fold (rad unit a) (rad unit b) (rad unit c).
  destruct v. unfold dot_mv, frame_z, frame_y, frame_x; cbn. apply mk_eq; ring.
Qed.
Lemma frame_x_dot t a b : sdot (frame_x t a) (frame_x t b) = sdot a b.
Proof.
  unfold sdot, frame_x; cbn [vx vy vz].
  transitivity (vx a * vx b + (cos t * cos t + sin t * sin t) * (vy a * vy b + vz a * vz b)); [ring|]. rewrite cs2. ring.
Qed.
Lemma frame_y_dot t a b : sdot (frame_y t a) (frame_y t b) = sdot a b.
Proof.
  unfold sdot, frame_y; cbn [vx vy vz].
  transitivity (vy a * vy b + (cos t * cos t + sin t * sin t) * (vx a * vx b + vz a * vz b)); [ring|]. rewrite cs2. ring.
Qed.
Lemma frame_z_dot t a b : sdot (frame_z t a) (frame_z t b) = sdot a b.
Proof.
  unfold sdot, frame_z; cbn [vx vy vz].
  transitivity (vz a * vz b + (cos t * cos t + sin t * sin t) * (vx a * vx b + vy a * vy b)); [ring|]. rewrite cs2. ring.
Qed.
Lemma toMatrix__rotation a b c unit : rotation (toMatrix_ a b c unit).
Proof.
  split.
  - intros u v. rewrite !toMatrix_frames, frame_z_dot, frame_y_dot, frame_x_dot. reflexivity.
  - unfold toMatrix_. fold (rad unit a) (rad unit b) (rad unit c).
    set (x := rad unit a). set (y := rad unit b). set (z := rad unit c). unfold det; cbn.
    pose proof (cs2 x) as Hx. pose proof (cs2 y) as Hy. pose proof (cs2 z) as Hz.
    set (cx := cos x) in *. set (sx := sin x) in *. set (cy := cos y) in *. set (sy := sin y) in *.
    set (cz := cos z) in *. set (sz := sin z) in *.
    transitivity ((cx*cx + sx*sx) * (cy*cy + sy*sy) * (cz*cz+sz*sz)); [ring|].
    rewrite Hx, Hy, Hz. ring.
Qed.

(** ** Angles of a matrix *)
Lemma arctan2_spec k c s : 0 < k -> c * c + s * s = 1 ->
  cos (arctan2 (k * s) (k * c)) = c /\ sin (arctan2 (k * s) (k * c)) = s.
Proof.
  intros Hk H.
  assert (Q : c <> 0 -> k * s / (k * c) = s / c) by (intro; field; lra).
  assert (P : c <> 0 -> 1 + (s / c) * (s / c) = (/ c) * (/ c)).
  { intro N. apply (Rmult_eq_reg_r (c * c)); [|nra]. field_simplify; lra. }
  unfold arctan2. destruct (Rltb_cases 0 (k * c)) as [[E L]|[E L]]; rewrite E.
  - assert (C : 0 < c) by nra. rewrite Q by lra.
    assert (S : sqrt (1 + (s / c)²) = / c).
    { unfold Rsqr. rewrite P by lra. rewrite sqrt_square; [reflexivity|]. left. apply Rinv_0_lt_compat. exact C. }
    rewrite cos_atan, sin_atan, S. split; field; lra.
  - destruct (Rltb_cases (k * c) 0) as [[E' L']|[E' L']]; rewrite E'.
    + assert (C : c < 0) by nra. rewrite Q by lra.
      assert (S : sqrt (1 + (s / c)²) = / - c).
      { unfold Rsqr. rewrite P by lra. replace (/ c * / c) with (/ - c * / - c) by (field; lra).
        rewrite sqrt_square; [reflexivity|]. left. apply Rinv_0_lt_compat. lra. }
      assert (CA : cos (atan (s / c)) = - c) by (rewrite cos_atan, S; field; lra).
      assert (SA : sin (atan (s / c)) = - s) by (rewrite sin_atan, S; field; lra).
      destruct (Rltb (k * s) 0).
      * rewrite cos_minus, sin_minus, cos_PI, sin_PI, CA, SA. lra.
      * rewrite neg_cos, neg_sin, CA, SA. lra.
    + assert (C : c = 0) by nra. subst c. 
      destruct (Rltb_cases 0 (k * s)) as [[F G]|[F G]]; rewrite F.
      * rewrite cos_PI2, sin_PI2. assert (0 < s) by nra. nra.
      * assert (s <= 0) by nra. assert (s = -1) by nra. subst s.
        replace (Rltb (k * -1) 0) with true by (symmetry; apply Rltb_true; lra).
        rewrite cos_neg, sin_neg, cos_PI2, sin_PI2. lra.
Qed.

Lemma conversion_failed_refl m : conversion_failed m m = false.
Proof.
  assert (D : forall x, differs x x = false).
  { intro x. unfold differs. replace (x - x) with 0 by ring. unfold Rdiv. rewrite Rmult_0_l, Rabs_R0.
    pose proof tol_pos. destruct (Rltb (Rabs x) tol); apply Rltb_false; lra. }
  unfold conversion_failed. rewrite !D. reflexivity.
Qed.
Lemma deg_rad a : toradian (todegree a) = a.
Proof. unfold toradian, todegree. field. apply PI_neq0. Qed.

(* the angles (x, y, z) in radians computed for a matrix that is reproduced exactly *)
Lemma toAngles_exact m unit x y z :
  (let '(x', z') :=
     if Rltb (1 - tol) (m20 m) then (0, arctan2 (m01 m) (m11 m))
     else if Rltb (m20 m) (tol - 1) then (0, arctan2 (m01 m) (m11 m))
     else (arctan2 (- m21 m) (m22 m), arctan2 (- m10 m) (m00 m)) in
   x = x' /\ z = z') ->
  -1 <= m20 m <= 1 -> y = asin (m20 m) -> toMatrix_ x y z "radian" = m ->
  exists a b c, toAngles (Matrix m) unit = Ok (Some (a, b, c)) /\ toMatrix_ a b c unit = m.
Proof.
  intros H R Y E. unfold toAngles.
  destruct (if Rltb (1 - tol) (m20 m) then (0, arctan2 (m01 m) (m11 m))
     else if Rltb (m20 m) (tol - 1) then (0, arctan2 (m01 m) (m11 m))
     else (arctan2 (- m21 m) (m22 m), arctan2 (- m10 m) (m00 m))) as [x' z'].
  destruct H as [<- <-]. unfold arcsin.
  replace (Rltb 1 (m20 m)) with false by (symmetry; apply Rltb_false; lra).
  replace (Rltb (m20 m) (-1)) with false by (symmetry; apply Rltb_false; lra).
  rewrite <- Y, E, conversion_failed_refl. destruct (is_degree unit) eqn:U.
  - do 3 eexists. split; [reflexivity|]. unfold toMatrix_ in *. rewrite U. rewrite !deg_rad. exact E.
  - do 3 eexists. split; [reflexivity|]. unfold toMatrix_ in *. rewrite U. exact E.
Qed.
Lemma is_degree_radian : is_degree "radian" = false. Proof. reflexivity. Qed.

Lemma rotation_adj m : rotation m -> transpose m = adj m.
Proof.
  intros [O D]. apply orth_iff in O. pose proof (adj_right m D) as A.
  rewrite <- (matmul_I_r (transpose m)), <- A, matmul_assoc, O, matmul_I_l. reflexivity.
Qed.
Lemma rotation_entries m : rotation m ->
  m00 m * m00 m + m10 m * m10 m = 1 - m20 m * m20 m /\
  m21 m * m21 m + m22 m * m22 m = 1 - m20 m * m20 m /\
  m01 m * m01 m + m11 m * m11 m + m21 m * m21 m = 1 /\
  m01 m = m12 m * m20 m - m10 m * m22 m /\ m12 m = m01 m * m20 m - m00 m * m21 m /\
  m11 m = m00 m * m22 m - m02 m * m20 m /\ m02 m = m10 m * m21 m - m11 m * m20 m.
Proof.
  intro R. pose proof (rotation_adj m R) as A. destruct (left_right m R) as [L I].
  destruct m as [a b c d e f g h i]. unfold transpose, adj, matmul, I3 in *; cbn in *.
  injection A as A1 A2 A3 A4 A5 A6 A7 A8 A9. injection L as L1 L2 L3 L4 L5 L6 L7 L8 L9. injection I as I1 I2 I3 I4 I5 I6 I7 I8 I9.
  repeat split; lra.
Qed.

Lemma toAngles_away m unit : rotation m -> Rabs (m20 m) <= 1 - tol ->
  exists x y z, toAngles (Matrix m) unit = Ok (Some (x, y, z)) /\ toMatrix_ x y z unit = m.
Proof.
  intros R G. pose proof tol_pos as TP. pose proof tol_small as TS.
  assert (B : -1 + tol <= m20 m <= 1 - tol) by (unfold Rabs in G; destruct (Rcase_abs (m20 m)); lra).
  destruct (rotation_entries m R) as (C0 & R2 & _ & E01 & E12 & E11 & E02).
  set (k := sqrt (1 - m20 m * m20 m)).
  assert (P : 0 < 1 - m20 m * m20 m) by nra.
  assert (K : 0 < k) by (apply sqrt_lt_R0; exact P).
  assert (KK : k * k = 1 - m20 m * m20 m) by (apply sqrt_sqrt; lra).
  assert (CA : cos (asin (m20 m)) = k) by (rewrite cos_asin by lra; reflexivity).
  assert (X : cos (arctan2 (- m21 m) (m22 m)) = m22 m / k /\ sin (arctan2 (- m21 m) (m22 m)) = - m21 m / k).
  { assert (A : cos (arctan2 (k * (- m21 m / k)) (k * (m22 m / k))) = m22 m / k /\
                sin (arctan2 (k * (- m21 m / k)) (k * (m22 m / k))) = - m21 m / k).
    { apply arctan2_spec; [exact K|]. apply (Rmult_eq_reg_r (k * k)); [|nra]. field_simplify; [|lra]. nra. }
    replace (k * (- m21 m / k)) with (- m21 m) in A by (field; lra).
    replace (k * (m22 m / k)) with (m22 m) in A by (field; lra). exact A. }
  assert (Z : cos (arctan2 (- m10 m) (m00 m)) = m00 m / k /\ sin (arctan2 (- m10 m) (m00 m)) = - m10 m / k).
  { assert (A : cos (arctan2 (k * (- m10 m / k)) (k * (m00 m / k))) = m00 m / k /\
                sin (arctan2 (k * (- m10 m / k)) (k * (m00 m / k))) = - m10 m / k).
    { apply arctan2_spec; [exact K|]. apply (Rmult_eq_reg_r (k * k)); [|nra]. field_simplify; [|lra]. nra. }
    replace (k * (- m10 m / k)) with (- m10 m) in A by (field; lra).
    replace (k * (m00 m / k)) with (m00 m) in A by (field; lra). exact A. }
  apply (toAngles_exact m unit (arctan2 (- m21 m) (m22 m)) (asin (m20 m)) (arctan2 (- m10 m) (m00 m))).
  - replace (Rltb (1 - tol) (m20 m)) with false by (symmetry; apply Rltb_false; lra).
    replace (Rltb (m20 m) (tol - 1)) with false by (symmetry; apply Rltb_false; lra). auto.
  - lra.
  - reflexivity.
  - unfold toMatrix_. rewrite is_degree_radian. destruct X as [Xc Xs], Z as [Zc Zs]. rewrite Xc, Xs, Zc, Zs, CA, sin_asin by lra.
    assert (DIV : forall u w, u = w * (k * k) -> u / (k * k) = w) by (intros u w ->; field; lra).
    transitivity (mkM (m00 m) (m01 m) (m02 m) (m10 m) (m11 m) (m12 m) (m20 m) (m21 m) (m22 m)); [|apply mat3_eta].
    apply mkM_eq; try (field; lra).
    + transitivity ((- m21 m * m20 m * m00 m - m22 m * m10 m) / (k * k)); [field; lra|]. apply DIV. rewrite KK. rewrite E12 in E01. lra.
    + transitivity ((m21 m * m10 m - m22 m * m20 m * m00 m) / (k * k)); [field; lra|]. apply DIV. rewrite KK. rewrite E11 in E02. lra.
    + transitivity ((m22 m * m00 m - m21 m * m20 m * m10 m) / (k * k)); [field; lra|]. apply DIV. rewrite KK. rewrite E02 in E11. lra.
    + transitivity ((- m21 m * m00 m - m22 m * m20 m * m10 m) / (k * k)); [field; lra|]. apply DIV. rewrite KK. rewrite E01 in E12. lra.
Qed.

Lemma toAngles_lock m unit : rotation m -> Rabs (m20 m) = 1 ->
  exists x y z, toAngles (Matrix m) unit = Ok (Some (x, y, z)) /\ toMatrix_ x y z unit = m.
Proof.
  intros R G. pose proof tol_pos as TP. pose proof tol_small as TS.
  assert (B : m20 m = 1 \/ m20 m = -1) by (unfold Rabs in G; destruct (Rcase_abs (m20 m)); lra).
  destruct (rotation_entries m R) as (C0 & R2 & C1 & E01 & E12 & E11 & E02).
  assert (S1 : m20 m * m20 m = 1) by (destruct B as [H|H]; rewrite H; ring).
  assert (Z00 : m00 m = 0) by nra. assert (Z10 : m10 m = 0) by nra.
  assert (Z21 : m21 m = 0) by nra. assert (Z22 : m22 m = 0) by nra.
  assert (Z : cos (arctan2 (m01 m) (m11 m)) = m11 m /\ sin (arctan2 (m01 m) (m11 m)) = m01 m).
  { pose proof (arctan2_spec 1 (m11 m) (m01 m)) as A. rewrite !Rmult_1_l in A. apply A; [lra|]. rewrite Z21 in C1. lra. }
  assert (CA : cos (asin (m20 m)) = 0).
  { rewrite cos_asin by (destruct B; lra). unfold Rsqr. rewrite S1. replace (1 - 1) with 0 by ring. apply sqrt_0. }
  apply (toAngles_exact m unit 0 (asin (m20 m)) (arctan2 (m01 m) (m11 m))).
  - destruct B as [H|H]; rewrite H.
    + replace (Rltb (1 - tol) 1) with true by (symmetry; apply Rltb_true; lra). auto.
    + replace (Rltb (1 - tol) (-1)) with false by (symmetry; apply Rltb_false; lra).
      replace (Rltb (-1) (tol - 1)) with true by (symmetry; apply Rltb_true; lra). auto.
  - destruct B; lra.
  - reflexivity.
  - unfold toMatrix_. rewrite is_degree_radian. destruct Z as [Zc Zs]. rewrite Zc, Zs, CA, sin_asin by (destruct B; lra).
    rewrite cos_0, sin_0.
    transitivity (mkM (m00 m) (m01 m) (m02 m) (m10 m) (m11 m) (m12 m) (m20 m) (m21 m) (m22 m)); [|apply mat3_eta].
    rewrite Z00, Z10, Z21, Z22 in *. apply mkM_eq; lra.
Qed.

(* radians of a triple in any unit *)
Lemma toMatrix_rad a b c unit : toMatrix_ a b c unit = toMatrix_ (rad unit a) (rad unit b) (rad unit c) "radian".
Proof. unfold toMatrix_, rad. rewrite is_degree_radian. destruct (is_degree unit); reflexivity. Qed.

(** ** Near gimbal lock, outside the range, soundness *)
Lemma near_gimbal_fails b unit : 1 - tol < sin b < 1 -> tol < cos b ->
  toAngles (Matrix (toMatrix_ (PI / 2) b 0 "radian")) unit = Err RuntimeError.
Proof.
  intros S C. set (m := toMatrix_ (PI / 2) b 0 "radian").
  assert (E : m = mkM (cos b) (sin b) 0  0 0 1  (sin b) (- cos b) 0).
  { subst m. unfold toMatrix_. rewrite is_degree_radian, cos_PI2, sin_PI2, cos_0, sin_0. apply mkM_eq; ring. }
  rewrite E. unfold toAngles. cbn [m20 m01 m11 m21 m22 m10 m00].
  replace (Rltb (1 - tol) (sin b)) with true by (symmetry; apply Rltb_true; lra).
  pose proof tol_small as TS.
  assert (A : arctan2 (sin b) 0 = PI / 2).
  { unfold arctan2. replace (Rltb 0 0) with false by (symmetry; apply Rltb_false; lra).
    replace (Rltb 0 (sin b)) with true by (symmetry; apply Rltb_true; lra). reflexivity. }
  rewrite A. unfold arcsin. replace (Rltb 1 (sin b)) with false by (symmetry; apply Rltb_false; lra).
  replace (Rltb (sin b) (-1)) with false by (symmetry; apply Rltb_false; lra).
  replace (conversion_failed _ _) with true; [reflexivity|]. symmetry.
  unfold conversion_failed. replace (differs _ (m00 _)) with true; [reflexivity|]. symmetry.
  unfold toMatrix_. rewrite is_degree_radian. cbn [m00]. rewrite cos_PI2, Rmult_0_r.
  unfold differs. pose proof tol_pos.
  replace (Rltb (Rabs (cos b)) tol) with false by (symmetry; apply Rltb_false; rewrite Rabs_right; lra).
  apply Rltb_true. replace ((0 - cos b) / cos b) with (-1) by (field; lra). rewrite Rabs_left by lra. lra.
Qed.

Lemma differs_false m1 m : differs m1 m = false -> Rabs (m1 - m) <= tol * Rmax 1 (Rabs m).
Proof.
  pose proof tol_pos as TP. unfold differs. destruct (Rltb_cases (Rabs m) tol) as [[E L]|[E L]]; rewrite E; intro H; apply Rltb_false in H.
  - apply Rle_trans with (1 := H). rewrite <- (Rmult_1_r tol) at 1. apply Rmult_le_compat_l; [lra|apply Rmax_l].
  - assert (N : m <> 0). { intro Z. rewrite Z, Rabs_R0 in L. lra. }
    unfold Rdiv in H. rewrite Rabs_mult, Rabs_inv in H.
    assert (P : 0 < Rabs m) by (apply Rabs_pos_lt; exact N).
    apply Rle_trans with (tol * Rabs m); [|apply Rmult_le_compat_l; [lra|apply Rmax_r]].
    apply (Rmult_le_reg_r (/ Rabs m)); [apply Rinv_0_lt_compat; exact P|]. rewrite Rmult_assoc, Rinv_r by lra. lra.
Qed.

(* entrywise: |m1_ij - m_ij| <= d * max(1, |m_ij|) *)
Lemma conversion_close m1 m : conversion_failed m1 m = false ->
  forall f, In f [m00; m01; m02; m10; m11; m12; m20; m21; m22] -> Rabs (f m1 - f m) <= tol * Rmax 1 (Rabs (f m)).
Proof.
  unfold conversion_failed. rewrite !orb_false_iff. intros ((((((((H0 & H1) & H2) & H3) & H4) & H5) & H6) & H7) & H8) f F.
  cbn in F. destruct F as [<-|[<-|[<-|[<-|[<-|[<-|[<-|[<-|[<-|[]]]]]]]]]]; apply differs_false; assumption.
Qed.
Lemma toAngles_close m unit a b c : toAngles (Matrix m) unit = Ok (Some (a, b, c)) ->
  forall f, In f [m00; m01; m02; m10; m11; m12; m20; m21; m22] ->
  Rabs (f (toMatrix_ a b c unit) - f m) <= tol * Rmax 1 (Rabs (f m)).
Proof.
  unfold toAngles. destruct (if Rltb (1 - tol) (m20 m) then _ else _) as [x z].
  destruct (arcsin (m20 m)) as [y|]; [|discriminate].
  destruct (conversion_failed _ _) eqn:C; [discriminate|].
  assert (G : forall a b c, rad unit a = x -> rad unit b = y -> rad unit c = z ->
     forall f, In f [m00; m01; m02; m10; m11; m12; m20; m21; m22] ->
     Rabs (f (toMatrix_ a b c unit) - f m) <= tol * Rmax 1 (Rabs (f m))).
  { intros a' b' c' Ha Hb Hc f F. rewrite toMatrix_rad, Ha, Hb, Hc. apply (conversion_close _ _ C f F). }
  destruct (is_degree unit) eqn:U; intro H; injection H as <- <- <-; apply G; unfold rad; rewrite U; try apply deg_rad; reflexivity.
Qed.
Lemma toAngles_outcome m unit :
  (1 < Rabs (m20 m) -> toAngles (Matrix m) unit = Ok None) /\
  (Rabs (m20 m) <= 1 -> toAngles (Matrix m) unit = Err RuntimeError \/ exists a, toAngles (Matrix m) unit = Ok (Some a)).
Proof.
  unfold toAngles. destruct (if Rltb (1 - tol) (m20 m) then _ else _) as [x z]. unfold arcsin. split; intro H.
  - unfold Rabs in H. destruct (Rcase_abs (m20 m)).
    + replace (Rltb 1 (m20 m)) with false by (symmetry; apply Rltb_false; lra).
      replace (Rltb (m20 m) (-1)) with true by (symmetry; apply Rltb_true; lra). reflexivity.
    + replace (Rltb 1 (m20 m)) with true by (symmetry; apply Rltb_true; lra). reflexivity.
  - assert (-1 <= m20 m <= 1) by (unfold Rabs in H; destruct (Rcase_abs (m20 m)); lra).
    replace (Rltb 1 (m20 m)) with false by (symmetry; apply Rltb_false; lra).
    replace (Rltb (m20 m) (-1)) with false by (symmetry; apply Rltb_false; lra).
    destruct (conversion_failed _ _); [left; reflexivity|right]. destruct (is_degree unit); eexists; reflexivity.
Qed.

(** ** Changes of coordinates *)
Lemma vsub_vadd a b : vsub (vadd a b) b = a.
Proof. destruct a, b. unfold vsub, vadd; cbn. apply mk_eq; ring. Qed.
Lemma vadd_vsub a b : vadd (vsub a b) b = a.
Proof. destruct a, b. unfold vsub, vadd; cbn. apply mk_eq; ring. Qed.
Lemma vadd_comm a b : vadd a b = vadd b a.
Proof. destruct a, b. unfold vadd; cbn. apply mk_eq; ring. Qed.
Lemma event_eta e : mkE (e_r e) (e_v e) (e_s1 e) (e_s2 e) (e_t e) (e_p e) = e. Proof. destruct e; reflexivity. Qed.

Lemma rel2abs_abs2rel ev p m : rotation m -> rel2abs (abs2rel ev p m) p m = ev.
Proof.
  intro R. destruct (left_right m R) as [L _]. unfold rel2abs, abs2rel. cbn.
  rewrite <- !dot_matmul, L, !dot_I, vadd_vsub. apply event_eta.
Qed.
Lemma abs2rel_rel2abs ev p m : rotation m -> abs2rel (rel2abs ev p m) p m = ev.
Proof.
  intro R. destruct (left_right m R) as [_ L]. unfold rel2abs, abs2rel. cbn.
  rewrite vsub_vadd, <- !dot_matmul, L, !dot_I. apply event_eta.
Qed.
Lemma map_id_ext {A} (f : A -> A) l : (forall x, f x = x) -> map f l = l.
Proof. intro H. induction l as [|x l IH]; cbn; [reflexivity|]. rewrite H, IH. reflexivity. Qed.
Lemma batch_there_back buffer p m : rotation m ->
  rel2abs_batch (abs2rel_batch buffer p m) p m = buffer /\ abs2rel_batch (rel2abs_batch buffer p m) p m = buffer.
Proof.
  intro R. unfold rel2abs_batch, abs2rel_batch.
  destruct (is_almost_0 p && is_almost_I m)%bool; [split; reflexivity|].
  destruct (is_almost_I m); split; rewrite map_map; apply map_id_ext; intro ev.
  - unfold rel2abs_fast, abs2rel_fast; cbn. rewrite vadd_vsub. apply event_eta.
  - unfold rel2abs_fast, abs2rel_fast; cbn. rewrite vsub_vadd. apply event_eta.
  - apply rel2abs_abs2rel; exact R.
  - apply abs2rel_rel2abs; exact R.
Qed.

Lemma small_spec x : small x = true <-> Rabs x <= tol.
Proof. unfold small. rewrite negb_true_iff. apply Rltb_false. Qed.
Lemma is_almost_I_I : is_almost_I I3 = true.
Proof.
  pose proof tol_pos.
  assert (S0 : small 0 = true) by (apply small_spec; rewrite Rabs_R0; lra).
  assert (S1 : small (1 - 1) = true) by (replace (1 - 1) with 0 by ring; exact S0).
  unfold is_almost_I, I3; cbn [m00 m01 m02 m10 m11 m12 m20 m21 m22]. rewrite S0, S1. reflexivity.
Qed.
(* where no approximate shortcut is taken the batch is exact *)
Lemma batch_exact buffer p m : clear_placement p m -> abs2rel_batch buffer p m = map (fun ev => abs2rel ev p m) buffer.
Proof.
  intros [C0 C1]. unfold abs2rel_batch. destruct (is_almost_I m) eqn:I; [|rewrite andb_false_r; reflexivity].
  rewrite andb_true_r. specialize (C0 I). subst m. destruct (is_almost_0 p) eqn:Z.
  - rewrite (C1 eq_refl eq_refl). symmetry. apply map_id_ext. intro ev. unfold abs2rel. rewrite !dot_I.
    replace (vsub (e_r ev) (mkV 0 0 0)) with (e_r ev). { apply event_eta. }
    destruct (e_r ev). unfold vsub; cbn. apply mk_eq; ring.
  - apply map_ext. intro ev. unfold abs2rel, abs2rel_fast. rewrite !dot_I. reflexivity.
Qed.

(* (p2,m2) relative to (p1,m1) *)
Definition relpos (p1 : vec3) (m1 : mat3) (p2 : vec3) : vec3 := dot_mv m1 (vsub p2 p1).
Definition relrot (m1 m2 : mat3) : mat3 := matmul m2 (transpose m1).
Lemma abs2rel_compose ev p1 m1 p2 m2 p3 m3 : rotation m1 -> rotation m2 ->
  abs2rel (abs2rel ev (relpos p1 m1 p2) (relrot m1 m2)) (relpos p2 m2 p3) (relrot m2 m3)
  = abs2rel ev (relpos p1 m1 p3) (relrot m1 m3).
Proof.
  intros R1 R2. destruct (left_right m1 R1) as [L1 I1]. destruct (left_right m2 R2) as [L2 _].
  unfold abs2rel, relpos, relrot; cbn [e_r e_v e_s1 e_s2 e_t e_p].
  f_equal.
  - rewrite !dot_matmul, !dot_vsub. rewrite <- !(dot_matmul (transpose m2) m2), <- !(dot_matmul (transpose m1) m1), L1, L2, !dot_I.
    rewrite <- !dot_vsub. f_equal.
    generalize (dot_mv (transpose m1) (e_r ev)). intros [a b c]. destruct p1, p2, p3. unfold vsub; cbn. apply mk_eq; ring.
  - rewrite !dot_matmul. rewrite <- (dot_matmul (transpose m2) m2), L2, dot_I. reflexivity.
Qed.

Lemma abs_lin3 a b c x y z d : 0 <= d -> Rabs a <= d -> Rabs b <= d -> Rabs c <= d ->
  Rabs (a * x + b * y + c * z) <= d * (Rabs x + Rabs y + Rabs z).
Proof.
  intros D A B C. apply Rle_trans with (1 := Rabs_triang _ _).
  pose proof (Rabs_triang (a * x) (b * y)) as T. rewrite !Rabs_mult in *.
  pose proof (Rabs_pos x). pose proof (Rabs_pos y). pose proof (Rabs_pos z). nra.
Qed.
Lemma almost_I_close m v : is_almost_I m = true -> vclose (tol * sum_abs v) v (dot_mv m v).
Proof.
  unfold is_almost_I. rewrite !andb_true_iff, !small_spec. intros ((((((((H0 & H1) & H2) & H3) & H4) & H5) & H6) & H7) & H8).
  pose proof tol_pos. unfold vclose, sum_abs, dot_mv; cbn. repeat split.
  - replace (vx v - _) with (- ((m00 m - 1) * vx v + m01 m * vy v + m02 m * vz v)) by ring. rewrite Rabs_Ropp. apply abs_lin3; lra.
  - replace (vy v - _) with (- (m10 m * vx v + (m11 m - 1) * vy v + m12 m * vz v)) by ring. rewrite Rabs_Ropp. apply abs_lin3; lra.
  - replace (vz v - _) with (- (m20 m * vx v + m21 m * vy v + (m22 m - 1) * vz v)) by ring. rewrite Rabs_Ropp. apply abs_lin3; lra.
Qed.
Lemma vclose_0 a d : 0 <= d -> vclose d a a.
Proof. intro D. unfold vclose. repeat split; unfold Rminus; rewrite Rplus_opp_r, Rabs_R0; exact D. Qed.
Lemma vclose_trans d1 d2 a b c : vclose d1 a b -> vclose d2 b c -> vclose (d1 + d2) a c.
Proof.
  intros (A1 & A2 & A3) (B1 & B2 & B3). unfold vclose. repeat split.
  - replace (vx a - vx c) with ((vx a - vx b) + (vx b - vx c)) by ring. apply Rle_trans with (1 := Rabs_triang _ _). lra.
  - replace (vy a - vy c) with ((vy a - vy b) + (vy b - vy c)) by ring. apply Rle_trans with (1 := Rabs_triang _ _). lra.
  - replace (vz a - vz c) with ((vz a - vz b) + (vz b - vz c)) by ring. apply Rle_trans with (1 := Rabs_triang _ _). lra.
Qed.
Lemma vclose_le d d' a b : d <= d' -> vclose d a b -> vclose d' a b.
Proof. unfold vclose. intros. intuition lra. Qed.

(* in all cases the batch is within 1e-8*(1 + |x|+|y|+|z|) of the exact transformation *)
Lemma batch_close buffer p m :
  Forall2 (fun ev out =>
    same_other ev out /\
    vclose (tol * (1 + sum_abs (vsub (e_r ev) p))) (e_r out) (dot_mv m (vsub (e_r ev) p)) /\
    vclose (tol * sum_abs (e_v ev)) (e_v out) (dot_mv m (e_v ev))) buffer (abs2rel_batch buffer p m).
Proof.
  pose proof tol_pos as TP.
  assert (SP : forall v, 0 <= sum_abs v).
  { intro v. unfold sum_abs. pose proof (Rabs_pos (vx v)). pose proof (Rabs_pos (vy v)). pose proof (Rabs_pos (vz v)). lra. }
  assert (P1 : forall v, 0 <= tol * (1 + sum_abs v)) by (intro v; specialize (SP v); nra).
  assert (P2 : forall v, 0 <= tol * sum_abs v) by (intro v; specialize (SP v); nra).
  assert (G : forall f : event -> event, (forall ev, same_other ev (f ev) /\
     vclose (tol * (1 + sum_abs (vsub (e_r ev) p))) (e_r (f ev)) (dot_mv m (vsub (e_r ev) p)) /\
     vclose (tol * sum_abs (e_v ev)) (e_v (f ev)) (dot_mv m (e_v ev))) ->
     Forall2 (fun ev out => same_other ev out /\
    vclose (tol * (1 + sum_abs (vsub (e_r ev) p))) (e_r out) (dot_mv m (vsub (e_r ev) p)) /\
    vclose (tol * sum_abs (e_v ev)) (e_v out) (dot_mv m (e_v ev))) buffer (map f buffer)).
  { intros f F. induction buffer as [|ev b IH]; cbn; constructor; auto. }
  unfold abs2rel_batch. destruct (is_almost_I m) eqn:I.
  - rewrite andb_true_r. destruct (is_almost_0 p) eqn:Z.
    + rewrite <- (map_id buffer) at 2. apply G. intro ev. split; [repeat split|]. split; [|apply almost_I_close; exact I].
      replace (tol * (1 + sum_abs (vsub (e_r ev) p))) with (tol + tol * sum_abs (vsub (e_r ev) p)) by ring.
      apply (vclose_trans _ _ _ (vsub (e_r ev) p)); [|apply almost_I_close; exact I].
      unfold is_almost_0 in Z. rewrite !andb_true_iff, !small_spec in Z. destruct Z as [[Zx Zy] Zz].
      unfold vclose, vsub; cbn. repeat split.
      * replace (vx (e_r ev) - (vx (e_r ev) - vx p)) with (vx p) by ring. exact Zx.
      * replace (vy (e_r ev) - (vy (e_r ev) - vy p)) with (vy p) by ring. exact Zy.
      * replace (vz (e_r ev) - (vz (e_r ev) - vz p)) with (vz p) by ring. exact Zz.
    + apply G. intro ev. split; [repeat split|]. cbn. split; [|apply almost_I_close; exact I].
      eapply vclose_le; [|apply almost_I_close; exact I]. specialize (SP (vsub (e_r ev) p)). nra.
  - rewrite andb_false_r. apply G. intro ev. split; [repeat split|]. cbn. split; apply vclose_0; auto.
Qed.
