(** Properties C18, C19 and C20: orientations and changes of coordinate system. *)
From Coq Require Import Reals Lra Psatz.
From Verif Require Import Base RotModel RotSpec RotProofs.
Open Scope R_scope.

(** ** C18 *)
(** The matrix of any three angles, in any unit, is a proper rotation; its transpose is its inverse. *)
Theorem C18_proper_rotation :
  forall (a b c : R) (unit : string),
  let m := toMatrix (Angles a b c) unit in
  rotation m /\ matmul m (transpose m) = I3 /\ matmul (transpose m) m = I3.
Proof.
  intros a b c unit m. pose proof (toMatrix__rotation a b c unit) as R. destruct (left_right _ R) as [L I]. auto.
Qed.
Print Assumptions C18_proper_rotation.

(** Meaning of the angles: the frame is turned about its x axis, then about its new y axis, then about its new z axis; the matrix
    gives the coordinates of a vector in the turned frame. *)
Theorem C18_meaning_degrees :
  forall (a b c : R) (v : vec3),
  dot_mv (toMatrix (Angles a b c) "degree") v
  = frame_z (c * PI / 180) (frame_y (b * PI / 180) (frame_x (a * PI / 180) v)).
Proof. intros. apply (toMatrix_frames a b c "degree" v). Qed.
Print Assumptions C18_meaning_degrees.

Theorem C18_meaning_radians :
  forall (a b c : R) (v : vec3),
  dot_mv (toMatrix (Angles a b c) "radian") v = frame_z c (frame_y b (frame_x a v)).
Proof. intros. apply (toMatrix_frames a b c "radian" v). Qed.
Print Assumptions C18_meaning_radians.

(** Finding: any unit other than "deg" and "degree" silently means radians, "degrees" too. *)
Theorem C18_unit_degrees_refuted :
  exists o, toMatrix o "degrees" <> toMatrix o "degree" /\ toMatrix o "degrees" = toMatrix o "radian".
Proof.
  exists (Angles 0 1 0). split; [|reflexivity].
  intro H. apply (f_equal m20) in H. cbn in H. unfold toMatrix_ in H.
  change (is_degree "degrees") with false in H. change (is_degree "degree") with true in H. cbn [m20] in H.
  pose proof PI_4 as P4. pose proof PI_RGT_0 as P0. pose proof PI2_1 as P1.
  assert (L : sin (toradian 1) < sin 1). { apply sin_increasing_1; unfold toradian; lra. }
  lra.
Qed.
Print Assumptions C18_unit_degrees_refuted.

Example C18_example :   (* 90 degrees about y: the new z axis is the old x axis *)
  dot_mv (toMatrix (Angles 0 90 0) "deg") (mkV 1 0 0) = mkV 0 0 1.
Proof.
  unfold dot_mv, toMatrix, toMatrix_. change (is_degree "deg") with true. cbn. unfold toradian.
  replace (90 * PI / 180) with (PI / 2) by field. replace (0 * PI / 180) with 0 by field.
  rewrite cos_PI2, sin_PI2, cos_0, sin_0. apply mk_eq; ring.
Qed.

(** ** C19 *)
(** Every rotation matrix that is not within 1e-8 of gimbal lock, or exactly in it, is converted to angles with the same matrix. *)
Theorem C19_angles_of_rotation :
  forall (m : mat3) (unit : string), rotation m -> Rabs (m20 m) <= 1 - / 100000000 \/ Rabs (m20 m) = 1 ->
  exists a b c, toAngles (Matrix m) unit = Ok (Some (a, b, c)) /\ toMatrix (Angles a b c) unit = m.
Proof.
  intros m unit R [H|H]; [apply toAngles_away|apply toAngles_lock]; assumption.
Qed.
Print Assumptions C19_angles_of_rotation.

(** The same for angles: from angles to the matrix and back; units may be different. *)
Theorem C19_round_trip :
  forall (a b c : R) (unit unit' : string),
  let m := toMatrix (Angles a b c) unit in
  Rabs (m20 m) <= 1 - / 100000000 \/ Rabs (m20 m) = 1 ->
  exists x y z, toAngles (Matrix m) unit' = Ok (Some (x, y, z)) /\ toMatrix (Angles x y z) unit' = m.
Proof. intros a b c unit unit' m H. apply C19_angles_of_rotation; [apply toMatrix__rotation|exact H]. Qed.
Print Assumptions C19_round_trip.

(** Whatever matrix is given, angles that are returned reproduce each entry to 1e-8 (relative for entries above 1). *)
Theorem C19_returned_angles_are_close :
  forall (m : mat3) (unit : string) (a b c : R), toAngles (Matrix m) unit = Ok (Some (a, b, c)) ->
  forall entry, In entry [m00; m01; m02; m10; m11; m12; m20; m21; m22] ->
  Rabs (entry (toMatrix (Angles a b c) unit) - entry m) <= / 100000000 * Rmax 1 (Rabs (entry m)).
Proof. intros m unit a b c H entry I. exact (toAngles_close m unit a b c H entry I). Qed.
Print Assumptions C19_returned_angles_are_close.

(** Finding: within 1e-8 of gimbal lock valid orientations are refused.  Turning by 90 degrees about x and then by any angle b about y with
    1 - 1e-8 < sin b < 1 (and cos b > 1e-8) raises RuntimeError: about 0.008 degrees around 90 degrees. *)
Theorem C19_near_gimbal_fails :
  forall (b : R) (unit : string), 1 - / 100000000 < sin b < 1 -> / 100000000 < cos b ->
  toAngles (Matrix (toMatrix (Angles (PI / 2) b 0) "radian")) unit = Err RuntimeError.
Proof. intros b unit S C. exact (near_gimbal_fails b unit S C). Qed.
Print Assumptions C19_near_gimbal_fails.

Theorem C19_every_rotation_converts_refuted :
  exists m, rotation m /\ forall unit, toAngles (Matrix m) unit = Err RuntimeError.
Proof.
  set (b := asin (1 - / 200000000)).
  assert (S : sin b = 1 - / 200000000) by (apply sin_asin; lra).
  assert (C : / 100000000 < cos b).
  { unfold b. rewrite cos_asin by lra. unfold Rsqr. rewrite <- (sqrt_square (/ 100000000)) by lra. apply sqrt_lt_1_alt. lra. }
  exists (toMatrix (Angles (PI / 2) b 0) "radian"). split; [apply toMatrix__rotation|].
  intro unit. apply C19_near_gimbal_fails; [rewrite S; lra|exact C].
Qed.
Print Assumptions C19_every_rotation_converts_refuted.

(** Finding: a matrix whose entry [2][0] exceeds 1 (by rounding, say) gives nan angles and no error. *)
Theorem C19_out_of_range_is_silent :
  forall (m : mat3) (unit : string),
  (1 < Rabs (m20 m) -> toAngles (Matrix m) unit = Ok None) /\
  (Rabs (m20 m) <= 1 -> toAngles (Matrix m) unit = Err RuntimeError \/ exists a, toAngles (Matrix m) unit = Ok (Some a)).
Proof. exact toAngles_outcome. Qed.
Print Assumptions C19_out_of_range_is_silent.

Example C19_example : (* hypotheses: away from the lock, in the lock, and near it *)
  (rotation (toMatrix (Angles 10 30 50) "degree") /\ Rabs (m20 (toMatrix (Angles 10 30 50) "degree")) <= 1 - / 100000000) /\
  (rotation (toMatrix (Angles 10 90 50) "degree") /\ Rabs (m20 (toMatrix (Angles 10 90 50) "degree")) = 1) /\
  (1 < Rabs (m20 (mkM 0 0 0 0 0 0 2 0 0))).
Proof.
  split; [split|split; [split|]]; try apply toMatrix__rotation.
  - unfold toMatrix, toMatrix_. change (is_degree "degree") with true. cbn. unfold toradian.
    replace (30 * PI / 180) with (PI / 6) by field. rewrite sin_PI6. rewrite Rabs_right; lra.
  - unfold toMatrix, toMatrix_. change (is_degree "degree") with true. cbn. unfold toradian.
    replace (90 * PI / 180) with (PI / 2) by field. rewrite sin_PI2. apply Rabs_R1.
  - cbn. rewrite Rabs_right; lra.
Qed.

(** ** C20 *)
Lemma valid_rotation o unit : valid_ori o -> rotation (toMatrix o unit).
Proof. destruct o; cbn; intro H; [apply toMatrix__rotation|exact H]. Qed.

(** From absolute to relative coordinates and back, in both orders, every neutron of every buffer is the same again -- also where the
    code takes its shortcuts for almost-identities. *)
Theorem C20_there_and_back :
  forall (buffer : list event) (p : vec3) (m : mat3), rotation m ->
  rel2abs_batch (abs2rel_batch buffer p m) p m = buffer /\ abs2rel_batch (rel2abs_batch buffer p m) p m = buffer.
Proof. exact batch_there_back. Qed.
Print Assumptions C20_there_and_back.

(** Placement relative to a component and resolution of relative placement are inverse to each other. *)
Theorem C20_placements_inverse :
  forall (p1 p2 r : vec3) (o1 o2 : ori), valid_ori o1 -> valid_ori o2 ->
  (let '(rp, rm) := relativePositionOrientation p1 o1 p2 o2 in
   transformCoordinateSystem p1 o1 rp (Matrix rm) = (p2, toMatrix o2 "degree")) /\
  (let '(p, m) := transformCoordinateSystem p1 o1 r o2 in
   relativePositionOrientation p1 o1 p (Matrix m) = (r, toMatrix o2 "degree")).
Proof.
  intros p1 p2 r o1 o2 V1 V2. destruct (left_right _ (valid_rotation o1 "degree" V1)) as [L R].
  unfold relativePositionOrientation, transformCoordinateSystem. set (m1 := toMatrix o1 "degree") in *.
  set (m2 := toMatrix o2 "degree"). cbn [toMatrix]. split.
  - rewrite <- dot_matmul, L, dot_I, <- matmul_assoc, L, matmul_I_r. f_equal.
    rewrite vadd_comm. apply vadd_vsub.
  - rewrite <- matmul_assoc, R, matmul_I_r. f_equal.
    replace (vsub (vadd p1 (dot_mv (transpose m1) r)) p1) with (dot_mv (transpose m1) r).
    + rewrite <- dot_matmul, R, dot_I. reflexivity.
    + rewrite vadd_comm, vsub_vadd. reflexivity.
Qed.
Print Assumptions C20_placements_inverse.

(** What a change of coordinates does to a neutron, if the placements are not almost (but not exactly) the same: in absolute terms it is the
    same neutron.  Here (r, v) are absolute coordinates, and a component at p with orientation m sees them as (m (r - p), m v). *)
Theorem C20_change_of_coordinates :
  forall (neutrons : list event) (p1 p2 : vec3) (o1 o2 : ori), valid_ori o1 -> valid_ori o2 ->
  (let '(rp, rm) := relativePositionOrientation p1 o1 p2 o2 in clear_placement rp rm) ->
  change_coordinates (map (fun ev => abs2rel ev p1 (toMatrix o1 "degree")) neutrons) p1 o1 p2 o2
  = map (fun ev => abs2rel ev p2 (toMatrix o2 "degree")) neutrons.
Proof.
  intros neutrons p1 p2 o1 o2 V1 V2 C. unfold change_coordinates. 
  destruct (relativePositionOrientation p1 o1 p2 o2) as [rp rm] eqn:E. rewrite batch_exact by exact C.
  unfold relativePositionOrientation in E. injection E as <- <-.
  rewrite map_map. apply map_ext. intro ev.
  pose proof (abs2rel_compose ev (mkV 0 0 0) I3 p1 (toMatrix o1 "degree") p2 (toMatrix o2 "degree") rotation_I (valid_rotation o1 _ V1)) as H.
  unfold relpos, relrot in H.
  assert (T : transpose I3 = I3) by reflexivity. rewrite T, !matmul_I_r, !dot_I in H.
  assert (Z : forall p, vsub p (mkV 0 0 0) = p) by (intros [x y z]; unfold vsub; cbn; apply mk_eq; ring).
  rewrite !Z in H. exact H.
Qed.
Print Assumptions C20_change_of_coordinates.

(** Moving neutrons from A to B to C is moving them from A to C. *)
Theorem C20_composes :
  forall (neutrons : list event) (p1 p2 p3 : vec3) (o1 o2 o3 : ori), valid_ori o1 -> valid_ori o2 -> valid_ori o3 ->
  (let '(rp, rm) := relativePositionOrientation p1 o1 p2 o2 in clear_placement rp rm) ->
  (let '(rp, rm) := relativePositionOrientation p2 o2 p3 o3 in clear_placement rp rm) ->
  (let '(rp, rm) := relativePositionOrientation p1 o1 p3 o3 in clear_placement rp rm) ->
  change_coordinates (change_coordinates neutrons p1 o1 p2 o2) p2 o2 p3 o3 = change_coordinates neutrons p1 o1 p3 o3.
Proof.
  intros neutrons p1 p2 p3 o1 o2 o3 V1 V2 V3 C12 C23 C13. unfold change_coordinates.
  destruct (relativePositionOrientation p1 o1 p2 o2) as [r12 m12] eqn:E12.
  destruct (relativePositionOrientation p2 o2 p3 o3) as [r23 m23] eqn:E23.
  destruct (relativePositionOrientation p1 o1 p3 o3) as [r13 m13] eqn:E13.
  rewrite !batch_exact by assumption. rewrite map_map. apply map_ext. intro ev.
  unfold relativePositionOrientation in *. injection E12 as <- <-. injection E23 as <- <-. injection E13 as <- <-.
  exact (abs2rel_compose ev p1 _ p2 _ p3 _ (valid_rotation o1 _ V1) (valid_rotation o2 _ V2)).
Qed.
Print Assumptions C20_composes.

(** In all cases, shortcuts included: as many neutrons, in order, spin, time and probability the same, position and velocity within 1e-8
    (relative to their size, plus 1e-8 for the position) of the exact values. *)
Theorem C20_shortcut_error :
  forall (neutrons : list event) (p1 p2 : vec3) (o1 o2 : ori),
  let '(rp, rm) := relativePositionOrientation p1 o1 p2 o2 in
  Forall2 (fun ev out =>
    same_other ev out /\
    vclose (/ 100000000 * (1 + sum_abs (vsub (e_r ev) rp))) (e_r out) (dot_mv rm (vsub (e_r ev) rp)) /\
    vclose (/ 100000000 * sum_abs (e_v ev)) (e_v out) (dot_mv rm (e_v ev))) neutrons (change_coordinates neutrons p1 o1 p2 o2).
Proof.
  intros. unfold change_coordinates. destruct (relativePositionOrientation p1 o1 p2 o2) as [rp rm]. exact (batch_close neutrons rp rm).
Qed.
Print Assumptions C20_shortcut_error.

(** In all cases speeds, and distances between neutrons, are exactly preserved. *)
Theorem C20_speeds_and_distances :
  forall (neutrons : list event) (p1 p2 : vec3) (o1 o2 : ori), valid_ori o1 -> valid_ori o2 ->
  let out := change_coordinates neutrons p1 o1 p2 o2 in
  map (fun ev => norm2 (e_v ev)) out = map (fun ev => norm2 (e_v ev)) neutrons /\
  forall i j a b a' b', nth_error neutrons i = Some a -> nth_error neutrons j = Some b ->
    nth_error out i = Some a' -> nth_error out j = Some b' ->
    norm2 (vsub (e_r a') (e_r b')) = norm2 (vsub (e_r a) (e_r b)).
Proof.
  intros neutrons p1 p2 o1 o2 V1 V2. unfold change_coordinates.
  destruct (relativePositionOrientation p1 o1 p2 o2) as [rp rm] eqn:E.
  assert (R : rotation rm).
  { unfold relativePositionOrientation in E. injection E as _ <-. apply rotation_matmul; [|apply rotation_transpose]; apply valid_rotation; assumption. }
  unfold abs2rel_batch.
  assert (G : forall f : event -> event, (forall ev, norm2 (e_v (f ev)) = norm2 (e_v ev)) ->
     (forall a b, norm2 (vsub (e_r (f a)) (e_r (f b))) = norm2 (vsub (e_r a) (e_r b))) ->
     map (fun ev => norm2 (e_v ev)) (map f neutrons) = map (fun ev => norm2 (e_v ev)) neutrons /\
     forall i j a b a' b', nth_error neutrons i = Some a -> nth_error neutrons j = Some b ->
     nth_error (map f neutrons) i = Some a' -> nth_error (map f neutrons) j = Some b' ->
     norm2 (vsub (e_r a') (e_r b')) = norm2 (vsub (e_r a) (e_r b))).
  { intros f F1 F2. split; [rewrite map_map; apply map_ext; exact F1|].
    intros i j a b a' b' A B A' B'. rewrite (map_nth_error f i neutrons A) in A'. rewrite (map_nth_error f j neutrons B) in B'.
    injection A' as <-. injection B' as <-. apply F2. }
  assert (D : forall a b p, vsub (vsub a p) (vsub b p) = vsub a b).
  { intros [x y z] [x' y' z'] [q w e]. unfold vsub; cbn. apply mk_eq; ring. }
  destruct (is_almost_0 rp && is_almost_I rm)%bool.
  - split; [reflexivity|]. intros i j a b a' b' A B A' B'. congruence.
  - destruct (is_almost_I rm); apply G; intros; unfold abs2rel_fast, abs2rel; cbn; try reflexivity.
    + rewrite D. reflexivity.
    + apply R.
    + rewrite <- dot_vsub, D. apply R.
Qed.
Print Assumptions C20_speeds_and_distances.

(** Finding: the two spin components are not turned with the frame (they are the components with respect to the old frame), even for
    a component rotated by 90 degrees. *)
Theorem C20_spin_not_rotated :
  forall (neutrons : list event) (p1 p2 : vec3) (o1 o2 : ori),
  map (fun ev => (e_s1 ev, e_s2 ev)) (change_coordinates neutrons p1 o1 p2 o2) = map (fun ev => (e_s1 ev, e_s2 ev)) neutrons.
Proof.
  intros. unfold change_coordinates. destruct (relativePositionOrientation p1 o1 p2 o2) as [rp rm].
  pose proof (batch_close neutrons rp rm) as F. induction F as [|a b l l' (S & _) _ IH]; cbn; [reflexivity|].
  destruct S as (-> & -> & _). rewrite IH. reflexivity.
Qed.
Print Assumptions C20_spin_not_rotated.

Example C20_example :  (* three placements that meet the hypotheses of C20_composes *)
  let p1 := mkV 0 0 0 in let p2 := mkV 0 0 1 in let p3 := mkV 1 0 1 in
  let o1 := Angles 0 0 0 in let o2 := Angles 0 90 0 in let o3 := Angles 0 90 0 in
  (let '(rp, rm) := relativePositionOrientation p1 o1 p2 o2 in clear_placement rp rm) /\
  (let '(rp, rm) := relativePositionOrientation p2 o2 p3 o3 in clear_placement rp rm) /\
  (let '(rp, rm) := relativePositionOrientation p1 o1 p3 o3 in clear_placement rp rm).
Proof.
  assert (A0 : toMatrix (Angles 0 0 0) "degree" = I3).
  { unfold toMatrix, toMatrix_, I3. change (is_degree "degree") with true. cbn. unfold toradian.
    replace (0 * PI / 180) with 0 by field. rewrite cos_0, sin_0. apply mkM_eq; ring. }
  assert (A9 : toMatrix (Angles 0 90 0) "degree" = mkM 0 0 (-1) 0 1 0 1 0 0).
  { unfold toMatrix, toMatrix_. change (is_degree "degree") with true. cbn. unfold toradian.
    replace (0 * PI / 180) with 0 by field. replace (90 * PI / 180) with (PI / 2) by field.
    rewrite cos_0, sin_0, cos_PI2, sin_PI2. apply mkM_eq; ring. }
  unfold relativePositionOrientation. cbv zeta. rewrite A0, A9.
  assert (N : forall p, clear_placement p (mkM 0 0 (-1) 0 1 0 1 0 0)).
  { assert (X : is_almost_I (mkM 0 0 (-1) 0 1 0 1 0 0) = false).
    { unfold is_almost_I. cbn. replace (small (0 - 1)) with false; [reflexivity|]. symmetry. unfold small.
      apply negb_false_iff. apply Rltb_true. pose proof tol_small. unfold Rabs. destruct (Rcase_abs (0 - 1)); lra. }
    intro p. split; [intro H|intros _ H]; rewrite X in H; discriminate. }
  assert (E1 : matmul (mkM 0 0 (-1) 0 1 0 1 0 0) (transpose I3) = mkM 0 0 (-1) 0 1 0 1 0 0) by apply matmul_I_r.
  assert (E2 : matmul (mkM 0 0 (-1) 0 1 0 1 0 0) (transpose (mkM 0 0 (-1) 0 1 0 1 0 0)) = I3).
  { unfold matmul, transpose, I3; cbn. apply mkM_eq; ring. }
  rewrite E1, E2. split; [apply N|split; [|apply N]].
  split; [intros _; reflexivity|]. intro H. exfalso. unfold is_almost_0, dot_mv, vsub in H; cbn in H.
  rewrite !andb_true_iff, !small_spec in H. destruct H as [_ H]. pose proof tol_small.
  replace (1 * (1 - 0) + 0 * (0 - 0) + 0 * (1 - 1)) with 1 in H by ring. rewrite Rabs_R1 in H. lra.
Qed.
