(** C77: the random directions of McStas point to the target and are spread over its solid angle.
    C78: the intersections of McStas are the times at which a neutron is in a box, a cylinder or a sphere. *)
From Coq Require Import Reals Lra Lia.
From Coquelicot Require Import Coquelicot.
From Verif Require Import Base RotModel RotSpec RotProofs ChanModel ChanProofs ShapeModel ShapeSpec ShapeProofs ShapeProofs2 UnitSpec KinSpec ConeSpec HitProofs4 McsModel McsSpec McsProofs McsProofs2 McsProofs3.
Open Scope R_scope.

(** rotate turns a vector about an axis of any length; lengths and components along the axis are kept. *)
Theorem C77_rotate : forall v phi a, a <> mkV 0 0 0 -> exists e, a = vscale (speed a) e /\ norm2 e = 1 /\
  mc_rotate v phi a = turned e phi v /\ norm2 (mc_rotate v phi a) = norm2 v /\ sdot e (mc_rotate v phi a) = sdot e v.
Proof.
  intros v phi a N. destruct (unit_exists a N) as (e & A). exists e. destruct A as [A U]. pose proof (rotate_turned v phi a e N (conj A U)) as T. rewrite T. pose proof (turned_norm e phi v U). tauto.
Qed.
Print Assumptions C77_rotate.
Example C77_rotate_ex : mc_rotate (mkV 1 0 0) (PI / 2) (mkV 0 0 2) = mkV 0 1 0.
Proof.
  assert (N : mkV 0 0 2 <> mkV 0 0 0) by (intros E; injection E; lra). rewrite (rotate_turned (mkV 1 0 0) (PI / 2) (mkV 0 0 2) (mkV 0 0 1) N).
  - unfold turned, vadd, vscale, vcross, sdot. cbn. rewrite cos_PI2, sin_PI2. f_equal; ring.
  - assert (S : speed (mkV 0 0 2) = 2) by (unfold speed, norm2, sdot; cbn; replace (0 * 0 + 0 * 0 + 2 * 2) with (2 * 2) by ring; apply sqrt_square; lra). split; [rewrite S; unfold vscale; cbn; f_equal; ring|unfold norm2, sdot; cbn; ring].
Qed.

(** The matrix of three angles changes to axes that are turned about x, then y, then z; products stand for one change after the other, and the transposed matrix for the way back. *)
Theorem C77_frames : forall x y z p m a b,
  rot_apply (rot_set_rotation x y z) p = about_z z (about_y y (about_x x p)) /\ rotation (rot_set_rotation x y z) /\
  rot_apply (rot_mul a b) p = rot_apply a (rot_apply b p) /\
  (rotation m -> rot_apply m (rot_apply (rot_transpose m) p) = p /\ rot_apply (rot_transpose m) (rot_apply m p) = p).
Proof. intros. split; [apply set_rotation|]. split; [apply set_rotation_rot|]. split; [apply mul_apply|apply back_apply]. Qed.
Print Assumptions C77_frames.
Example C77_frames_ex : rot_apply (rot_set_rotation 0 (PI / 2) 0) (mkV 1 2 3) = mkV (-3) 2 1.
Proof. unfold rot_apply, rot_set_rotation. cbn. rewrite cos_PI2, sin_PI2, cos_0, sin_0. f_equal; ring. Qed.

(** A vector to a disk around the target has the length of the way to the target and goes through the disk; without a radius every direction is possible. *)
Theorem C77_circle : forall c r, c <> mkV 0 0 0 -> exists e1 e2 e3, frame_along (aim c r) e1 e2 e3 /\
  (forall u1 u2, 0 <= u1 <= 1 -> randvec_target_circle u1 u2 c r = (at_angle e1 e2 e3 (speed c) (1 - u1 * (1 - opening c r)) (2 * PI * u2), 2 * PI * (1 - opening c r))) /\
  (forall u1 u2, 0 <= u1 <= 1 -> norm2 (fst (randvec_target_circle u1 u2 c r)) = norm2 c) /\
  (0 < r -> forall u1 u2, 0 <= u1 <= 1 -> hits_disk c r (fst (randvec_target_circle u1 u2 c r))).
Proof.
  intros c r N. destruct (circle c r N) as (e1 & e2 & e3 & F & _ & H). exists e1, e2, e3. split; [exact F|]. split; [exact H|]. split; [intros u1 u2 U; now apply circle_length|]. intros P u1 u2 U. now apply circle_hits.
Qed.
Print Assumptions C77_circle.
Example C77_circle_ex : mkV 0 0 3 <> mkV 0 0 0 /\ 0 < opening (mkV 0 0 3) 4 < 1 /\ opening (mkV 0 0 3) 0 = -1 /\ aim (mkV 0 0 3) 4 = mkV 0 0 3.
Proof.
  split; [intros E; injection E; lra|]. unfold opening, aim. destruct (Req_EM_T 4 0); [lra|]. destruct (Req_EM_T 0 0); [|lra]. split; [|split; reflexivity].
  unfold half_opening. destruct (Rlt_dec 4 0); [lra|]. replace (norm2 (mkV 0 0 3) / (norm2 (mkV 0 0 3) + 4 * 4)) with ((3 / 5) * (3 / 5)) by (unfold norm2, sdot; cbn; field). rewrite sqrt_square; lra.
Qed.

(** Weighted with the solid angle, averages are integrals over the cone of directions, or over the sphere without a radius. *)
Theorem C77_circle_mean : forall c r, c <> mkV 0 0 0 -> exists e1 e2 e3, frame_along (aim c r) e1 e2 e3 /\
  forall (G : vec3 -> R) (J : R -> R) (I : R),
    (forall x, opening c r < x < 1 -> is_RInt (fun phi => G (at_angle e1 e2 e3 (speed c) x phi)) 0 (2 * PI) (J x)) -> is_RInt J (opening c r) 1 I ->
    meanN 2 (fun l => weigh G (randvec_target_circle (stream l 0) (stream l 1) c r)) I.
Proof. exact circle_mean. Qed.
Print Assumptions C77_circle_mean.
(** The solid angle of all directions. *)
Example C77_circle_mean_ex : meanN 2 (fun l => weigh (fun _ => 1) (randvec_target_circle (stream l 0) (stream l 1) (mkV 1 2 3) 0)) (4 * PI).
Proof.
  assert (N : mkV 1 2 3 <> mkV 0 0 0) by (intros E; injection E; lra). destruct (C77_circle_mean (mkV 1 2 3) 0 N) as (e1 & e2 & e3 & _ & H).
  assert (O : opening (mkV 1 2 3) 0 = -1) by (unfold opening; destruct (Req_EM_T 0 0); [reflexivity|lra]). rewrite O in H. apply (H (fun _ => 1) (fun _ => 2 * PI)).
  - intros x _. pose proof (@is_RInt_const R_NormedModule 0 (2 * PI) 1) as K. change (is_RInt (fun _ : R => 1) 0 (2 * PI) ((2 * PI - 0) * 1)) in K. now replace ((2 * PI - 0) * 1) with (2 * PI) in K by ring.
  - pose proof (@is_RInt_const R_NormedModule (-1) 1 (2 * PI)) as K. change (is_RInt (fun _ : R => 2 * PI) (-1) 1 ((1 - -1) * (2 * PI))) in K. now replace ((1 - -1) * (2 * PI)) with (4 * PI) in K by ring.
Qed.

(** A vector to a rectangle ends in the rectangle around the target, perpendicular to the way to it, with one side horizontal. *)
Theorem C77_rect : forall A c, rotation A -> let g := rot_apply (rot_transpose A) c in (vx g <> 0 \/ vz g <> 0) ->
  exists n m, norm2 n = 1 /\ norm2 m = 1 /\ sdot n m = 0 /\ sdot n c = 0 /\ sdot m c = 0 /\ sdot n (rot_apply A (mkV 0 1 0)) = 0 /\
    forall u1 u2 w h, w <> 0 -> h <> 0 -> let o := in_plane c n m (w * (2 * u1 - 1) / 2) (h * (2 * u2 - 1) / 2) in
      randvec_target_rect u1 u2 c w h A = Some (o, w * h * (speed c / speed o ^ 3)).
Proof. exact rect. Qed.
Print Assumptions C77_rect.
Example C77_rect_ex : rotation (rot_set_rotation 0 (PI / 2) 0) /\ vx (rot_apply (rot_transpose (rot_set_rotation 0 (PI / 2) 0)) (mkV 0 0 5)) = 5.
Proof. split; [apply set_rotation_rot|]. unfold rot_apply, rot_transpose, rot_set_rotation. cbn. rewrite cos_PI2, sin_PI2, cos_0, sin_0. ring. Qed.

(** Weighted with what is returned as the solid angle, averages are integrals over the rectangle of the solid angle under which its parts are seen. *)
Theorem C77_rect_mean : forall A c w h, rotation A -> let g := rot_apply (rot_transpose A) c in (vx g <> 0 \/ vz g <> 0) -> 0 < w -> 0 < h ->
  exists n m, norm2 n = 1 /\ norm2 m = 1 /\ sdot n m = 0 /\ sdot n c = 0 /\ sdot m c = 0 /\ sdot n (rot_apply A (mkV 0 1 0)) = 0 /\
    forall (G : vec3 -> R) (J : R -> R) (I : R),
      (forall x, - w / 2 < x < w / 2 -> is_RInt (fun y => G (in_plane c n m x y) * (speed c / speed (in_plane c n m x y) ^ 3)) (- h / 2) (h / 2) (J x)) -> is_RInt J (- w / 2) (w / 2) I ->
      meanN 2 (fun l => weigh_some G (randvec_target_rect (stream l 0) (stream l 1) c w h A)) I.
Proof. exact rect_mean. Qed.
Print Assumptions C77_rect_mean.
(** Counting every point of a rectangle with the cube of its distance gives its area times the distance of the rectangle. *)
Example C77_rect_mean_ex : meanN 2 (fun l => weigh_some (fun o => speed o ^ 3) (randvec_target_rect (stream l 0) (stream l 1) (mkV 0 0 2) 3 5 I3)) 30.
Proof.
  assert (B : rot_apply (rot_transpose I3) (mkV 0 0 2) = mkV 0 0 2) by (unfold rot_apply, rot_transpose, I3; cbn; f_equal; ring).
  destruct (C77_rect_mean I3 (mkV 0 0 2) 3 5 rot_I3) as (n & m & U1 & U2 & P1 & P2 & P3 & _ & H); [rewrite B; cbn; right; lra|lra|lra|].
  assert (S : speed (mkV 0 0 2) = 2) by (unfold speed, norm2, sdot; cbn; replace (0 * 0 + 0 * 0 + 2 * 2) with (2 * 2) by ring; apply sqrt_square; lra).
  apply (H (fun o => speed o ^ 3) (fun _ => 10)).
  - intros x _. apply (is_RInt_ext (fun _ => 2)).
    + intros y _. assert (K : 0 < speed (in_plane (mkV 0 0 2) n m x y)) by (unfold speed; apply sqrt_lt_R0; rewrite plane_norm by assumption; unfold norm2, sdot; cbn; nra). change (2 = speed (in_plane (mkV 0 0 2) n m x y) ^ 3 * (speed (mkV 0 0 2) / speed (in_plane (mkV 0 0 2) n m x y) ^ 3)). rewrite S. field. lra.
    + pose proof (@is_RInt_const R_NormedModule (-5 / 2) (5 / 2) 2) as K. change (is_RInt (fun _ : R => 2) (-5 / 2) (5 / 2) ((5 / 2 - -5 / 2) * 2)) in K. now replace ((5 / 2 - -5 / 2) * 2) with 10 in K by field.
  - pose proof (@is_RInt_const R_NormedModule (-3 / 2) (3 / 2) 10) as K. change (is_RInt (fun _ : R => 10) (-3 / 2) (3 / 2) ((3 / 2 - -3 / 2) * 10)) in K. now replace ((3 / 2 - -3 / 2) * 10) with 30 in K by field.
Qed.

(** Without an area the rectangle stands for all directions; for a target straight above or below there is no result. *)
Theorem C77_rect_special : forall A c u1 u2 w h,
  (w = 0 \/ h = 0 -> randvec_target_rect u1 u2 c w h A = Some (randvec_target_circle u1 u2 c 0)) /\
  (w <> 0 -> h <> 0 -> vx (rot_apply (rot_transpose A) c) = 0 -> vz (rot_apply (rot_transpose A) c) = 0 -> randvec_target_rect u1 u2 c w h A = None).
Proof. intros. split; [apply rect_none|apply rect_vertical]. Qed.
Print Assumptions C77_rect_special.
Example C77_rect_special_ex : randvec_target_rect (1 / 2) (1 / 2) (mkV 0 1 0) 1 1 I3 = None.
Proof. apply C77_rect_special; try lra; unfold rot_apply, rot_transpose, I3; cbn; ring. Qed.

(** A vector to a rectangle given by angles has the length of the way to the target; for a target at the height of the origin its elevation and its azimuth are those drawn. *)
Theorem C77_angular : forall A c, rotation A -> c <> mkV 0 0 0 ->
  (forall u1 u2 w h, w <> 0 -> h <> 0 -> exists o, randvec_target_rect_angular u1 u2 c w h A = Ok (o, 2 * Rabs (w * sin (h / 2))) /\ norm2 o = norm2 c) /\
  let up := rot_apply A (mkV 0 1 0) in (sdot c up = 0 ->
    exists e s, c = vscale (speed c) e /\ norm2 e = 1 /\ norm2 s = 1 /\ sdot e s = 0 /\ sdot s up = 0 /\
    forall u1 u2 w h, w <> 0 -> h <> 0 -> let theta := w * (2 * u1 - 1) / 2 in let phi := h * (2 * u2 - 1) / 2 in
      randvec_target_rect_angular u1 u2 c w h A = Ok (vscale (speed c) (vadd (vscale (sin phi) up) (vscale (cos phi) (vadd (vscale (cos theta) e) (vscale (sin theta) s)))), 2 * Rabs (w * sin (h / 2)))).
Proof. intros A c H N. split; [intros u1 u2 w h W HH; now apply angular_length|]. intros up L. now apply angular_level. Qed.
Print Assumptions C77_angular.
Example C77_angular_ex : rotation I3 /\ mkV 0 0 1 <> mkV 0 0 0 /\ sdot (mkV 0 0 1) (rot_apply I3 (mkV 0 1 0)) = 0.
Proof. split; [exact rot_I3|]. split; [intros E; injection E; lra|]. rewrite apply_I3. unfold sdot. cbn. ring. Qed.

(** "Uniformly on quadrant within angle": false.  Elevations are drawn evenly, so directions far from the horizontal are too frequent: for a half circle of elevations and a width of 1 the
    weighted average of the squared height is 1, its integral over the solid angle is 2/3.  And without an area "random direction in full 4PI" is computed from variables that are not set. *)
Theorem C77_angular_refuted :
  meanN 2 (fun l => weigh_ok (fun o => vy o * vy o) (randvec_target_rect_angular (stream l 0) (stream l 1) (mkV 0 0 1) 1 PI I3)) 1 /\
  is_RInt (fun phi => 1 * (sin phi * sin phi) * cos phi) (- PI / 2) (PI / 2) (2 / 3) /\
  (forall A c w h u1 u2, w = 0 \/ h = 0 -> randvec_target_rect_angular u1 u2 c w h A = Err UndefinedBehaviour).
Proof. split; [exact angular_mean|]. split; [exact solid_angle_mean|]. intros. now apply angular_zero. Qed.
Print Assumptions C77_angular_refuted.

(** box_intersect gives the times of entry and exit of a line through the interior that avoids the edges, and nothing for lines that miss the interior. *)
Theorem C78_box : forall r v dx dy dz, 0 < dx -> 0 < dy -> 0 < dz -> v <> mkV 0 0 0 ->
  (~ meets (Box dx dy dz) r v -> mc_box_intersect r v dx dy dz = None) /\
  (meets (Box dx dy dz) r v -> exists t1 t2, entry_exit (Box dx dy dz) r v t1 t2 /\
     (~ on_edge dx dy dz (on_line r v t1) -> ~ on_edge dx dy dz (on_line r v t2) -> mc_box_intersect r v dx dy dz = Some (t1, t2))).
Proof.
  intros r v dx dy dz X Y Z V. destruct (box_all r v dx dy dz X Y Z V) as [A B]. split; [exact A|]. intros M. destruct (B M) as (t1 & t2 & E & H & _). exists t1, t2. split; assumption.
Qed.
Print Assumptions C78_box.
Example C78_box_ex : mc_box_intersect (mkV 0 (1 / 2) (-3)) (mkV 0 0 1) 2 2 2 = Some (2, 4).
Proof.
  assert (T : box_times (mkV 0 (1 / 2) (-3)) (mkV 0 0 1) 2 2 2 = [- (2 / 2 + -3) / 1; (2 / 2 - -3) / 1]).
  { unfold box_times, box_faces. cbn [vx vy vz]. rewrite (proj2 (Reqb_true 0 0) eq_refl), (proj2 (Reqb_false 1 0)) by lra. rl. cbn [andb app]. unfold nz. cbn [filter]. rewrite (proj2 (Reqb_true 0 0) eq_refl), (proj2 (Reqb_false (- (2 / 2 + -3) / 1) 0)), (proj2 (Reqb_false ((2 / 2 - -3) / 1) 0)) by lra. reflexivity. }
  rewrite box_of_times; rewrite T; [|cbn; lia]. cbn [of_times]. rewrite Rmin_left, Rmax_right by lra. f_equal. f_equal; field.
Qed.

(** The same is false for lines through an edge: the other end of the path is paired with the time 0, and if both ends are on edges the box is missed. *)
Theorem C78_box_edge_refuted :
  (forall r v dx dy dz t1 t2, 0 < dx -> 0 < dy -> 0 < dz -> v <> mkV 0 0 0 -> entry_exit (Box dx dy dz) r v t1 t2 ->
     (on_edge dx dy dz (on_line r v t1) -> ~ on_edge dx dy dz (on_line r v t2) -> t2 <> 0 -> mc_box_intersect r v dx dy dz = Some (Rmin t2 0, Rmax t2 0)) /\
     (~ on_edge dx dy dz (on_line r v t1) -> on_edge dx dy dz (on_line r v t2) -> t1 <> 0 -> mc_box_intersect r v dx dy dz = Some (Rmin t1 0, Rmax t1 0)) /\
     (on_edge dx dy dz (on_line r v t1) -> on_edge dx dy dz (on_line r v t2) -> mc_box_intersect r v dx dy dz = None)) /\
  ~ (forall r v dx dy dz t1 t2, 0 < dx -> 0 < dy -> 0 < dz -> v <> mkV 0 0 0 -> entry_exit (Box dx dy dz) r v t1 t2 -> mc_box_intersect r v dx dy dz = Some (t1, t2)).
Proof.
  assert (G : forall r v dx dy dz t1 t2, 0 < dx -> 0 < dy -> 0 < dz -> v <> mkV 0 0 0 -> entry_exit (Box dx dy dz) r v t1 t2 ->
     (on_edge dx dy dz (on_line r v t1) -> ~ on_edge dx dy dz (on_line r v t2) -> t2 <> 0 -> mc_box_intersect r v dx dy dz = Some (Rmin t2 0, Rmax t2 0)) /\
     (~ on_edge dx dy dz (on_line r v t1) -> on_edge dx dy dz (on_line r v t2) -> t1 <> 0 -> mc_box_intersect r v dx dy dz = Some (Rmin t1 0, Rmax t1 0)) /\
     (on_edge dx dy dz (on_line r v t1) -> on_edge dx dy dz (on_line r v t2) -> mc_box_intersect r v dx dy dz = None)).
  { intros r v dx dy dz t1 t2 X Y Z V (L & C & S). destruct (box_all r v dx dy dz X Y Z V) as [_ B]. assert (M : meets (Box dx dy dz) r v) by (exists ((t1 + t2) / 2); apply C; lra).
    destruct (B M) as (a & b & (L' & C' & S') & _ & H). assert (E1 : a = t1). { pose proof (proj1 (S' t1) (proj2 (S t1) ltac:(lra))). pose proof (proj1 (S a) (proj2 (S' a) ltac:(lra))). lra. }
    assert (E2 : b = t2). { pose proof (proj1 (S' t2) (proj2 (S t2) ltac:(lra))). pose proof (proj1 (S b) (proj2 (S' b) ltac:(lra))). lra. } subst a b. exact H. }
  split; [exact G|]. intros K. assert (V : mkV 1 (1 / 2) 0 <> mkV 0 0 0) by (intros E; injection E; lra).
  assert (EE : entry_exit (Box 2 2 2) (mkV (-3) (-2) 0) (mkV 1 (1 / 2) 0) 2 4).
  { unfold entry_exit. split; [lra|]. unfold core, solid, on_line. cbn. split; intros t; unfold Rabs; repeat destruct Rcase_abs; lra. }
  destruct (G (mkV (-3) (-2) 0) (mkV 1 (1 / 2) 0) 2 2 2 2 4 ltac:(lra) ltac:(lra) ltac:(lra) V EE) as [B _]. specialize (K (mkV (-3) (-2) 0) (mkV 1 (1 / 2) 0) 2 2 2 2 4 ltac:(lra) ltac:(lra) ltac:(lra) V EE). rewrite B in K; [injection K as K1 K2; rewrite Rmin_right in K1 by lra; lra| | |lra].
  - left. unfold on_line. cbn. unfold Rabs. repeat destruct Rcase_abs; lra.
  - unfold on_edge, on_line. cbn. unfold Rabs. repeat destruct Rcase_abs; lra.
Qed.
Print Assumptions C78_box_edge_refuted.

(** sphere_intersect: the times between which a moving neutron is in the ball, or nothing if it never is; for a neutron at rest it divides by zero. *)
Theorem C78_sphere : forall r v R0,
  (v <> mkV 0 0 0 ->
     (mc_sphere_intersect r v R0 = Ok None /\ forall t, ~ solid (Sphere R0) (on_line r v t)) \/
     exists t0 t1, mc_sphere_intersect r v R0 = Ok (Some (t0, t1)) /\ inside_from_to (solid (Sphere R0)) r v t0 t1) /\
  (v = mkV 0 0 0 -> mc_sphere_intersect r v R0 = Err ZeroDivisionError).
Proof. intros r v R0. split; [apply mc_sphere|]. intros ->. apply mc_sphere_rest. Qed.
Print Assumptions C78_sphere.
Example C78_sphere_ex : mc_sphere_intersect (mkV 0 0 (-3)) (mkV 0 0 1) 1 = Ok (Some (2, 4)).
Proof.
  unfold mc_sphere_intersect. cbn [vx vy vz]. replace (0 * 0 + 0 * 0 + 1 * 1) with (1 * 1) by ring. rewrite sqrt_square by lra. rl. rewrite (proj2 (Reqb_false (1 * 1) 0)) by lra.
  replace (2 * (0 * 0 + 0 * 0 + -3 * 1) * (2 * (0 * 0 + 0 * 0 + -3 * 1)) - 4 * (1 * 1) * (0 * 0 + 0 * 0 + -3 * -3 - 1 * 1)) with (2 * 2) by ring. rewrite sqrt_square by lra. do 3 f_equal; field.
Qed.

(** cylinder_intersect for a neutron that is not parallel to the axis: 0 if it never is in the cylinder, otherwise the times between which it is, and which faces it crosses. *)
Theorem C78_cylinder : forall p v r h, 0 <= h -> vx v <> 0 \/ vz v <> 0 ->
  exists o k, mc_cylinder_intersect p v r h = Ok (mkHit o k) /\
    (k = 0%Z -> forall t, ~ closed_cylinder r h (on_line p v t)) /\
    (k <> 0%Z -> exists t0 t1, o = Some (t0, t1) /\ inside_from_to (closed_cylinder r h) p v t0 t1 /\ bits_ok r h p v t0 t1 k).
Proof. exact cyl_cross. Qed.
Print Assumptions C78_cylinder.
(** In by the top, out by the bottom. *)
Example C78_cylinder_ex : mc_cylinder_intersect (mkV 0 4 (-1)) (mkV 0 (-4) 1) 1 2 = Ok (mkHit (Some (3 / 4, 5 / 4)) 19).
Proof.
  unfold mc_cylinder_intersect. cbn [vx vy vz]. rewrite (proj2 (Reqb_false (1 * 1 + 0 * 0) 0)) by lra. replace ((2 * 0 * 0 + 2 * 1 * -1) * (2 * 0 * 0 + 2 * 1 * -1) - 4 * (0 * 0 + 1 * 1) * (0 * 0 + -1 * -1 - 1 * 1)) with (2 * 2) by ring.
  rewrite sqrt_square by lra. cbv zeta. rl. cbn [andb orb]. do 4 f_equal; field.
Qed.

(** Parallel to the axis: the times are right and the value is 2, or 0 if the neutron never is in the interior; at rest in the cylinder it divides by zero. *)
Theorem C78_parallel : forall p r h, 0 <= h ->
  (forall u, u <> 0 -> let v := mkV 0 u 0 in
    (r * r <= axis_dist2 p -> mc_cylinder_intersect p v r h = Ok (mkHit None 0) /\ forall t, ~ open_cylinder r h (on_line p v t)) /\
    (axis_dist2 p < r * r -> exists t0 t1, mc_cylinder_intersect p v r h = Ok (mkHit (Some (t0, t1)) 2) /\ inside_from_to (closed_cylinder r h) p v t0 t1)) /\
  (axis_dist2 p < r * r -> mc_cylinder_intersect p (mkV 0 0 0) r h = Err ZeroDivisionError).
Proof. intros p r h H. split; [intros u U; now apply cyl_parallel|apply cyl_rest]. Qed.
Print Assumptions C78_parallel.
Example C78_parallel_ex : axis_dist2 (mkV (1 / 2) 7 0) < 1 * 1.
Proof. unfold axis_dist2. cbn. lra. Qed.

(** "The value tells which faces are crossed" is false for neutrons parallel to the axis: 2 stands for an entry by the top, and is also returned for a neutron that comes from below. *)
Theorem C78_parallel_refuted : ~ (forall p v r h t0 t1 k, 0 <= h -> v <> mkV 0 0 0 -> mc_cylinder_intersect p v r h = Ok (mkHit (Some (t0, t1)) k) -> k <> 0%Z -> bits_ok r h p v t0 t1 k).
Proof.
  intros K. assert (E : mc_cylinder_intersect (mkV 0 0 0) (mkV 0 1 0) 1 2 = Ok (mkHit (Some ((- 2 / 2 - 0) / 1, (2 / 2 - 0) / 1)) 2)).
  { unfold mc_cylinder_intersect. cbn [vx vy vz]. rewrite (proj2 (Reqb_true (0 * 0 + 0 * 0) 0)) by ring. cbv zeta. rewrite (proj2 (Rleb_false _ _)) by lra. rewrite (proj2 (Reqb_false 1 0)) by lra. rl. reflexivity. }
  apply K in E; [|lra|intros F; injection F; lra|discriminate]. destruct E as (_ & E & _). specialize (E eq_refl). unfold on_line in E. cbn in E. lra.
Qed.
Print Assumptions C78_parallel_refuted.
