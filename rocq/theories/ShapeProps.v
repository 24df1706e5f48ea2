(** C34, C35 and C36: composite shapes of mccomposite. *)
From Coq Require Import Reals Lra Psatz Sorted.
From Verif Require Import Base RotModel RotSpec ChanModel ChanProofs ShapeModel ShapeSpec ShapeProofs ShapeProofs2 ShapeProofs3.
Open Scope R_scope.

(** ** C34: where is a point *)

(** With any positive tolerance an answer "inside" or "outside" is right, also for all points close to the one asked about, and every point of the
    surface is located on the border. *)
Theorem C34_answers_right : forall tol s p, wf s -> 0 < tol ->
  (locate tol s p = Inside -> core s p /\ exists e, 0 < e /\ forall q, near e p q -> core s q) /\
  (locate tol s p = Outside -> ~ solid s p /\ exists e, 0 < e /\ forall q, near e p q -> ~ solid s q) /\
  (border s p -> locate tol s p = Onborder).
Proof. exact locate_right. Qed.

(** For each shape and point the three answers are exact as soon as the tolerance is small enough. *)
Theorem C34_exact_for_small_tolerance : forall s p, wf s ->
  exists e, 0 < e /\ forall tol, 0 < tol < e ->
    (locate tol s p = Inside <-> core s p) /\ (locate tol s p = Outside <-> ~ solid s p) /\ (locate tol s p = Onborder <-> border s p).
Proof. exact locate_limit. Qed.

(** A cube with a spherical hole around (1,0,0), moved by (0,0,5). *)
Definition pierced : shape := Translation (Difference (Box 4 4 4) (Translation (Sphere 1) (mkV 1 0 0))) (mkV 0 0 5).
Example C34_example : wf pierced /\ core pierced (mkV (-1) 0 5) /\ ~ solid pierced (mkV 1 0 5) /\ border pierced (mkV 0 0 5) /\
  ~ solid pierced (mkV 0 0 0) /\ border pierced (mkV 2 1 5).
Proof.
  unfold pierced, border. rewrite !core_tr, !solid_tr, !core_diff, !solid_diff, !core_tr, !solid_tr. cbn.
  repeat split; try lra; try (intros K; destruct K; unfold Rabs in *; repeat (destruct (Rcase_abs _) in *); lra);
    try (unfold Rabs; destruct (Rcase_abs _); lra); try (intros K; lra).
Qed.
Example C34_example_computed : forall tol, 0 < tol < 1 / 10 -> locate tol pierced (mkV (-1) 0 5) = Inside /\ locate tol pierced (mkV 1 0 5) = Outside.
Proof.
  intros tol Ht. unfold pierced. cbn [locate]. unfold locate_box, locate_sphere, vsub. cbn [vx vy vz].
  replace (5 - 5) with 0 by ring. replace (0 - 0) with 0 by ring. replace (1 - 1) with 0 by ring. rewrite !Rabs_R0.
  repeat match goal with |- context[Rltb ?a ?b] =>
    (replace (Rltb a b) with true by (symmetry; apply Rltb_t; unfold Rabs; repeat (destruct (Rcase_abs _)); lra)) ||
    (replace (Rltb a b) with false by (symmetry; apply Rltb_f; unfold Rabs; repeat (destruct (Rcase_abs _)); lra)) end.
  cbn. split; reflexivity.
Qed.

(** ** C35: where does a ray cross a shape *)

(** The times come in increasing order, for every shape and ray. *)
Theorem C35_sorted : forall tol s r v, StronglySorted Rle (intersect tol s r v).
Proof. exact intersect_sorted_all. Qed.

(** Every reported time is that of a point located on the border; shapes that are just a cone are excluded here. *)
Theorem C35_reported_on_border : forall tol s, 0 < tol -> positive s -> ~ plain_cone s ->
  forall r v t, In t (intersect tol s r v) -> locate tol s (on_line r v t) = Onborder.
Proof. exact intersect_onborder. Qed.

(** A cone: the point is on the infinite double cone between the base and the apex, give or take a tenth of the tolerance, or in the base disc. *)
Theorem C35_cone_reported : forall tol R0 h r v t, 0 < tol -> 0 < R0 -> 0 < h -> steep tol R0 h v ->
  In t (intersect tol (Cone R0 h) r v) ->
  let p := on_line r v t in
  (h * h * (vx p * vx p + vy p * vy p) = R0 * R0 * (vz p * vz p) /\ - h - tol / 10 <= vz p < tol / 10) \/
  (vz p = - h /\ vx p * vx p + vy p * vy p < R0 * R0).
Proof. exact cone_sound. Qed.

(** No crossing is missed by rays that are [regular] for all parts of the shape. *)
Theorem C35_none_missed : forall tol s, 0 < tol -> positive s -> forall r v, v <> mkV 0 0 0 -> regular s r v ->
  forall t, border s (on_line r v t) -> In t (intersect tol s r v).
Proof. exact intersect_complete. Qed.

(** Spheres: exactly the times at the surface. *)
Theorem C35_sphere : forall tol R0 r v t, v <> mkV 0 0 0 -> In t (intersect tol (Sphere R0) r v) <-> border (Sphere R0) (on_line r v t).
Proof. intros tol R0 r v t V. exact (sphere_in R0 r v t V). Qed.

(** Cylinders: the entry and the exit when the ray goes through the open body. *)
Theorem C35_cylinder : forall tol R0 h r v, v <> mkV 0 0 0 -> meets (Cylinder R0 h) r v ->
  exists t1 t2, entry_exit (Cylinder R0 h) r v t1 t2 /\ intersect tol (Cylinder R0 h) r v = [t1; t2].
Proof. intros tol R0 h r v V M. exact (cyl_exact tol R0 h r v V M). Qed.

(** Boxes: nothing for a ray that misses the open body; entry and exit for a ray through it, unless one of the two is on an edge: then nothing. *)
Theorem C35_box : forall tol X Y Z r v, 0 < X -> 0 < Y -> 0 < Z -> v <> mkV 0 0 0 ->
  (~ meets (Box X Y Z) r v -> intersect tol (Box X Y Z) r v = []) /\
  (meets (Box X Y Z) r v -> exists t1 t2, entry_exit (Box X Y Z) r v t1 t2 /\
     (on_edge X Y Z (on_line r v t1) \/ on_edge X Y Z (on_line r v t2) -> intersect tol (Box X Y Z) r v = []) /\
     (~ on_edge X Y Z (on_line r v t1) -> ~ on_edge X Y Z (on_line r v t2) -> intersect tol (Box X Y Z) r v = [t1; t2])).
Proof. intros tol. exact box_exact. Qed.

(** "A ray through the body is reported": false; a ray inside a box from time 2 to time 4 that goes through an edge is not seen. *)
Theorem C35_rays_through_seen_refuted : exists s r v, positive s /\ entry_exit s r v 2 4 /\ forall tol, intersect tol s r v = [].
Proof.
  exists (Box 2 2 2), (mkV (-3) (-3) 0), (mkV 1 1 0). split; [cbn; lra|]. exact box_edge_missed.
Qed.
(** "Reported times are on the border": false for a flat cone; a ray above the apex, whose points are all off the body, is reported with two times
    the second of which is even located outside. *)
Theorem C35_cone_on_border_refuted : exists s, positive s /\ forall tol, 0 < tol < 1 / 100000 -> exists r v t,
  (forall t', ~ solid s (on_line r v t')) /\ In t (intersect tol s r v) /\ locate tol s (on_line r v t) = Outside.
Proof.
  exists (Cone 100 1). split; [cbn; lra|]. intros tol Ht. destruct (cone_apex tol Ht) as (A & B & C).
  exists (mkV 0 0 (tol / 20)), (mkV 1 0 0), (5 * tol). split; [exact A|]. split; [rewrite B; cbn; auto|exact C].
Qed.

Example C35_example : let s := Difference (Sphere 2) (Translation (Sphere 1) (mkV 1 0 0)) in let r := mkV (-3) 0 0 in let v := mkV 1 0 0 in
  positive s /\ ~ plain_cone s /\ regular s r v /\ border s (on_line r v 1) /\ border s (on_line r v 3) /\ v <> mkV 0 0 0.
Proof.
  cbv zeta. unfold border. rewrite !core_diff, !solid_diff, !core_tr, !solid_tr. cbn.
  repeat split; try lra; try (intros K; injection K; lra); auto.
Qed.
Example C35_example_cylinder : let s := Cylinder 1 2 in let r := mkV (-3) 0 (1 / 2) in let v := mkV 1 0 0 in meets s r v.
Proof. exists 3. cbn. split; [lra|]. unfold Rabs; destruct (Rcase_abs _); lra. Qed.
Example C35_example_cone : steep (1 / 1000) 1 1 (mkV 1 0 0).
Proof. unfold steep, norm2, sdot. cbn. unfold Rabs; destruct (Rcase_abs _); lra. Qed.

(** ** C36: bounding boxes *)

(** The visitor answers exactly for shapes none of whose visited operations is over an empty list; otherwise the assertion fails. *)
Theorem C36_when_defined : forall s, members s <-> exists bb, bounding_box s = Ok bb.
Proof. exact box_members. Qed.

(** Without rotations and with positive scales, the box holds every point of the shape. *)
Theorem C36_contains : forall s, wf s -> boxable s -> exists bb, bounding_box s = Ok bb /\ forall p, solid s p -> within bb p.
Proof. exact box_contains. Qed.

(** If moreover nothing is cut away, it is the smallest such box. *)
Theorem C36_smallest : forall s bb bb', wf s -> boxable s -> uncut s -> bounding_box s = Ok bb ->
  (forall p, solid s p -> within bb' p) -> forall p, within bb p -> within bb' p.
Proof. exact box_smallest. Qed.

(** A rotation: the points are within the box enlarged by sqrt 3. *)
Theorem C36_rotated : forall s m, wf s -> boxable s -> orthogonal m ->
  exists bb, bounding_box (Rotation s m) = Ok bb /\ forall p, solid (Rotation s m) p ->
    within (mkBB (bcx bb) (bcy bb) (bcz bb) (sqrt 3 * bsx bb) (sqrt 3 * bsy bb) (sqrt 3 * bsz bb)) p.
Proof. exact box_rotated_all. Qed.

(** "The box holds the shape": false for a cube turned by 45 degrees, and for negative scales, where it is empty. *)
Theorem C36_rotated_contained_refuted : exists s p bb, wf s /\ solid s p /\ bounding_box s = Ok bb /\ ~ within bb p.
Proof.
  destruct box_rotated_out as (A & B & bb & C & D). exists (Rotation (Box 1 1 1) turn45), (mkV 0 (/ sqrt 2) 0), bb. auto.
Qed.
Theorem C36_negative_scale_refuted : exists s p bb, wf s /\ core s p /\ bounding_box s = Ok bb /\ forall q, ~ within bb q.
Proof.
  destruct dilation_out as (A & B & bb & C & D). exists (Dilation (Box 1 1 1) (-2)), (mkV 0 0 0), bb. auto.
Qed.
Example C36_example : let s := Union [Box 2 2 2; Translation (Dilation (Cylinder 1 2) 3) (mkV 10 0 0)] in
  wf s /\ boxable s /\ uncut s /\ exists bb, bounding_box s = Ok bb /\ bcx bb = 6 /\ bsx bb = 14 /\ bsy bb = 6.
Proof.
  cbv zeta. split; [cbn; lra|]. split; [cbn; repeat split; try discriminate; try lra|]. split; [cbn; auto|].
  eexists. split; [reflexivity|]. unfold Rmin, Rmax. cbn. unfold Rmin, Rmax.
  repeat (destruct (Rle_dec _ _); try lra).
Qed.

Print Assumptions C34_answers_right.
Print Assumptions C34_exact_for_small_tolerance.
Print Assumptions C35_sorted.
Print Assumptions C35_reported_on_border.
Print Assumptions C35_cone_reported.
Print Assumptions C35_none_missed.
Print Assumptions C35_sphere.
Print Assumptions C35_cylinder.
Print Assumptions C35_box.
Print Assumptions C35_rays_through_seen_refuted.
Print Assumptions C35_cone_on_border_refuted.
Print Assumptions C36_when_defined.
Print Assumptions C36_contains.
Print Assumptions C36_smallest.
Print Assumptions C36_rotated.
Print Assumptions C36_rotated_contained_refuted.
Print Assumptions C36_negative_scale_refuted.
