(** C59 and C60: the element of a composite met first; the check for overlapping elements. *)
From Coq Require Import Reals Lra Lia.
From Verif Require Import Base RotModel RotSpec ChanModel ShapeModel ShapeSpec ShapeProofs ScatSpec HitModel HitSpec HitProofs HitProofs2 HitProofs3 HitProofs4.
Open Scope R_scope.

(** ** C59: first hit *)

(** For elements that do not overlap on the line (they may touch, one may be in a hole of another, the start may be on a surface), each of which
    is followed correctly on its own: the index is that of the element whose open body the neutron is in or comes into first, and there is none
    exactly when the neutron comes into no element. *)
Theorem C59_first_hit : forall tol shapes r v, 0 < tol -> Forall wf shapes -> Forall (fun s => followed tol s r v) shapes -> apart shapes r v ->
  (forall i, find_1st_hit tol r v shapes = Some i <-> first_met shapes r v i) /\ (find_1st_hit tol r v shapes = None <-> none_met shapes r v).
Proof. exact first_hit. Qed.
(** There is at most one such element. *)
Theorem C59_one_element : forall shapes r v i j, apart shapes r v -> first_met shapes r v i -> first_met shapes r v j -> i = j.
Proof. exact first_met_unique. Qed.

(** Boxes, cylinders and spheres, moved, turned or scaled, are followed correctly by rays that pass through the open body (of a box: not through an
    edge) or miss the body, if what lies ahead is not thin compared to the tolerance. *)
Theorem C59_plain_bodies : forall tol s r v, plain s -> positive s -> v <> mkV 0 0 0 -> thick tol s r v ->
  (forall t, ~ solid s (on_line r v t)) \/ (meets s r v /\ regular s r v) -> followed tol s r v.
Proof. exact plain_followed. Qed.
(** So is a body with a hole in it, by rays that cross the hole between the two walls. *)
Theorem C59_hollow_bodies : forall tol a b r v a1 a2 b1 b2, 0 < tol -> plain a -> plain b -> positive a -> positive b -> v <> mkV 0 0 0 ->
  regular a r v -> regular b r v -> entry_exit a r v a1 a2 -> entry_exit b r v b1 b2 -> a1 < b1 -> b2 < a2 ->
  (0 < b1 -> locate tol (Difference a b) (on_line r v ((Rmax a1 0 + b1) / 2)) = Inside) ->
  (0 < a2 -> locate tol (Difference a b) (on_line r v ((Rmax b2 0 + a2) / 2)) = Inside) ->
  followed tol (Difference a b) r v.
Proof.
  intros tol a b r v a1 a2 b1 b2 T PA PB PO PO' V RA RB EA EB L1 L2 T1 T2.
  assert (M : forall s x y, entry_exit s r v x y -> meets s r v) by (intros s x y (L & C & _); exists ((x + y) / 2); apply C; lra).
  destruct (plain_exact tol a PA PO r v V RA (M _ _ _ EA)) as (x & y & EX & IX). destruct (plain_exact tol b PB PO' r v V RB (M _ _ _ EB)) as (x' & y' & EX' & IX').
  destruct (ee_unique _ _ _ _ _ _ _ EX EA) as (-> & ->). destruct (ee_unique _ _ _ _ _ _ _ EX' EB) as (-> & ->).
  apply (hollow_followed tol a b r v a1 a2 b1 b2); auto using ShapeProofs2.positive_wf.
Qed.

(** "The element the neutron comes into first is found", for rays that meet or miss every element cleanly: false.  A beam along the axis of a container
    that is open at both ends, made as a difference of two cylinders of the same height, meets the sample in it; the code finds nothing. *)
Theorem C59_any_shapes_refuted : exists shapes r v, Forall positive shapes /\ apart shapes r v /\ first_met shapes r v 1 /\
  forall tol, 0 < tol < 1 / 8 -> find_1st_hit tol r v shapes = None.
Proof.
  exists [can; ball], beam_start, beam. split; [repeat constructor; cbn; lra|]. split; [exact can_ball_apart|]. split; [exact ball_met|]. exact opening_unseen.
Qed.

(** A tube with a sample in it and a beam across. *)
Example C59_example : let shapes := [tube; ball] in
  Forall wf shapes /\ Forall (fun s => followed (1 / 100) s across_start across) shapes /\ apart shapes across_start across /\
  first_met shapes across_start across 0 /\ find_1st_hit (1 / 100) across_start across shapes = Some 0%nat.
Proof.
  cbv zeta. assert (W : Forall wf [tube; ball]) by (repeat constructor; cbn; lra).
  assert (F : Forall (fun s => followed (1 / 100) s across_start across) [tube; ball]) by (repeat constructor; [exact tube_followed|exact ball_followed]).
  split; [exact W|]. split; [exact F|]. split; [exact tube_ball_apart|]. split; [exact tube_met|].
  apply (C59_first_hit (1 / 100) _ _ _ ltac:(lra) W F tube_ball_apart). exact tube_met.
Qed.
Example C59_example_plain : thick (1 / 100) ball across_start across /\ meets ball across_start across /\ regular ball across_start across.
Proof.
  split; [|split; [exists 10; apply ball_across; lra|exact I]].
  intros a b EE B. destruct (ee_unique _ _ _ _ _ _ _ EE ball_across) as (-> & ->). rewrite Rmax_left by lra. rewrite across_line. unfold ball. cbn [locate]. unfold locate_sphere. cbn [vx vy vz].
  rl. reflexivity.
Qed.

(** ** C60: check for overlapping elements *)

(** A report is never without ground: some point of the surface of an earlier shape is not outside of a later one, up to the tolerance (cones aside). *)
Theorem C60_reports : forall tol elements draws e, 0 < tol -> Forall (fun '(s, _, _) => positive s /\ ~ plain_cone s /\ members s) elements ->
  checkShapeOverlap tol elements draws = Err e -> e = CppException /\
  exists i j s s', (i < j)%nat /\ nth_error (map (fun '(s, _, _) => s) elements) i = Some s /\ nth_error (map (fun '(s, _, _) => s) elements) j = Some s' /\ in_contact tol s s'.
Proof.
  intros tol elements draws e T F H.
  assert (FM : Forall (fun s => positive s /\ ~ plain_cone s /\ members s) (map (fun '(s, _, _) => s) elements)) by (apply Forall_map; eapply Forall_impl; [|exact F]; intros ((s & p) & m); auto).
  assert (MM : Forall members (map (fun '(s, _, _) => s) elements)) by (eapply Forall_impl; [|exact FM]; cbn; tauto).
  destruct (check_all_err tol draws _ MM 0 e H) as (Q & j & k & s & s' & bb & N1 & N2 & L & EB & O1). split; [exact Q|]. exists j, k, s, s'. split; [exact L|]. split; [exact N1|].
  split; [exact N2|]. rewrite Forall_forall in FM. destruct (FM s (nth_error_In _ _ N1)) as (A & B & _). exact (overlap_contact tol s s' bb _ T A B O1).
Qed.
(** A pair is reported as soon as one of the rays drawn for it leaves the earlier shape at a point of the later one. *)
Theorem C60_found : forall tol elements draws i j s s' bb d t, 0 < tol -> Forall (fun '(s, _, _) => members s) elements ->
  nth_error (map (fun '(s, _, _) => s) elements) i = Some s -> nth_error (map (fun '(s, _, _) => s) elements) j = Some s' -> (i < j)%nat -> bounding_box s = Ok bb ->
  positive s -> wf s' -> In d (draws i j) -> 0 <= d_cos d <= 1 -> regular s (ray_start bb d) (ray_direction d) ->
  border s (on_line (ray_start bb d) (ray_direction d) t) -> solid s' (on_line (ray_start bb d) (ray_direction d) t) ->
  checkShapeOverlap tol elements draws = Err CppException.
Proof.
  intros tol elements draws i j s s' bb d t T F N1 N2 L EB P W I C RG B S1.
  assert (MM : Forall members (map (fun '(s, _, _) => s) elements)) by (apply Forall_map; eapply Forall_impl; [|exact F]; intros ((s0 & p) & m); auto).
  destruct (checkShapeOverlap tol elements draws) as [[]|e] eqn:E.
  - exfalso. pose proof (proj1 (check_all_ok tol draws _ MM 0) E i j s s' bb N1 N2 L EB) as K. cbn [Nat.add] in K.
    rewrite (overlap_found tol s s' bb (draws i j) d t T P W I (direction_unit d C) RG B S1) in K. discriminate.
  - f_equal. exact (proj1 (check_all_err tol draws _ MM 0 e E)).
Qed.

(** The rays drawn start in the bounding box and have directions of length one; every point of the box and every direction can be drawn. *)
Theorem C60_rays : forall bb, 0 <= bsx bb -> 0 <= bsy bb -> 0 <= bsz bb ->
  let in_box q := Rabs (vx q - bcx bb) <= bsx bb / 2 /\ Rabs (vy q - bcy bb) <= bsy bb / 2 /\ Rabs (vz q - bcz bb) <= bsz bb / 2 in
  let drawn d := 0 <= d_x d <= 1 /\ 0 <= d_y d <= 1 /\ 0 <= d_z d <= 1 /\ 0 <= d_cos d <= 1 /\ 0 <= d_phi d <= 1 in
  (forall d, drawn d -> in_box (ray_start bb d) /\ vdot (ray_direction d) (ray_direction d) = 1) /\
  (forall q e, in_box q -> vdot e e = 1 -> exists d, drawn d /\ ray_start bb d = q /\ ray_direction d = e).
Proof.
  intros bb X Y Z in_box drawn. split.
  - intros d (DX & DY & DZ & DC & DP). split; [|apply direction_length, DC]. unfold in_box, ray_start. cbn [vx vy vz].
    pose proof (between_in (d_x d) (bcx bb - bsx bb / 2) (bcx bb + bsx bb / 2) ltac:(lra) DX). pose proof (between_in (d_y d) (bcy bb - bsy bb / 2) (bcy bb + bsy bb / 2) ltac:(lra) DY). pose proof (between_in (d_z d) (bcz bb - bsz bb / 2) (bcz bb + bsz bb / 2) ltac:(lra) DZ).
    repeat split; apply Rabs_le; lra.
  - intros q e (QX & QY & QZ) E. destruct (direction_all e E) as (dc & dp & DC & DP & ED).
    assert (K : forall v c s, Rabs (v - c) <= s / 2 -> c - s / 2 <= v <= c + s / 2) by (intros v c s H; pose proof (Rle_abs (v - c)); pose proof (Rle_abs (- (v - c))); rewrite Rabs_Ropp in *; lra).
    destruct (between_all _ _ _ (K _ _ _ QX)) as (x & DX & EX). destruct (between_all _ _ _ (K _ _ _ QY)) as (y & DY & EY). destruct (between_all _ _ _ (K _ _ _ QZ)) as (z & DZ & EZ).
    exists (mkD x y z dc dp). split; [unfold drawn; cbn; tauto|]. split; [|apply ED]. unfold ray_start. cbn [d_x d_y d_z]. rewrite EX, EY, EZ. destruct q; reflexivity.
Qed.
Print Assumptions C60_rays.
Example C60_rays_case : let bb := mkBB 1 0 0 2 4 6 in 0 <= bsx bb /\ 0 <= bsy bb /\ 0 <= bsz bb /\ ray_start bb (mkD 0 (1 / 2) 1 0 0) = mkV 0 0 3.
Proof. cbn. repeat split; try lra. unfold ray_start, random_between. cbn. f_equal; lra. Qed.

(** "Overlapping elements are reported": false for an element within an earlier one, whatever the random numbers. *)
Theorem C60_contained_refuted : exists tol elements, 0 < tol /\ (exists s s' p m, elements = [(s, p, m); (s', p, m)] /\ positive s /\ positive s' /\ overlap (placed s p m) (placed s' p m)) /\
  forall draws, checkShapeOverlap tol elements draws = Ok tt.
Proof.
  exists (1 / 100), [(Sphere 2, mkV 0 0 0, I3); (Sphere 1, mkV 0 0 0, I3)]. split; [lra|]. split.
  - exists (Sphere 2), (Sphere 1), (mkV 0 0 0), I3. split; [reflexivity|]. split; [cbn; lra|]. split; [cbn; lra|].
    exists (mkV 0 0 0). unfold placed. rewrite !core_tr. unfold core. cbn. split; exists (mkV 0 0 0); (split; [cbn; lra|]); apply vec_eq; cbn; ring.
  - intros draws. unfold checkShapeOverlap. cbn. rewrite contained_unseen by lra. reflexivity.
Qed.
(** "Only overlapping elements are reported": false; the places of the elements are not looked at, two equal spheres anywhere are reported. *)
Theorem C60_places_ignored_refuted : exists s p p', (forall q, solid (placed s p I3) q -> ~ solid (placed s p' I3) q) /\
  forall tol bb draws, 0 < tol -> bounding_box s = Ok bb -> (exists d, In d (draws 0%nat 1%nat) /\ 0 <= d_cos d <= 1 /\ core s (ray_start bb d)) ->
    checkShapeOverlap tol [(s, p, I3); (s, p', I3)] draws = Err CppException.
Proof.
  exists (Sphere 1), (mkV 0 0 0), (mkV 10 0 0). split.
  - intros q. unfold placed. rewrite !solid_tr. unfold solid. cbn. intros (a & A & EA) (b & B & EB). destruct a as [a1 a2 a3], b as [b1 b2 b3], q as [q1 q2 q3].
    unfold dot_mv, vsub in EA, EB. cbn in *. injection EA as E1 E2 E3. injection EB as E4 E5 E6.
    assert (a1 = q1) by lra. assert (b1 = q1 - 10) by lra. subst. pose proof (Rle_0_sqr a2). pose proof (Rle_0_sqr a3). pose proof (Rle_0_sqr b2). pose proof (Rle_0_sqr b3). unfold Rsqr in *.
    assert (q1 <= 1) by nra. nra.
  - intros tol bb draws T EB (d & I & C & K). unfold checkShapeOverlap. cbn in EB |- *. injection EB as <-.
    rewrite (sphere_meets_own tol _ (draws 0%nat 1%nat) d T I C K). reflexivity.
Qed.
(** Nor are elements reported that overlap only where they are placed. *)
Theorem C60_overlap_where_placed_refuted : exists tol s p s' p', 0 < tol /\ positive s /\ positive s' /\ overlap (placed s p I3) (placed s' p' I3) /\
  forall draws, checkShapeOverlap tol [(s, p, I3); (s', p', I3)] draws = Ok tt.
Proof.
  exists (1 / 100), (Sphere 1), (mkV 0 0 0), (Translation (Sphere 1) (mkV 10 0 0)), (mkV (-10) 0 0). split; [lra|]. split; [cbn; lra|]. split; [cbn; lra|]. split.
  - exists (mkV 0 0 0). unfold placed. rewrite !core_tr. split.
    + unfold core. cbn. exists (mkV 0 0 0). split; [cbn; lra|]. apply vec_eq; cbn; ring.
    + unfold core at 1. cbn. exists (mkV 10 0 0). split; [exists (mkV 0 0 0); split; [cbn; lra|apply vec_eq; cbn; ring]|]. apply vec_eq; cbn; ring.
  - intros draws. unfold checkShapeOverlap. cbn. rewrite shifted_unseen by lra. reflexivity.
Qed.

(** Two spheres of radius 2 and 3, the smaller one first; a ray from the middle in direction z. *)
Example C60_example : let d := mkD (1 / 2) (1 / 2) (1 / 2) 1 0 in let bb := mkBB 0 0 0 (2 * 2) (2 * 2) (2 * 2) in
  bounding_box (Sphere 2) = Ok bb /\ 0 <= d_cos d <= 1 /\ regular (Sphere 2) (ray_start bb d) (ray_direction d) /\
  border (Sphere 2) (on_line (ray_start bb d) (ray_direction d) 2) /\ solid (Sphere 3) (on_line (ray_start bb d) (ray_direction d) 2) /\
  checkShapeOverlap (1 / 100) [(Sphere 2, mkV 0 0 0, I3); (Sphere 3, mkV 0 0 0, I3)] (fun _ _ => [d]) = Err CppException.
Proof.
  cbv zeta. set (d := mkD (1 / 2) (1 / 2) (1 / 2) 1 0). set (bb := mkBB 0 0 0 (2 * 2) (2 * 2) (2 * 2)).
  assert (P : on_line (ray_start bb d) (ray_direction d) 2 = mkV 0 0 2).
  { unfold on_line, ray_start, ray_direction, random_between, d, bb. cbn. replace (1 * (1 - -1) + -1) with 1 by ring. replace (1 - 1 * 1) with 0 by ring. rewrite sqrt_0. f_equal; field. }
  assert (B : border (Sphere 2) (on_line (ray_start bb d) (ray_direction d) 2)) by (rewrite P; unfold border, solid, core; cbn; lra).
  assert (S1 : solid (Sphere 3) (on_line (ray_start bb d) (ray_direction d) 2)) by (rewrite P; unfold solid; cbn; lra).
  split; [reflexivity|]. split; [cbn; lra|]. split; [exact I|]. split; [exact B|]. split; [exact S1|].
  apply (C60_found (1 / 100) _ _ 0 1 (Sphere 2) (Sphere 3) bb d 2); try reflexivity; try (cbn; lra); try assumption; try lia; try exact I; try (now left); repeat (constructor; try exact I).
Qed.

Print Assumptions C59_first_hit.
Print Assumptions C59_one_element.
Print Assumptions C59_plain_bodies.
Print Assumptions C59_hollow_bodies.
Print Assumptions C59_any_shapes_refuted.
Print Assumptions C60_reports.
Print Assumptions C60_found.
Print Assumptions C60_contained_refuted.
Print Assumptions C60_places_ignored_refuted.
Print Assumptions C60_overlap_where_placed_refuted.
