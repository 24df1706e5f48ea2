(** C59: a ray through the opening of a container; C60: overlap. *)
From Coq Require Import Reals Lra Lia Psatz Sorted Permutation.
From Verif Require Import UnitProofs Base RotModel RotSpec ChanModel ChanProofs ShapeModel ShapeSpec ShapeProofs ShapeProofs2 ShapeProofs3 ScatSpec HitModel HitSpec HitProofs HitProofs2 HitProofs3.
Open Scope R_scope.

(** ** A container open at both ends, with a sample in it *)

Definition can : shape := Difference (Cylinder 2 4) (Cylinder 1 4).
Definition ball : shape := Sphere (1 / 2).
Definition beam_start : vec3 := mkV 0 0 (-10).
Definition beam : vec3 := mkV 0 0 1.

Lemma rabs_cases x : (0 <= x /\ Rabs x = x) \/ (x < 0 /\ Rabs x = - x).
Proof. unfold Rabs. destruct (Rcase_abs x); [right|left]; lra. Qed.
Lemma cyl_axis tol R0 z : 0 < tol -> tol < R0 -> locate tol (Cylinder R0 4) (mkV 0 0 z) =
  if Rltb tol (Rabs z - 2) then Outside else if Rltb tol (2 - Rabs z) then Inside else Onborder.
Proof.
  intros T L. cbn [locate]. unfold locate_cylinder. cbn [vx vy vz]. replace (0 * 0 + 0 * 0) with 0 by ring. rewrite sqrt_0.
  replace (4 / 2) with 2 by field. rewrite (proj2 (Rltb_f tol (0 - R0))) by lra. rewrite (proj2 (Rltb_t tol (R0 - 0))) by lra. rewrite Bool.andb_true_r. reflexivity.
Qed.
Lemma can_axis tol z : 0 < tol < 1 -> locate tol can (mkV 0 0 z) =
  if Rltb tol (Rabs z - 2) then Outside else if Rltb tol (2 - Rabs z) then Outside else Onborder.
Proof.
  intros T. unfold can. cbn [locate]. fold (locate tol (Cylinder 2 4) (mkV 0 0 z)). change (locate_cylinder tol 2 4 (mkV 0 0 z)) with (locate tol (Cylinder 2 4) (mkV 0 0 z)).
  change (locate_cylinder tol 1 4 (mkV 0 0 z)) with (locate tol (Cylinder 1 4) (mkV 0 0 z)). rewrite !cyl_axis by lra.
  destruct (Rltb tol (Rabs z - 2)); [reflexivity|]. destruct (Rltb tol (2 - Rabs z)); reflexivity.
Qed.
Lemma ball_axis tol z : locate tol ball (mkV 0 0 z) = if Rltb tol (z * z - 1 / 4) then Outside else if Rltb tol (1 / 4 - z * z) then Inside else Onborder.
Proof. unfold ball. cbn [locate]. unfold locate_sphere. cbn [vx vy vz]. replace (0 * 0 + 0 * 0 + z * z) with (z * z) by ring. replace (1 / 2 * (1 / 2)) with (1 / 4) by field. reflexivity. Qed.
Lemma beam_at t : arrow_at beam_start beam t = mkV 0 0 (t - 10).
Proof. unfold arrow_at, beam_start, beam, vadd, vscale. cbn. f_equal; ring. Qed.

Lemma cyl_beam tol R0 : 0 < R0 -> intersect tol (Cylinder R0 4) beam_start beam = [8; 12].
Proof.
  intros P. cbn [intersect]. unfold intersect_cylinder. rewrite valid_dir by (intros E; injection E; lra).
  unfold cylinder_candidates, intersectCylinderSide, intersectCylinderTopBottom, beam_start, beam. cbn [vx vy vz].
  replace (0 * 0 + 0 * 0) with 0 by ring. replace ((0 * 0) * (0 * 0) - 0 * (0 - R0 * R0)) with 0 by ring.
  unfold Reqb. destruct (Req_EM_T 0 0) as [_|N]; [|lra]. destruct (Req_EM_T 1 0) as [N|_]; [lra|].
  replace (0 * 0 - 0 * (0 - R0 * R0)) with 0 by ring. rewrite (proj2 (Rltb_f 0 0)) by lra. cbn [app].
  replace ((4 / 2 - -10) / 1) with 12 by field. replace ((- (4 / 2) - -10) / 1) with 8 by field.
  replace ((0 + 0 * 12) * (0 + 0 * 12) + (0 + 0 * 12) * (0 + 0 * 12)) with 0 by ring. replace ((0 + 0 * 8) * (0 + 0 * 8) + (0 + 0 * 8) * (0 + 0 * 8)) with 0 by ring.
  replace (Rleb 0 (R0 * R0)) with true by (symmetry; unfold Rleb; destruct (Rle_dec 0 (R0 * R0)); [reflexivity|nra]). cbn [app].
  unfold order2. rewrite (proj2 (Rltb_f 12 8)) by lra. reflexivity.
Qed.
Lemma ball_beam tol : intersect tol ball beam_start beam = [19 / 2; 21 / 2].
Proof.
  unfold ball. cbn [intersect]. unfold intersect_sphere. rewrite valid_dir by (intros E; injection E; lra).
  unfold vdot, vcross, beam_start, beam. cbn [vx vy vz].
  replace ((0 * 0 + 0 * 0 + 1 * 1) * (1 / 2) * (1 / 2) - ((0 * 1 - -10 * 0) * (0 * 1 - -10 * 0) + (-10 * 0 - 0 * 1) * (-10 * 0 - 0 * 1) + (0 * 0 - 0 * 0) * (0 * 0 - 0 * 0))) with ((1 / 2) * (1 / 2)) by field.
  rewrite (proj2 (Rltb_f _ 0)) by lra. rewrite sqrt_square by lra. f_equal; [field|f_equal; field].
Qed.
Ltac rl := repeat match goal with |- context[Rltb ?a ?b] =>
    (rewrite (proj2 (Rltb_t a b)) by (unfold Rabs; repeat (destruct (Rcase_abs _)); lra)) ||
    (rewrite (proj2 (Rltb_f a b)) by (unfold Rabs; repeat (destruct (Rcase_abs _)); lra)) end.

Lemma can_beam tol : 0 < tol < 1 -> intersect tol can beam_start beam = [8; 8; 12; 12].
Proof.
  intros T. unfold can. cbn [intersect]. change (intersect_cylinder tol 2 4 beam_start beam) with (intersect tol (Cylinder 2 4) beam_start beam).
  change (intersect_cylinder tol 1 4 beam_start beam) with (intersect tol (Cylinder 1 4) beam_start beam). rewrite !cyl_beam by lra. fold can.
  assert (B : forall t, t = 8 \/ t = 12 -> on_border_of tol can beam_start beam t = true).
  { intros t D. unfold on_border_of. rewrite beam_at, can_axis by exact T. destruct D as [-> | ->]; rl; reflexivity. }
  unfold visit_composition. cbn [flat_map filter]. rewrite !B by auto. cbn [app]. apply perm_sorted_eq; [apply rsort_sorted|repeat constructor; lra|].
  rewrite rsort_perm. constructor. apply perm_swap.
Qed.
Lemma opening_unseen tol : 0 < tol < 1 / 8 -> find_1st_hit tol beam_start beam [can; ball] = None.
Proof.
  intros T. unfold find_1st_hit.
  assert (U : forward_intersect tol (Union [can; ball]) beam_start beam = [8; 8; 19 / 2; 21 / 2; 12; 12]).
  { unfold forward_intersect. cbn [intersect map]. rewrite can_beam by lra. rewrite ball_beam.
    assert (L : forall t, t = 8 \/ t = 12 \/ t = 19 / 2 \/ t = 21 / 2 -> on_border_of tol (Union [can; ball]) beam_start beam t = true).
    { intros t D. unfold on_border_of. rewrite beam_at. cbn [locate]. unfold union_loop. rewrite can_axis by lra. rewrite ball_axis.
      destruct D as [-> | [-> | [-> | ->]]]; rl; reflexivity. }
    unfold visit_composition. cbn [flat_map filter]. rewrite !L by auto. cbn [app].
    replace (rsort [8; 8; 12; 12; 19 / 2; 21 / 2]) with [8; 8; 19 / 2; 21 / 2; 12; 12].
    - cbn [filter]. rewrite !(proj2 (Rltb_f _ 0)) by lra. reflexivity.
    - symmetry. apply perm_sorted_eq; [apply rsort_sorted|repeat constructor; lra|]. rewrite rsort_perm. constructor. constructor.
      change [12; 12; 19 / 2; 21 / 2] with ([12; 12] ++ [19 / 2; 21 / 2]). rewrite Permutation_app_comm. reflexivity. }
  rewrite U. cbn [List.length Nat.odd Nat.even negb existsb]. rewrite beam_at. unfold find_shape_containing_point. cbn [find_from].
  assert (S1 : locate tol can beam_start = Outside) by (unfold beam_start; rewrite can_axis by lra; rl; reflexivity).
  assert (S2 : locate tol ball beam_start = Outside) by (unfold beam_start; rewrite ball_axis; rl; reflexivity).
  rewrite S1, S2. cbn [loc_eqb orb negb]. replace ((8 + 8) / 2 - 10) with (-2) by field. rewrite can_axis by lra. rewrite ball_axis. rl. reflexivity.
Qed.
Lemma beam_line t : on_line beam_start beam t = mkV 0 0 (t - 10).
Proof. rewrite <- arrow_line. apply beam_at. Qed.
Lemma can_axis_empty z : ~ core can (mkV 0 0 z).
Proof. unfold can. rewrite core_diff. intros (A & B). apply B. unfold solid, core in *. cbn in *. lra. Qed.
Lemma ball_met : first_met [can; ball] beam_start beam 1.
Proof.
  exists ball, (19 / 2), (21 / 2). split; [reflexivity|]. split; [lra|]. split.
  - intros t T. rewrite beam_line. unfold core, ball. cbn. nra.
  - intros s' t [<-|[<-|[]]] T; rewrite beam_line; [apply can_axis_empty|]. unfold core, ball. cbn. nra.
Qed.
Lemma can_ball_apart : apart [can; ball] beam_start beam.
Proof.
  intros i j s s' t N N' D C C'. destruct i as [|[|[]]], j as [|[|[]]]; cbn in N, N'; try discriminate; try lia; injection N as <-; injection N' as <-;
    rewrite beam_line in *; eapply can_axis_empty; eassumption.
Qed.

(** A hollow cylinder as HollowCylinder.py makes it, a sample in it, a beam across. *)
Definition tube : shape := Difference (Cylinder 2 4) (Cylinder 1 8).
Definition across_start : vec3 := mkV (-10) 0 0.
Definition across : vec3 := mkV 1 0 0.
Lemma across_line t : on_line across_start across t = mkV (t - 10) 0 0.
Proof. unfold on_line, across_start, across. cbn. f_equal; ring. Qed.
Lemma across_nz : across <> mkV 0 0 0.
Proof. intros E. injection E. lra. Qed.
Lemma cyl_across R0 h : 0 < R0 -> 0 < h -> entry_exit (Cylinder R0 h) across_start across (10 - R0) (10 + R0).
Proof.
  intros P Q. split; [lra|]. split; intros t; rewrite across_line; unfold core, solid; cbn; rewrite Rabs_R0; replace (0 * 0) with 0 by ring; rewrite Rplus_0_r.
  - split; [intros (A & _); apply sq_lt_range in A; lra|]. intros A. split; [apply sq_lt_range; lra|lra].
  - split; [intros (A & _); apply sq_le_range in A; lra|]. intros A. split; [apply sq_le_range; lra|lra].
Qed.
Lemma ball_across : entry_exit ball across_start across (19 / 2) (21 / 2).
Proof.
  split; [lra|]. split; intros t; rewrite across_line; unfold core, solid, ball; cbn; replace (0 * 0) with 0 by ring; rewrite !Rplus_0_r.
  - split; [intros A; apply sq_lt_range in A; lra|]. intros A. apply sq_lt_range; lra.
  - split; [intros A; apply sq_le_range in A; lra|]. intros A. apply sq_le_range; lra.
Qed.
Lemma ee_unique s r v a b a' b' : entry_exit s r v a b -> entry_exit s r v a' b' -> a = a' /\ b = b'.
Proof.
  intros (L & _ & S1) (L' & _ & S2).
  assert (A : a' <= a <= b') by (apply S2, S1; lra). assert (B : a' <= b <= b') by (apply S2, S1; lra).
  assert (A' : a <= a' <= b) by (apply S1, S2; lra). assert (B' : a <= b' <= b) by (apply S1, S2; lra). lra.
Qed.
Lemma cyl_x tol R0 h x : 0 < tol -> tol < h / 2 -> locate tol (Cylinder R0 h) (mkV x 0 0) =
  if Rltb tol (Rabs x - R0) then Outside else if Rltb tol (R0 - Rabs x) then Inside else Onborder.
Proof.
  intros T L. cbn [locate]. unfold locate_cylinder. cbn [vx vy vz]. replace (x * x + 0 * 0) with (Rsqr x) by (unfold Rsqr; ring). rewrite sqrt_Rsqr_abs, Rabs_R0.
  rewrite (proj2 (Rltb_f tol (0 - h / 2))) by lra. rewrite (proj2 (Rltb_t tol (h / 2 - 0))) by lra. reflexivity.
Qed.
Lemma tube_followed : followed (1 / 100) tube across_start across.
Proof.
  assert (M : forall R0 h, 0 < R0 -> 0 < h -> meets (Cylinder R0 h) across_start across) by (intros R0 h P Q; exists 10; apply (cyl_across R0 h P Q); lra).
  assert (X : forall R0 h, 0 < R0 -> 0 < h -> intersect (1 / 100) (Cylinder R0 h) across_start across = [10 - R0; 10 + R0]).
  { intros R0 h P Q. destruct (cyl_exact (1 / 100) R0 h across_start across across_nz (M R0 h P Q)) as (a & b & EE & E).
    destruct (ee_unique _ _ _ _ _ _ _ EE (cyl_across R0 h P Q)) as (-> & ->). exact E. }
  apply (hollow_followed (1 / 100) (Cylinder 2 4) (Cylinder 1 8) across_start across (10 - 2) (10 + 2) (10 - 1) (10 + 1));
    try (cbn; lra); try (apply cyl_across; lra); try (apply X; lra); intros _; rewrite across_line; cbn [locate];
    match goal with |- context[mkV ?x 0 0] => change (locate_cylinder (1 / 100) 2 4 (mkV x 0 0)) with (locate (1 / 100) (Cylinder 2 4) (mkV x 0 0));
      change (locate_cylinder (1 / 100) 1 8 (mkV x 0 0)) with (locate (1 / 100) (Cylinder 1 8) (mkV x 0 0)) end;
    rewrite Rmax_left by lra; rewrite !cyl_x by lra; rl; reflexivity.
Qed.
Lemma ball_followed : followed (1 / 100) ball across_start across.
Proof.
  apply plain_followed; [exact I|cbn; lra|exact across_nz| |right; split; [exists 10; apply ball_across; lra|exact I]].
  intros a b EE B. destruct (ee_unique _ _ _ _ _ _ _ EE ball_across) as (-> & ->). rewrite Rmax_left by lra. rewrite across_line. unfold ball. cbn [locate]. unfold locate_sphere. cbn [vx vy vz].
  rl. reflexivity.
Qed.
Lemma tube_ball_apart : apart [tube; ball] across_start across.
Proof.
  assert (K : forall t, core tube (on_line across_start across t) -> core ball (on_line across_start across t) -> False).
  { intros t. unfold tube. rewrite core_diff. intros (_ & N) B. apply ball_across in B. apply N. apply (cyl_across 1 8); lra. }
  intros i j s s' t N N' D C C'. destruct i as [|[|[]]], j as [|[|[]]]; cbn in N, N'; try discriminate; try lia; injection N as <-; injection N' as <-; eauto.
Qed.
Lemma tube_met : first_met [tube; ball] across_start across 0.
Proof.
  exists tube, 8, 9. split; [reflexivity|]. split; [lra|]. split.
  - intros t T. unfold tube. rewrite core_diff. split; [apply (cyl_across 2 4); lra|]. intros S1. apply (cyl_across 1 8) in S1; lra.
  - intros s' t [<-|[<-|[]]] T C; [unfold tube in C; rewrite core_diff in C; destruct C as (C & _); apply (cyl_across 2 4) in C; lra|apply ball_across in C; lra].
Qed.

(** ** Overlap *)

Lemma overlap_contact tol s s' bb draws : 0 < tol -> positive s -> ~ plain_cone s -> hasOverlap tol s s' bb draws = true -> in_contact tol s s'.
Proof.
  intros T P C H. unfold hasOverlap in H. apply existsb_exists in H. destruct H as (d & _ & H). cbv zeta in H. apply existsb_exists in H. destruct H as (t & I & H).
  rewrite arrow_line in H. exists (on_line (ray_start bb d) (ray_direction d) t). split; [now apply intersect_onborder|]. intros E. now rewrite E in H.
Qed.
Lemma overlap_found tol s s' bb draws d t : 0 < tol -> positive s -> wf s' -> In d draws -> ray_direction d <> mkV 0 0 0 ->
  regular s (ray_start bb d) (ray_direction d) -> border s (on_line (ray_start bb d) (ray_direction d) t) -> solid s' (on_line (ray_start bb d) (ray_direction d) t) ->
  hasOverlap tol s s' bb draws = true.
Proof.
  intros T P W I V RG B S1. unfold hasOverlap. apply existsb_exists. exists d. split; [exact I|]. cbv zeta. apply existsb_exists. exists t.
  split; [now apply intersect_complete|]. rewrite arrow_line. destruct (locate_right tol s' (on_line (ray_start bb d) (ray_direction d) t) W T) as (_ & L & _).
  destruct (locate tol s' _); [reflexivity|reflexivity|]. exfalso. destruct (L eq_refl) as (N & _). contradiction.
Qed.
Lemma check_from_ok tol s bb draws : forall others j, check_from tol s bb others draws j = Ok tt <->
  forall k s', nth_error others k = Some s' -> hasOverlap tol s s' bb (draws (j + k)%nat) = false.
Proof.
  induction others as [|s0 others IH]; intros j; cbn.
  - split; [intros _ k s' N; now destruct k|reflexivity].
  - destruct (hasOverlap tol s s0 bb (draws j)) eqn:E.
    + split; [discriminate|]. intros H. specialize (H 0%nat s0 eq_refl). rewrite Nat.add_0_r in H. congruence.
    + rewrite IH. split.
      * intros H [|k] s' N; cbn in N; [injection N as <-; now rewrite Nat.add_0_r|]. rewrite <- Nat.add_succ_comm. now apply H.
      * intros H k s' N. rewrite Nat.add_succ_comm. now apply (H (S k)).
Qed.
Lemma check_from_err tol s bb draws others : forall j e, check_from tol s bb others draws j = Err e -> e = CppException.
Proof. induction others as [|s0 others IH]; intros j e; cbn; [discriminate|]. destruct (hasOverlap _ _ _ _ _); [now injection 1|apply IH]. Qed.
Lemma check_all_ok tol draws shapes : Forall members shapes -> forall i, check_all tol shapes draws i = Ok tt <->
  forall j k s s' bb, nth_error shapes j = Some s -> nth_error shapes k = Some s' -> (j < k)%nat -> bounding_box s = Ok bb ->
    hasOverlap tol s s' bb (draws (i + j)%nat (i + k)%nat) = false.
Proof.
  induction 1 as [|s shapes M F IH]; intros i; cbn.
  - split; [intros _ j k s s' bb N; now destruct j|reflexivity].
  - apply box_members in M. destruct M as (bb & E). rewrite E. cbn [bind]. destruct (check_from tol s bb shapes (draws i) (S i)) as [[]|e] eqn:CF; cbn [bind].
    + rewrite IH. pose proof (proj1 (check_from_ok tol s bb (draws i) shapes (S i)) CF) as C. split.
      * intros H [|j] [|k] s1 s2 bb' N1 N2 L EB; cbn in N1, N2; try lia.
        -- injection N1 as <-. rewrite E in EB. injection EB as <-. rewrite Nat.add_0_r. rewrite <- Nat.add_succ_comm. now apply C.
        -- rewrite <- !Nat.add_succ_comm. apply (H j k); auto with arith.
      * intros H j k s1 s2 bb' N1 N2 L EB. rewrite !Nat.add_succ_comm. apply (H (S j) (S k)); auto with arith.
    + split; [discriminate|]. intros H. exfalso. assert (check_from tol s bb shapes (draws i) (S i) = Ok tt); [|congruence].
      apply check_from_ok. intros k s' N. rewrite Nat.add_succ_comm. replace i with (i + 0)%nat at 1 by lia. apply (H 0%nat (S k)); auto with arith.
Qed.
Lemma check_all_err tol draws shapes : Forall members shapes -> forall i e, check_all tol shapes draws i = Err e -> e = CppException /\
  exists j k s s' bb, nth_error shapes j = Some s /\ nth_error shapes k = Some s' /\ (j < k)%nat /\ bounding_box s = Ok bb /\ hasOverlap tol s s' bb (draws (i + j)%nat (i + k)%nat) = true.
Proof.
  induction 1 as [|s shapes M F IH]; intros i e; cbn; [discriminate|].
  apply box_members in M. destruct M as (bb & E). rewrite E. cbn [bind]. destruct (check_from tol s bb shapes (draws i) (S i)) as [[]|e'] eqn:CF; cbn [bind].
  - intros H. destruct (IH (S i) e H) as (Q & j & k & s1 & s2 & bb' & N1 & N2 & L & EB & O1). split; [exact Q|].
    exists (S j), (S k), s1, s2, bb'. rewrite !Nat.add_succ_comm in O1. repeat split; auto with arith.
  - intros H. injection H as <-. split; [exact (check_from_err _ _ _ _ _ _ _ CF)|].
    assert (X : exists k s', nth_error shapes k = Some s' /\ hasOverlap tol s s' bb (draws i (S i + k)%nat) = true).
    { clear - CF. revert CF. generalize (S i) as j. induction shapes as [|s0 shapes IH]; intros j; cbn; [discriminate|].
      destruct (hasOverlap tol s s0 bb (draws i j)) eqn:EQ.
      - intros _. exists 0%nat, s0. rewrite Nat.add_0_r. auto.
      - intros H. destruct (IH (S j) H) as (k & s' & N & O1). exists (S k), s'. split; [exact N|]. now rewrite <- Nat.add_succ_comm. }
    destruct X as (k & s' & N & O1). exists 0%nat, (S k), s, s', bb. rewrite Nat.add_0_r. rewrite <- Nat.add_succ_comm. repeat split; auto with arith.
Qed.

Lemma direction_unit d : 0 <= d_cos d <= 1 -> ray_direction d <> mkV 0 0 0.
Proof.
  intros H E. unfold ray_direction in E. injection E as E1 E2 E3. rewrite E3 in E1, E2. replace (1 - 0 * 0) with 1 in * by ring. rewrite sqrt_1 in *.
  pose proof (sin2_cos2 (random_between (d_phi d) 0 (2 * PI))) as SC. unfold Rsqr in SC. nra.
Qed.

(** contained bodies, positions *)
Lemma contained_unseen tol bb draws : 0 < tol < 1 -> hasOverlap tol (Sphere 2) (Sphere 1) bb draws = false.
Proof.
  intros T. destruct (hasOverlap tol (Sphere 2) (Sphere 1) bb draws) eqn:E; [|reflexivity]. exfalso.
  destruct (overlap_contact tol (Sphere 2) (Sphere 1) bb draws ltac:(lra) ltac:(cbn; lra) (fun x => x) E) as (p & A & B). apply B. clear - T A.
  cbn [locate] in *. unfold locate_sphere in *. set (q := vx p * vx p + vy p * vy p + vz p * vz p) in *.
  destruct (Rltb tol (q - 2 * 2)) eqn:E1; [discriminate|]. destruct (Rltb tol (2 * 2 - q)) eqn:E2; [discriminate|]. apply Rltb_f in E1, E2.
  rewrite (proj2 (Rltb_t tol (q - 1 * 1))) by lra. reflexivity.
Qed.
Lemma sphere_meets_own tol bb draws d : 0 < tol -> In d draws -> 0 <= d_cos d <= 1 -> core (Sphere 1) (ray_start bb d) -> hasOverlap tol (Sphere 1) (Sphere 1) bb draws = true.
Proof.
  intros T I C K. pose proof (direction_unit d C) as V.
  destruct (sphere_exact 1 (ray_start bb d) (ray_direction d) V) as (t1 & t2 & (L & CC & SS) & _).
  { exists 0. replace (on_line (ray_start bb d) (ray_direction d) 0) with (ray_start bb d); [exact K|]. unfold on_line. destruct (ray_start bb d); cbn. f_equal; ring. }
  assert (B : border (Sphere 1) (on_line (ray_start bb d) (ray_direction d) t1)) by (split; [apply SS; lra|rewrite CC; lra]).
  apply (overlap_found tol _ _ bb draws d t1); auto; try (cbn; lra). exact (proj1 B).
Qed.
Lemma shifted_unseen tol bb draws : 0 < tol < 1 -> hasOverlap tol (Sphere 1) (Translation (Sphere 1) (mkV 10 0 0)) bb draws = false.
Proof.
  intros T. destruct (hasOverlap tol (Sphere 1) _ bb draws) eqn:E; [|reflexivity]. exfalso.
  destruct (overlap_contact tol (Sphere 1) _ bb draws ltac:(lra) ltac:(cbn; lra) (fun x => x) E) as (p & A & B). apply B. clear - T A.
  cbn [locate] in *. unfold locate_sphere in *. cbn [vsub vx vy vz].
  destruct (Rltb tol (vx p * vx p + vy p * vy p + vz p * vz p - 1 * 1)) eqn:E1; [discriminate|]. apply Rltb_f in E1.
  rewrite (proj2 (Rltb_t tol _)); [reflexivity|]. pose proof (Rle_0_sqr (vy p)). pose proof (Rle_0_sqr (vz p)). unfold Rsqr in *. assert (vx p * vx p <= 2) by lra. assert (vx p <= 2) by nra. nra.
Qed.

(** the rays: every start in the box and every direction *)
Lemma between_in u a b : a <= b -> 0 <= u <= 1 -> a <= random_between u a b <= b.
Proof. intros. unfold random_between. nra. Qed.
Lemma between_all x a b : a <= x <= b -> exists u, 0 <= u <= 1 /\ random_between u a b = x.
Proof.
  intros H. destruct (Req_dec a b) as [E|N]; [exists 0; unfold random_between; split; lra|]. assert (D : 0 < b - a) by lra. exists ((x - a) / (b - a)). unfold random_between. split; [|field; lra].
  split; [apply Rmult_le_pos; [lra|left; apply Rinv_0_lt_compat, D]|]. apply (Rmult_le_reg_r (b - a)); [exact D|]. unfold Rdiv. rewrite Rmult_assoc, Rinv_l by lra. lra.
Qed.
Lemma direction_length d : 0 <= d_cos d <= 1 -> vdot (ray_direction d) (ray_direction d) = 1.
Proof.
  intros H. unfold ray_direction, vdot. cbn [vx vy vz]. set (c := random_between (d_cos d) (-1) 1). assert (C : -1 <= c <= 1) by (apply between_in; lra).
  set (p := random_between (d_phi d) 0 (2 * PI)). assert (S : sqrt (1 - c * c) * sqrt (1 - c * c) = 1 - c * c) by (apply sqrt_def; nra). pose proof (sin2_cos2 p) as SC. unfold Rsqr in SC.
  transitivity (sqrt (1 - c * c) * sqrt (1 - c * c) * (sin p * sin p + cos p * cos p) + c * c); [ring|]. rewrite S, SC. ring.
Qed.
Lemma direction_all e : vdot e e = 1 -> exists dc dp, 0 <= dc <= 1 /\ 0 <= dp <= 1 /\ forall x y z, ray_direction (mkD x y z dc dp) = e.
Proof.
  destruct e as [a b c]. unfold vdot. cbn [vx vy vz]. intros E. pose proof PI_RGT_0 as PI0.
  destruct (between_all c (-1) 1) as (dc & DC & EC); [split; nra|].
  assert (R : sqrt (1 - c * c) = sqrt (a * a + b * b)) by (f_equal; lra).
  assert (P : exists p, 0 <= p <= 2 * PI /\ sqrt (a * a + b * b) * cos p = a /\ sqrt (a * a + b * b) * sin p = b).
  { destruct (Req_dec a 0) as [A|A]; [destruct (Req_dec b 0) as [B|B]|].
    - exists 0. subst. replace (0 * 0 + 0 * 0) with 0 by ring. rewrite sqrt_0. split; [lra|]. split; ring.
    - destruct (arctan2_range b a (or_intror B)) as (T & TB & TA). destruct (Rle_lt_dec 0 (UnitModel.arctan2 b a)); [exists (UnitModel.arctan2 b a); split; [cbv zeta in T; destruct T; split; lra|]; split; congruence|].
      exists (UnitModel.arctan2 b a + 2 * PI). rewrite cos_plus, sin_plus, cos_2PI, sin_2PI, !Rmult_1_r, !Rmult_0_r, Rminus_0_r, Rplus_0_r. split; [lra|]. split; congruence.
    - destruct (arctan2_range b a (or_introl A)) as (T & TB & TA). destruct (Rle_lt_dec 0 (UnitModel.arctan2 b a)); [exists (UnitModel.arctan2 b a); split; [cbv zeta in T; destruct T; split; lra|]; split; congruence|].
      exists (UnitModel.arctan2 b a + 2 * PI). rewrite cos_plus, sin_plus, cos_2PI, sin_2PI, !Rmult_1_r, !Rmult_0_r, Rminus_0_r, Rplus_0_r. split; [lra|]. split; congruence. }
  destruct P as (p & PP & CA & SB). destruct (between_all p 0 (2 * PI) PP) as (dp & DP & EP). exists dc, dp. split; [exact DC|]. split; [exact DP|]. intros x y z.
  unfold ray_direction. cbn [d_cos d_phi]. rewrite EC, EP, R, CA, SB. reflexivity.
Qed.
