(** Proofs about ArrowIntersector (C35). *)
From Coq Require Import Reals Lra Psatz Sorting.Sorted Sorting.Permutation.
From Verif Require Import Base RotModel RotSpec RotProofs ChanModel ChanProofs ShapeModel ShapeSpec ShapeProofs.
Open Scope R_scope.

Lemma Reqb_true a b : Reqb a b = true <-> a = b.
Proof. unfold Reqb. destruct (Req_EM_T a b); split; intros; try discriminate; auto; contradiction. Qed.
Lemma Reqb_false a b : Reqb a b = false <-> a <> b.
Proof. unfold Reqb. destruct (Req_EM_T a b); split; intros; try discriminate; auto; contradiction. Qed.
Lemma invalid_iff v : isInvalidDirection v = true <-> v = mkV 0 0 0.
Proof.
  unfold isInvalidDirection. rewrite !Bool.andb_true_iff, !Reqb_true. destruct v. cbn. split.
  - intros [[-> ->] ->]. reflexivity.
  - intros E. injection E; auto.
Qed.
Lemma valid_dir v : v <> mkV 0 0 0 -> isInvalidDirection v = false.
Proof. intros H. destruct (isInvalidDirection v) eqn:E; [|reflexivity]. apply invalid_iff in E. contradiction. Qed.
Lemma dir_axis v : v <> mkV 0 0 0 -> vx v <> 0 \/ vy v <> 0 \/ vz v <> 0.
Proof.
  intros H. destruct (Req_EM_T (vx v) 0) as [A|A]; [|now left]. destruct (Req_EM_T (vy v) 0) as [B|B]; [|right; now left].
  destruct (Req_EM_T (vz v) 0) as [C|C]; [|right; now right]. exfalso. apply H. destruct v. cbn in *. now subst.
Qed.

(** ** sorting *)
Lemma rinsert_perm x l : Permutation (rinsert x l) (x :: l).
Proof. induction l as [|y l IH]; cbn; [reflexivity|]. destruct (Rleb x y); [reflexivity|]. rewrite IH. apply perm_swap. Qed.
Lemma rsort_perm l : Permutation (rsort l) l.
Proof. induction l as [|x l IH]; cbn; [reflexivity|]. rewrite rinsert_perm. now constructor. Qed.
Lemma rinsert_sorted x l : StronglySorted Rle l -> StronglySorted Rle (rinsert x l).
Proof.
  induction 1 as [|y l S IH F]; cbn; [repeat constructor|]. destruct (Rleb x y) eqn:E.
  - apply Rleb_true in E. constructor; [now constructor|]. constructor; [exact E|]. eapply Forall_impl; [|exact F]. intros z Hz. cbn in Hz. lra.
  - apply Rleb_false in E. constructor; [exact IH|]. rewrite rinsert_perm. constructor; [lra|exact F].
Qed.
Lemma rsort_sorted l : StronglySorted Rle (rsort l).
Proof. induction l; cbn; [constructor|now apply rinsert_sorted]. Qed.
Lemma rsort_in l t : In t (rsort l) <-> In t l.
Proof. split; apply Permutation_in; [|symmetry]; apply rsort_perm. Qed.
Lemma pair_sorted a b : a <= b -> StronglySorted Rle [a; b].
Proof. intros H. constructor; [constructor; constructor|]. constructor; [exact H|constructor]. Qed.
Lemma order2_sorted a b : StronglySorted Rle (order2 a b).
Proof. unfold order2. destruct (Rltb a b) eqn:E; [apply Rltb_t in E|apply Rltb_f in E]; apply pair_sorted; lra. Qed.
Lemma order2_in a b t : In t (order2 a b) <-> t = a \/ t = b.
Proof. unfold order2. destruct (Rltb a b); cbn; intuition. Qed.
Lemma map_div_sorted k l : 0 < k -> StronglySorted Rle l -> StronglySorted Rle (map (fun t => t / k) l).
Proof.
  intros Hk. induction 1 as [|y l S IH F]; cbn; constructor; [exact IH|]. rewrite Forall_map. eapply Forall_impl; [|exact F].
  intros z Hz. cbv beta. unfold Rdiv. apply Rmult_le_compat_r; [left; now apply Rinv_0_lt_compat|exact Hz].
Qed.
Lemma vnorm_pos v : v <> mkV 0 0 0 -> 0 < vnorm v.
Proof.
  intros H. unfold vnorm, vdot. apply sqrt_lt_R0. destruct (dir_axis v H) as [A|[A|A]].
  all: pose proof (Rle_0_sqr (vx v)); pose proof (Rle_0_sqr (vy v)); pose proof (Rle_0_sqr (vz v)); pose proof (Rsqr_pos_lt _ A); unfold Rsqr in *; lra.
Qed.
Lemma sphere_order r v R0 : StronglySorted Rle (intersect_sphere R0 r v).
Proof.
  unfold intersect_sphere. destruct (isInvalidDirection v) eqn:E; [constructor|].
  assert (V : v <> mkV 0 0 0) by (intros K; apply invalid_iff in K; congruence).
  destruct (Rltb _ 0) eqn:F; [constructor|]. apply Rltb_f in F.
  set (b := vdot v v * R0 * R0 - vdot (vcross r v) (vcross r v)) in *. pose proof (sqrt_pos b).
  assert (P : 0 < vdot v v). { pose proof (vnorm_pos v V) as K. unfold vnorm in K. destruct (Rlt_dec 0 (vdot v v)); [assumption|]. rewrite sqrt_neg_0 in K by lra. lra. }
  apply pair_sorted. unfold Rdiv. apply Rmult_le_compat_r; [left; now apply Rinv_0_lt_compat|lra].
Qed.
Lemma intersect_sorted_all tol s : forall r v, StronglySorted Rle (intersect tol s r v).
Proof.
  induction s using shape_ind2; intros r0 v0; cbn [intersect]; try apply rsort_sorted; auto.
  - unfold intersect_box. destruct (isInvalidDirection v0); [constructor|]. destruct (box_candidates X Y Z r0 v0) as [|a [|b [|c l]]]; try constructor; try apply order2_sorted.
  - unfold intersect_cylinder. destruct (isInvalidDirection v0); [constructor|]. destruct (cylinder_candidates r h r0 v0) as [|a [|b [|c l]]]; try solve [constructor]; try apply order2_sorted.
    destruct (unique tol _) as [|a' [|b' [|c' l']]]; try solve [constructor]; apply order2_sorted.
  - unfold intersect_pyramid. destruct (isInvalidDirection v0) eqn:E; [constructor|].
    assert (V : v0 <> mkV 0 0 0) by (intros K; apply invalid_iff in K; congruence). apply vnorm_pos in V.
    destruct (unique tol _) as [|a' [|b' [|c' l']]]; try solve [constructor]; apply map_div_sorted; auto; apply order2_sorted.
  - unfold intersect_cone. destruct (isInvalidDirection v0) eqn:E; [constructor|].
    assert (V : v0 <> mkV 0 0 0) by (intros K; apply invalid_iff in K; congruence). apply vnorm_pos in V.
    destruct (unique tol _) as [|a' [|b' [|c' [|d' l']]]]; try solve [constructor]; apply map_div_sorted; auto; apply order2_sorted.
  - apply sphere_order.
Qed.

(** ** the part of a line that is inside a convex body *)
Definition seg (A C : R -> Prop) : Prop :=
  (forall t, A t /\ C t) \/ exists lo hi, lo < hi /\ (forall t, A t <-> lo < t < hi) /\ (forall t, C t <-> lo <= t <= hi).
Definition seg1 (A C : R -> Prop) : Prop :=
  exists lo hi, lo < hi /\ (forall t, A t <-> lo < t < hi) /\ (forall t, C t <-> lo <= t <= hi).
Lemma seg_and A B C D : seg A C -> seg B D -> (exists t, A t /\ B t) -> seg (fun t => A t /\ B t) (fun t => C t /\ D t).
Proof.
  intros [H|(lo & hi & L & HA & HC)] [K|(lo' & hi' & L' & HB & HD)] (t0 & T1 & T2).
  - left. intros t. specialize (H t). specialize (K t). tauto.
  - right. exists lo', hi'. split; [exact L'|]. split; intros t; specialize (H t); [rewrite <- HB|rewrite <- HD]; tauto.
  - right. exists lo, hi. split; [exact L|]. split; intros t; specialize (K t); [rewrite <- HA|rewrite <- HC]; tauto.
  - right. apply HA in T1. apply HB in T2. exists (Rmax lo lo'), (Rmin hi hi').
    assert (Q : Rmax lo lo' < Rmin hi hi') by (unfold Rmax, Rmin; repeat destruct Rle_dec; lra).
    split; [exact Q|]. split; intros t; [rewrite HA, HB|rewrite HC, HD]; unfold Rmax, Rmin; repeat destruct Rle_dec; lra.
Qed.
Lemma seg_and1 A B C D : seg1 A C -> seg B D -> (exists t, A t /\ B t) -> seg1 (fun t => A t /\ B t) (fun t => C t /\ D t).
Proof.
  intros H K T. destruct H as (lo & hi & L & HA & HC).
  destruct (seg_and A B C D) as [E|E]; auto; [right; exists lo, hi; auto|]. exfalso. specialize (E hi). rewrite HA in E. lra.
Qed.
Lemma seg_and2 A B C D : seg A C -> seg1 B D -> (exists t, A t /\ B t) -> seg1 (fun t => A t /\ B t) (fun t => C t /\ D t).
Proof.
  intros H K T. destruct K as (lo & hi & L & HA & HC).
  destruct (seg_and A B C D) as [E|E]; auto; [right; exists lo, hi; auto|]. exfalso. specialize (E hi). rewrite HA in E. lra.
Qed.
Lemma slab1 r v X : v <> 0 -> 0 < X -> seg1 (fun t => 2 * Rabs (r + v * t) < X) (fun t => 2 * Rabs (r + v * t) <= X).
Proof.
  intros Hv HX. destruct (Rlt_dec 0 v) as [P|P].
  - exists ((- X / 2 - r) / v), ((X / 2 - r) / v).
    assert (A : forall t, r + v * t = v * (t - (X / 2 - r) / v) + X / 2) by (intros; field; lra).
    assert (B : forall t, r + v * t = v * (t - (- X / 2 - r) / v) - X / 2) by (intros; field; lra).
    set (a := (- X / 2 - r) / v) in *. set (b := (X / 2 - r) / v) in *.
    assert (L : a < b). { specialize (A 0). specialize (B 0). nra. }
    split; [exact L|]. split; intros t; specialize (A t); specialize (B t); unfold Rabs; destruct (Rcase_abs (r + v * t)); split; intros; nra.
  - exists ((X / 2 - r) / v), ((- X / 2 - r) / v).
    assert (A : forall t, r + v * t = v * (t - (X / 2 - r) / v) + X / 2) by (intros; field; lra).
    assert (B : forall t, r + v * t = v * (t - (- X / 2 - r) / v) - X / 2) by (intros; field; lra).
    set (a := (- X / 2 - r) / v) in *. set (b := (X / 2 - r) / v) in *.
    assert (N : v < 0) by lra.
    assert (L : b < a). { specialize (A 0). specialize (B 0). nra. }
    split; [exact L|]. split; intros t; specialize (A t); specialize (B t); unfold Rabs; destruct (Rcase_abs (r + v * t)); split; intros; nra.
Qed.
Lemma slab r v X t0 : 2 * Rabs (r + v * t0) < X -> seg (fun t => 2 * Rabs (r + v * t) < X) (fun t => 2 * Rabs (r + v * t) <= X).
Proof.
  intros H. destruct (Req_EM_T v 0) as [->|N].
  - left. intros t. replace (r + 0 * t) with (r + 0 * t0) by ring. lra.
  - right. apply slab1; [exact N|]. pose proof (Rabs_pos (r + v * t0)). lra.
Qed.
Lemma prod_neg lo hi t : lo < hi -> (t - lo) * (t - hi) < 0 <-> lo < t < hi.
Proof.
  intros L. split; [|intros; nra]. intros H. destruct (Rle_dec t lo); [exfalso; nra|]. destruct (Rle_dec hi t); [exfalso; nra|]. lra.
Qed.
Lemma prod_npos lo hi t : lo < hi -> (t - lo) * (t - hi) <= 0 <-> lo <= t <= hi.
Proof.
  intros L. split; [|intros; nra]. intros H. destruct (Rlt_dec t lo); [exfalso; nra|]. destruct (Rlt_dec hi t); [exfalso; nra|]. lra.
Qed.
(** a t^2 + 2 b t + c with a > 0 *)
Lemma quad1 a b c t0 : 0 < a -> a * t0 * t0 + 2 * b * t0 + c < 0 ->
  seg1 (fun t => a * t * t + 2 * b * t + c < 0) (fun t => a * t * t + 2 * b * t + c <= 0).
Proof.
  intros Ha H. set (k := b * b - a * c).
  assert (E : forall t, a * (a * t * t + 2 * b * t + c) = (a * t + b) * (a * t + b) - k) by (intros; unfold k; ring).
  assert (K : 0 < k). { specialize (E t0). pose proof (Rle_0_sqr (a * t0 + b)) as Q. unfold Rsqr in Q. assert (a * (a * t0 * t0 + 2 * b * t0 + c) < 0) by nra. lra. }
  pose proof (sqrt_lt_R0 k K) as S. pose proof (sqrt_sqrt k ltac:(lra)) as SS. set (s := sqrt k) in *.
  exists ((- b - s) / a), ((- b + s) / a).
  assert (F : forall t, a * (a * t * t + 2 * b * t + c) = a * (t - (- b - s) / a) * (a * (t - (- b + s) / a))).
  { intros t. rewrite E, <- SS. field. lra. }
  set (lo := (- b - s) / a) in *. set (hi := (- b + s) / a) in *.
  assert (L : lo < hi). { unfold lo, hi, Rdiv. apply Rmult_lt_compat_r; [now apply Rinv_0_lt_compat|lra]. }
  split; [exact L|].
  assert (G : forall t, a * t * t + 2 * b * t + c = a * ((t - lo) * (t - hi))).
  { intros t. apply (Rmult_eq_reg_l a); [|lra]. rewrite F. ring. }
  split; intros t; rewrite G; [rewrite <- (prod_neg lo hi t L)|rewrite <- (prod_npos lo hi t L)]; split; intros; nra.
Qed.

(** ** box *)
Lemma in_if {A} (b : bool) (l : list A) t : In t (if b then [] else l) <-> b = false /\ In t l.
Proof. destruct b; cbn; intuition discriminate. Qed.
Lemma rect_in rx ry rz ux uy uz X Y t : uz <> 0 ->
  In t (intersectRectangle rx ry rz ux uy uz X Y) <-> rz + uz * t = 0 /\ 2 * Rabs (rx + ux * t) < X /\ 2 * Rabs (ry + uy * t) < Y.
Proof.
  intros N. unfold intersectRectangle. destruct (_ && _)%bool eqn:E; cbn.
  - apply Bool.andb_true_iff in E. rewrite !Rltb_t in E. split.
    + intros [<-|[]]. split; [field; exact N|lra].
    + intros (H & _). left. apply (Rmult_eq_reg_l uz); [|exact N]. field_simplify; [lra|exact N].
  - split; [intros []|]. intros (H & A & B).
    assert (T : (0 - rz) / uz = t). { apply (Rmult_eq_reg_l uz); [|exact N]. field_simplify; [lra|exact N]. }
    rewrite T in E. apply Bool.andb_false_iff in E. rewrite !Rltb_f in E. lra.
Qed.
Lemma rect_len rx ry rz ux uy uz X Y : NoDup (intersectRectangle rx ry rz ux uy uz X Y).
Proof. unfold intersectRectangle. destruct (_ && _)%bool; [constructor; [intros []|constructor]|constructor]. Qed.
Lemma nodup_app {A} (l m : list A) : NoDup l -> NoDup m -> (forall a, In a l -> In a m -> False) -> NoDup (l ++ m).
Proof.
  induction 1 as [|a l H N IH]; intros M D; cbn; [exact M|]. constructor.
  - rewrite in_app_iff. intros [K|K]; [contradiction|]. apply (D a); [now left|exact K].
  - apply IH; [exact M|]. intros b B1 B2. apply (D b); [now right|exact B2].
Qed.
Lemma nodup_if {A} (b : bool) (l : list A) : (b = false -> NoDup l) -> NoDup (if b then [] else l).
Proof. destruct b; [constructor|auto]. Qed.
Definition face (X Y Z : R) (p v : vec3) : Prop :=
  vz v <> 0 /\ 2 * Rabs (vz p) = Z /\ 2 * Rabs (vx p) < X /\ 2 * Rabs (vy p) < Y \/
  vx v <> 0 /\ 2 * Rabs (vx p) = X /\ 2 * Rabs (vy p) < Y /\ 2 * Rabs (vz p) < Z \/
  vy v <> 0 /\ 2 * Rabs (vy p) = Y /\ 2 * Rabs (vz p) < Z /\ 2 * Rabs (vx p) < X.
Lemma abs_half a Z : 0 < Z -> 2 * Rabs a = Z <-> a - Z / 2 = 0 \/ a + Z / 2 = 0.
Proof. intros. unfold Rabs. destruct (Rcase_abs a); lra. Qed.
Lemma box_in X Y Z r v t : 0 < X -> 0 < Y -> 0 < Z ->
  In t (box_candidates X Y Z r v) <-> face X Y Z (on_line r v t) v.
Proof.
  intros HX HY HZ. unfold box_candidates, face, on_line. cbn [vx vy vz]. rewrite !in_app_iff, !in_if, !in_app_iff, !Reqb_false.
  rewrite !(Rmult_comm t). rewrite !abs_half by assumption.
  split.
  - intros [[N [H|H]]|[[N [H|H]]|[N [H|H]]]]; apply rect_in in H; try exact N; destruct H as (H & A & B); [left|left|right; left|right; left|right; right|right; right]; (split; [exact N|]); (split; [lra|]); lra.
  - intros [(N & H & A & B)|[(N & H & A & B)|(N & H & A & B)]]; [left|right; left|right; right]; (split; [exact N|]); rewrite !rect_in by exact N.
    all: destruct H as [H|H]; [left|right]; (split; [lra|]); split; assumption.
Qed.
Lemma box_nodup X Y Z r v : 0 < X -> 0 < Y -> 0 < Z -> NoDup (box_candidates X Y Z r v).
Proof.
  intros HX HY HZ. unfold box_candidates.
  repeat apply nodup_app; try (apply nodup_if; intros N; apply Reqb_false in N; apply nodup_app; try apply rect_len).
  all: try (intros t A B; rewrite rect_in in A, B by exact N; lra).
  - intros t A B. rewrite in_if, in_app_iff, Reqb_false in A, B. destruct A as [N A]. destruct B as [M B].
    rewrite !rect_in in A, B by assumption.
    assert (2 * Rabs (vy r + vy v * t) = Y \/ 2 * Rabs (vy r + vy v * t) < Y) by lra.
    assert (K : vx r + vx v * t - X / 2 = 0 \/ vx r + vx v * t + X / 2 = 0) by lra. apply abs_half in K; [|exact HX]. lra.
  - intros t A B. rewrite in_app_iff, !in_if, !in_app_iff, !Reqb_false in B. rewrite in_if, in_app_iff, Reqb_false in A. destruct A as [N A].
    rewrite !rect_in in A by assumption.
    destruct B as [[M B]|[M B]]; rewrite !rect_in in B by assumption.
    + assert (K : vx r + vx v * t - X / 2 = 0 \/ vx r + vx v * t + X / 2 = 0) by lra. apply abs_half in K; [|exact HX]. lra.
    + assert (K : vy r + vy v * t - Y / 2 = 0 \/ vy r + vy v * t + Y / 2 = 0) by lra. apply abs_half in K; [|exact HY]. lra.
Qed.
Lemma seg1_ext A B C D : (forall t, A t <-> B t) -> (forall t, C t <-> D t) -> seg1 A C -> seg1 B D.
Proof.
  intros E F (lo & hi & L & H & K). exists lo, hi. split; [exact L|]. split; intros t; [rewrite <- E|rewrite <- F]; auto.
Qed.
Definition segment (s : shape) (r v : vec3) : Prop := seg1 (fun t => core s (on_line r v t)) (fun t => solid s (on_line r v t)).
Lemma box_seg X Y Z r v : v <> mkV 0 0 0 -> meets (Box X Y Z) r v -> segment (Box X Y Z) r v.
Proof.
  intros V (t0 & H). unfold core in H. cbn in H. destruct H as (A & B & C).
  rewrite Rmult_comm in A. rewrite Rmult_comm in A. rewrite (Rmult_comm t0) in A. rewrite (Rmult_comm t0) in B. rewrite (Rmult_comm t0) in C.
  assert (PX : 0 < X) by (pose proof (Rabs_pos (vx r + vx v * t0)); lra).
  assert (PY : 0 < Y) by (pose proof (Rabs_pos (vy r + vy v * t0)); lra).
  assert (PZ : 0 < Z) by (pose proof (Rabs_pos (vz r + vz v * t0)); lra).
  eapply (seg1_ext (fun t => 2 * Rabs (vx r + vx v * t) < X /\ 2 * Rabs (vy r + vy v * t) < Y /\ 2 * Rabs (vz r + vz v * t) < Z) _
    (fun t => 2 * Rabs (vx r + vx v * t) <= X /\ 2 * Rabs (vy r + vy v * t) <= Y /\ 2 * Rabs (vz r + vz v * t) <= Z) _).
  1,2: intros t; unfold core, solid; cbn; rewrite !(Rmult_comm t); reflexivity.
  assert (E : exists t, 2 * Rabs (vy r + vy v * t) < Y /\ 2 * Rabs (vz r + vz v * t) < Z) by eauto.
  assert (E' : exists t, 2 * Rabs (vx r + vx v * t) < X /\ 2 * Rabs (vy r + vy v * t) < Y /\ 2 * Rabs (vz r + vz v * t) < Z) by eauto.
  destruct (dir_axis v V) as [N|[N|N]].
  - apply seg_and1; [now apply slab1| |exact E']. apply seg_and; eauto using slab.
  - apply seg_and2; [eauto using slab| |exact E']. apply seg_and1; eauto using slab1, slab.
  - apply seg_and2; [eauto using slab| |exact E']. apply seg_and2; eauto using slab1, slab.
Qed.
Lemma face_solid X Y Z p v : face X Y Z p v -> solid (Box X Y Z) p /\ ~ core (Box X Y Z) p.
Proof. unfold face, solid, core. cbn. intros [(N & H)|[(N & H)|(N & H)]]; (split; [lra|]); intros K; lra. Qed.
Lemma near_face r v X t : 0 < X -> v <> 0 -> 2 * Rabs (r + v * t) = X -> exists s, s <> 0 /\ forall d, 0 < d < 1 -> 2 * Rabs (r + v * (t + d * s)) < X.
Proof.
  intros HX Hv H. exists (- (r + v * t) / v). split.
  - intros E. assert (K : r + v * t = 0). { apply (Rmult_eq_reg_r (/ v)); [|now apply Rinv_neq_0_compat]. unfold Rdiv in E. lra. }
    rewrite K, Rabs_R0 in H. lra.
  - intros d Hd. replace (r + v * (t + d * (- (r + v * t) / v))) with ((1 - d) * (r + v * t)) by (field; exact Hv).
    rewrite Rabs_mult, (Rabs_right (1 - d)) by lra. nra.
Qed.
Lemma face_meets X Y Z r v t : 0 < X -> 0 < Y -> 0 < Z -> face X Y Z (on_line r v t) v -> meets (Box X Y Z) r v.
Proof.
  intros HX HY HZ F.
  assert (O : forall a u s X0, 2 * Rabs (a + u * t) < X0 -> exists e, 0 < e /\ forall d, 0 < d < e -> 2 * Rabs (a + u * (t + d * s)) < X0).
  { intros a u s X0 H. pose proof (Rabs_pos (u * s)) as P. set (m := X0 - 2 * Rabs (a + u * t)) in *. assert (0 < m) by (unfold m; lra).
    exists (m / (2 * (Rabs (u * s) + 1))). split; [apply Rdiv_lt_0_compat; lra|]. intros d Hd.
    replace (a + u * (t + d * s)) with ((a + u * t) + d * (u * s)) by ring.
    pose proof (Rabs_triang (a + u * t) (d * (u * s))) as T. rewrite Rabs_mult, (Rabs_right d) in T by lra.
    assert (K : d * (2 * (Rabs (u * s) + 1)) < m).
    { apply (Rmult_lt_reg_r (/ (2 * (Rabs (u * s) + 1)))); [apply Rinv_0_lt_compat; lra|]. rewrite Rmult_assoc, Rinv_r, Rmult_1_r by lra. apply Hd. }
    unfold m in K. nra. }
  unfold meets, core. cbn [body snd prim].
  unfold face, on_line in *. cbn [vx vy vz] in *.
  destruct F as [(N & H & A & B)|[(N & H & A & B)|(N & H & A & B)]]; rewrite (Rmult_comm t) in H, A, B;
    first [destruct (near_face _ _ _ _ HX N H) as (s & Hs & K)|destruct (near_face _ _ _ _ HY N H) as (s & Hs & K)|destruct (near_face _ _ _ _ HZ N H) as (s & Hs & K)];
    destruct (O _ _ s _ A) as (e1 & He1 & K1); destruct (O _ _ s _ B) as (e2 & He2 & K2);
    set (d := Rmin (1 / 2) (Rmin (e1 / 2) (e2 / 2)));
    (assert (D : 0 < d < 1 /\ 0 < d < e1 /\ 0 < d < e2) by (unfold d, Rmin; repeat destruct Rle_dec; lra));
    exists (t + d * s); rewrite !(Rmult_comm (t + d * s)); specialize (K d); specialize (K1 d); specialize (K2 d); lra.
Qed.
Lemma nodup_in_pair (l : list R) a b : NoDup l -> (forall t, In t l -> t = a \/ t = b) -> (List.length l <= 2)%nat.
Proof. intros N H. apply (NoDup_incl_length (l' := [a; b]) N). intros t Ht. destruct (H t Ht); cbn; auto. Qed.
Lemma pair_perm (l : list R) a b : a < b -> NoDup l -> (forall t, In t l <-> t = a \/ t = b) -> Permutation l [a; b].
Proof.
  intros L N H. apply NoDup_Permutation; [exact N| |].
  - constructor; [cbn; intros [?|[]]; lra|]. constructor; [intros []|constructor].
  - intros t. rewrite H. cbn. intuition.
Qed.
Lemma order2_of a b t1 t2 : t1 < t2 -> Permutation [a; b] [t1; t2] -> order2 a b = [t1; t2].
Proof.
  intros L P. apply Permutation_length_2_inv in P. unfold order2.
  destruct P as [E|E]; injection E as -> ->; destruct (Rltb _ _) eqn:F; try reflexivity; [apply Rltb_f in F|apply Rltb_t in F]; lra.
Qed.
Lemma box_exact X Y Z r v : 0 < X -> 0 < Y -> 0 < Z -> v <> mkV 0 0 0 ->
  (~ meets (Box X Y Z) r v -> intersect_box X Y Z r v = []) /\
  (meets (Box X Y Z) r v -> exists t1 t2, entry_exit (Box X Y Z) r v t1 t2 /\
     (on_edge X Y Z (on_line r v t1) \/ on_edge X Y Z (on_line r v t2) -> intersect_box X Y Z r v = []) /\
     (~ on_edge X Y Z (on_line r v t1) -> ~ on_edge X Y Z (on_line r v t2) -> intersect_box X Y Z r v = [t1; t2])).
Proof.
  intros HX HY HZ V. pose proof (box_nodup X Y Z r v HX HY HZ) as ND. pose proof (fun t => box_in X Y Z r v t HX HY HZ) as BI.
  unfold intersect_box. rewrite (valid_dir v V).
  set (l := box_candidates X Y Z r v) in *. split.
  - intros M. destruct l as [|a l]; [reflexivity|]. exfalso. apply M. apply (face_meets X Y Z r v a); auto. apply BI. now left.
  - intros M. destruct (box_seg X Y Z r v V M) as (t1 & t2 & L & HC & HS). exists t1, t2. split; [now split; [|split]|].
    assert (SUB : forall t, In t l -> t = t1 \/ t = t2).
    { intros t Ht. apply BI in Ht. apply face_solid in Ht as [K1 K2]. rewrite HS in K1. rewrite HC in K2. lra. }
    assert (EF : forall t, on_edge X Y Z (on_line r v t) -> ~ In t l).
    { intros t E Ht. apply BI in Ht. unfold on_edge, face in *. lra. }
    assert (FE : forall t, (t = t1 \/ t = t2) -> ~ on_edge X Y Z (on_line r v t) -> In t l).
    { intros t Ht NE. apply BI.
      assert (S1 : solid (Box X Y Z) (on_line r v t)) by (apply HS; lra).
      assert (S2 : ~ core (Box X Y Z) (on_line r v t)) by (rewrite HC; lra).
      destruct M as (t0 & M). unfold solid, core in *. cbn in S1, S2, M. unfold on_edge, face in *. cbn [on_line vx vy vz] in *.
      assert (AX : vx v = 0 -> 2 * Rabs (vx r + t * vx v) < X) by (intros E; replace (vx r + t * vx v) with (vx r + t0 * vx v) by (rewrite E; ring); apply M).
      assert (AY : vy v = 0 -> 2 * Rabs (vy r + t * vy v) < Y) by (intros E; replace (vy r + t * vy v) with (vy r + t0 * vy v) by (rewrite E; ring); apply M).
      assert (AZ : vz v = 0 -> 2 * Rabs (vz r + t * vz v) < Z) by (intros E; replace (vz r + t * vz v) with (vz r + t0 * vz v) by (rewrite E; ring); apply M).
      destruct (Rlt_dec (2 * Rabs (vx r + t * vx v)) X); destruct (Rlt_dec (2 * Rabs (vy r + t * vy v)) Y); destruct (Rlt_dec (2 * Rabs (vz r + t * vz v)) Z); try lra. }
    split.
    + intros E. assert (LEN : (List.length l <= 1)%nat).
      { destruct E as [E|E]; apply EF in E; [apply (NoDup_incl_length (l' := [t2]) ND)|apply (NoDup_incl_length (l' := [t1]) ND)];
          intros t Ht; destruct (SUB t Ht) as [->| ->]; cbn; auto; contradiction. }
      destruct l as [|a [|b l]]; try reflexivity. cbn in LEN. lia.
    + intros N1 N2.
      assert (P : Permutation l [t1; t2]).
      { apply pair_perm; auto. intros t. split; [apply SUB|]. intros Ht. apply FE; [exact Ht|]. destruct Ht as [->| ->]; assumption. }
      pose proof (Permutation_length P) as LEN. destruct l as [|a [|b [|c l]]]; try discriminate LEN.
      now apply order2_of.
Qed.

(** ** cylinder *)
Lemma unique_from_in tol l : forall last t, In t (unique_from tol last l) -> In t l.
Proof.
  induction l as [|y l IH]; intros last t; cbn; [auto|]. destruct (eq_withinepsilon tol last y).
  - intros H. right. eauto.
  - cbn. intros [->|H]; [now left|right; eauto].
Qed.
Lemma unique_in tol l t : In t (unique tol l) -> In t l.
Proof. destruct l as [|x l]; cbn; [auto|]. intros [->|H]; [now left|right]. eapply unique_from_in; eauto. Qed.
Lemma quad_roots a b c t : a <> 0 -> 0 < b * b - a * c ->
  a * t * t + 2 * b * t + c = 0 <-> t = (- b + sqrt (b * b - a * c)) / a \/ t = (- b - sqrt (b * b - a * c)) / a.
Proof.
  intros Ha K. set (k := b * b - a * c) in *. pose proof (sqrt_lt_R0 k K) as S. pose proof (sqrt_sqrt k ltac:(lra)) as SS. set (s := sqrt k) in *.
  assert (F : a * (a * t * t + 2 * b * t + c) = a * (t - (- b - s) / a) * (a * (t - (- b + s) / a))).
  { transitivity ((a * t + b) * (a * t + b) - k); [unfold k; ring|]. rewrite <- SS. field. exact Ha. }
  split.
  - intros H. rewrite H, Rmult_0_r in F. symmetry in F. apply Rmult_integral in F as [F|F]; apply Rmult_integral in F as [F|F]; try contradiction; [right|left]; lra.
  - intros [-> | ->]; apply (Rmult_eq_reg_l a); try exact Ha; rewrite F, Rmult_0_r; ring.
Qed.
Lemma quad_root0 a b c t : a <> 0 -> b * b - a * c = 0 -> a * t * t + 2 * b * t + c = 0 <-> t = - b / a.
Proof.
  intros Ha K. assert (F : a * (a * t * t + 2 * b * t + c) = (a * t + b) * (a * t + b)) by (replace (a * (a * t * t + 2 * b * t + c)) with ((a * t + b) * (a * t + b) - (b * b - a * c)) by ring; rewrite K; ring).
  split.
  - intros H. rewrite H, Rmult_0_r in F. symmetry in F. apply Rmult_integral in F.
    assert (G : a * t = - b) by lra. apply (Rmult_eq_reg_l a); [|exact Ha]. rewrite G. field. exact Ha.
  - intros ->. apply (Rmult_eq_reg_l a); [|exact Ha]. rewrite F. field. exact Ha.
Qed.
Lemma quad_none a b c t : b * b - a * c < 0 -> a * t * t + 2 * b * t + c <> 0.
Proof.
  intros K H. assert (F : a * (a * t * t + 2 * b * t + c) = (a * t + b) * (a * t + b) - (b * b - a * c)) by ring.
  rewrite H in F. pose proof (Rle_0_sqr (a * t + b)) as Q. unfold Rsqr in Q. lra.
Qed.
Lemma keep_in (P : R -> bool) u t : In t (if P u then [u] else []) <-> t = u /\ P u = true.
Proof. destruct (P u); cbn; intuition congruence. Qed.
Lemma side_in x y z ux uy uz R0 h t :
  In t (intersectCylinderSide x y z ux uy uz R0 h) <->
  (ux <> 0 \/ uy <> 0) /\ (x + ux * t) * (x + ux * t) + (y + uy * t) * (y + uy * t) = R0 * R0 /\ 2 * Rabs (z + uz * t) < h.
Proof.
  unfold intersectCylinderSide. set (a := ux * ux + uy * uy). set (b := x * ux + y * uy). set (c := x * x + y * y - R0 * R0).
  assert (E : (x + ux * t) * (x + ux * t) + (y + uy * t) * (y + uy * t) = R0 * R0 <-> a * t * t + 2 * b * t + c = 0).
  { unfold a, b, c. split; intros H.
    - transitivity ((x + ux * t) * (x + ux * t) + (y + uy * t) * (y + uy * t) - R0 * R0); [ring|lra].
    - transitivity (ux * ux * t * t + uy * uy * t * t + 2 * (x * ux + y * uy) * t + (x * x + y * y - R0 * R0) + R0 * R0); [ring|].
      replace (ux * ux * t * t + uy * uy * t * t) with ((ux * ux + uy * uy) * t * t) by ring. rewrite H. ring. }
  assert (A : (ux <> 0 \/ uy <> 0) <-> a <> 0).
  { unfold a. split; [|intros H; destruct (Req_EM_T ux 0) as [->|]; [|now left]; right; intros ->; apply H; ring].
    intros H K. pose proof (Rle_0_sqr ux) as Q1. pose proof (Rle_0_sqr uy) as Q2. destruct H as [H|H]; apply Rsqr_pos_lt in H; unfold Rsqr in *; lra. }
  rewrite A, E. destruct (Rltb (b * b - a * c) 0) eqn:K.
  { apply Rltb_t in K. cbn. split; [intros []|]. intros (_ & H & _). now apply (quad_none a b c t K). }
  apply Rltb_f in K. destruct (Reqb a 0) eqn:Z.
  { apply Reqb_true in Z. cbn. tauto. }
  apply Reqb_false in Z. destruct (Reqb (b * b - a * c) 0) eqn:K0.
  - apply Reqb_true in K0. rewrite (keep_in (fun u => Rltb (Rabs (z + uz * u)) (h / 2))), Rltb_t, (quad_root0 a b c t Z K0).
    split; [intros [-> ?]; split; [exact Z|split; [reflexivity|lra]]|intros (_ & -> & ?); split; [reflexivity|lra]].
  - apply Reqb_false in K0. assert (K1 : 0 < b * b - a * c) by lra.
    rewrite in_app_iff, !(keep_in (fun u => Rltb (Rabs (z + uz * u)) (h / 2))), !Rltb_t, (quad_roots a b c t Z K1).
    split.
    + intros [[-> ?]|[-> ?]]; (split; [exact Z|split; [tauto|lra]]).
    + intros (_ & [-> | ->] & ?); [left|right]; (split; [reflexivity|lra]).
Qed.
Lemma abs_half0 a Z : 0 <= Z -> 2 * Rabs a = Z <-> a = Z / 2 \/ a = - (Z / 2).
Proof. intros. unfold Rabs. destruct (Rcase_abs a); lra. Qed.
Lemma caps_in x y z ux uy uz R0 h t : 0 <= h ->
  In t (intersectCylinderTopBottom x y z ux uy uz R0 h) <->
  uz <> 0 /\ 2 * Rabs (z + uz * t) = h /\ (x + ux * t) * (x + ux * t) + (y + uy * t) * (y + uy * t) <= R0 * R0.
Proof.
  intros Hh. unfold intersectCylinderTopBottom. destruct (Reqb uz 0) eqn:Z.
  { apply Reqb_true in Z. cbn. tauto. }
  apply Reqb_false in Z.
  rewrite in_app_iff, !(keep_in (fun t => Rleb ((x + ux * t) * (x + ux * t) + (y + uy * t) * (y + uy * t)) (R0 * R0))), !Rleb_true, abs_half0 by exact Hh.
  assert (E : forall w, z + uz * t = w <-> t = (w - z) / uz).
  { intros w. split; [intros <-; field; exact Z|intros ->; field; exact Z]. }
  rewrite !E. replace (- (h / 2) - z) with (- (h / 2) - z) by ring. split.
  - intros [[-> ?]|[-> ?]]; tauto.
  - intros (_ & [-> | ->] & ?); tauto.
Qed.
Lemma keep_nodup (P : R -> bool) u : NoDup (if P u then [u] else []).
Proof. destruct (P u); [constructor; [intros []|constructor]|constructor]. Qed.
Lemma cyl_nodup R0 h r v : 0 < h -> NoDup (cylinder_candidates R0 h r v).
Proof.
  intros Hh. unfold cylinder_candidates. apply nodup_app.
  - unfold intersectCylinderSide. set (a := vx v * vx v + vy v * vy v). set (b := vx r * vx v + vy r * vy v). set (c := vx r * vx r + vy r * vy r - R0 * R0).
    destruct (Rltb (b * b - a * c) 0) eqn:K; [constructor|]. destruct (Reqb a 0) eqn:Z; [constructor|]. apply Reqb_false in Z.
    destruct (Reqb (b * b - a * c) 0) eqn:K0; [apply (keep_nodup (fun u => Rltb (Rabs (vz r + vz v * u)) (h / 2)))|].
    apply Reqb_false in K0. apply Rltb_f in K. apply nodup_app; try apply (keep_nodup (fun u => Rltb (Rabs (vz r + vz v * u)) (h / 2))).
    intros t A B. rewrite (keep_in (fun u => Rltb (Rabs (vz r + vz v * u)) (h / 2))) in A, B. destruct A as [-> _]. destruct B as [B _].
    apply (f_equal (fun q => q * a)) in B. assert (SK : 0 < sqrt (b * b - a * c)) by (apply sqrt_lt_R0; lra).
    unfold Rdiv in B. rewrite !Rmult_assoc, Rinv_l in B by exact Z. lra.
  - unfold intersectCylinderTopBottom. apply nodup_if. intros N. apply Reqb_false in N.
    set (P := fun t => Rleb ((vx r + vx v * t) * (vx r + vx v * t) + (vy r + vy v * t) * (vy r + vy v * t)) (R0 * R0)).
    apply nodup_app; try apply (keep_nodup P). intros t A B. apply (keep_in P) in A. apply (keep_in P) in B. destruct A as [-> _]. destruct B as [B _].
    apply (f_equal (fun q => q * vz v)) in B. unfold Rdiv in B. rewrite !Rmult_assoc, Rinv_l in B by exact N. lra.
  - intros t A B. apply side_in in A. apply caps_in in B; lra.
Qed.
Lemma cyl_cand_border R0 h r v t : 0 <= h -> In t (cylinder_candidates R0 h r v) -> border (Cylinder R0 h) (on_line r v t).
Proof.
  intros Hh. unfold cylinder_candidates. rewrite in_app_iff, side_in, caps_in by exact Hh. unfold border, solid, core. cbn. rewrite !(Rmult_comm t).
  intros [(_ & A & B)|(_ & A & B)]; lra.
Qed.
Lemma disc_seg r v R0 t0 : (vx r + vx v * t0) * (vx r + vx v * t0) + (vy r + vy v * t0) * (vy r + vy v * t0) < R0 * R0 ->
  let f := fun t => (vx r + vx v * t) * (vx r + vx v * t) + (vy r + vy v * t) * (vy r + vy v * t) in
  ((vx v <> 0 \/ vy v <> 0) -> seg1 (fun t => f t < R0 * R0) (fun t => f t <= R0 * R0)) /\
  seg (fun t => f t < R0 * R0) (fun t => f t <= R0 * R0).
Proof.
  intros H f. set (a := vx v * vx v + vy v * vy v). set (b := vx r * vx v + vy r * vy v). set (c := vx r * vx r + vy r * vy r - R0 * R0).
  assert (E : forall t, f t - R0 * R0 = a * t * t + 2 * b * t + c) by (intros; unfold f, a, b, c; ring).
  assert (S1 : (vx v <> 0 \/ vy v <> 0) -> seg1 (fun t => f t < R0 * R0) (fun t => f t <= R0 * R0)).
  { intros N. assert (A : 0 < a). { unfold a. pose proof (Rle_0_sqr (vx v)). pose proof (Rle_0_sqr (vy v)). destruct N as [N|N]; apply Rsqr_pos_lt in N; unfold Rsqr in *; lra. }
    assert (K : a * t0 * t0 + 2 * b * t0 + c < 0) by (rewrite <- E; unfold f; lra).
    eapply seg1_ext; [| |exact (quad1 a b c t0 A K)]; intros t; cbv beta; specialize (E t); lra. }
  split; [exact S1|].
  destruct (Req_EM_T (vx v) 0) as [X|X]; [|right; apply S1; now left]. destruct (Req_EM_T (vy v) 0) as [Y|Y]; [|right; apply S1; now right].
  left. intros t. assert (f t = f t0) by (unfold f; rewrite X, Y; ring). unfold f in *. lra.
Qed.
Lemma cyl_seg R0 h r v : v <> mkV 0 0 0 -> meets (Cylinder R0 h) r v -> segment (Cylinder R0 h) r v.
Proof.
  intros V (t0 & H). unfold core in H. cbn in H. destruct H as (A & B). rewrite !(Rmult_comm t0) in A. rewrite (Rmult_comm t0) in B.
  eapply (seg1_ext (fun t => (vx r + vx v * t) * (vx r + vx v * t) + (vy r + vy v * t) * (vy r + vy v * t) < R0 * R0 /\ 2 * Rabs (vz r + vz v * t) < h) _
    (fun t => (vx r + vx v * t) * (vx r + vx v * t) + (vy r + vy v * t) * (vy r + vy v * t) <= R0 * R0 /\ 2 * Rabs (vz r + vz v * t) <= h) _).
  1,2: intros t; unfold core, solid; cbn; rewrite !(Rmult_comm t); reflexivity.
  destruct (disc_seg r v R0 t0 A) as [D1 D2].
  destruct (dir_axis v V) as [N|[N|N]].
  - apply seg_and1; eauto using slab.
  - apply seg_and1; eauto using slab.
  - apply seg_and2; eauto. apply slab1; [exact N|]. pose proof (Rabs_pos (vz r + vz v * t0)). lra.
Qed.
Lemma cyl_exact tol R0 h r v : v <> mkV 0 0 0 -> meets (Cylinder R0 h) r v ->
  exists t1 t2, entry_exit (Cylinder R0 h) r v t1 t2 /\ intersect_cylinder tol R0 h r v = [t1; t2].
Proof.
  intros V M. destruct (cyl_seg R0 h r v V M) as (t1 & t2 & L & HC & HS). exists t1, t2. split; [now split; [|split]|].
  destruct M as (t0 & M).
  assert (Hh : 0 < h). { unfold core in M. cbn in M. pose proof (Rabs_pos (vz r + t0 * vz v)). lra. }
  pose proof (cyl_nodup R0 h r v Hh) as ND.
  assert (P : Permutation (cylinder_candidates R0 h r v) [t1; t2]).
  { apply pair_perm; auto. intros t. split.
    - intros Ht. apply cyl_cand_border in Ht as [K1 K2]; [|lra]. rewrite HS in K1. rewrite HC in K2. lra.
    - intros Ht.
      assert (S1 : solid (Cylinder R0 h) (on_line r v t)) by (apply HS; lra).
      assert (S2 : ~ core (Cylinder R0 h) (on_line r v t)) by (rewrite HC; lra).
      unfold cylinder_candidates. rewrite in_app_iff, side_in, caps_in by lra.
      unfold solid, core in *. cbn in S1, S2, M. rewrite !(Rmult_comm t) in S1, S2. rewrite !(Rmult_comm t0) in M.
      destruct (Rlt_dec (2 * Rabs (vz r + vz v * t)) h) as [Q|Q].
      + left. split; [|lra]. destruct (Req_EM_T (vx v) 0) as [X|X]; [|now left]. right. intros Y. rewrite X, Y in *.
        replace (vx r + 0 * t) with (vx r + 0 * t0) in * by ring. replace (vy r + 0 * t) with (vy r + 0 * t0) in * by ring. lra.
      + right. split; [|lra]. intros Z. rewrite Z in *. replace (vz r + 0 * t) with (vz r + 0 * t0) in * by ring. lra. }
  unfold intersect_cylinder. rewrite (valid_dir v V).
  pose proof (Permutation_length P) as LEN. destruct (cylinder_candidates R0 h r v) as [|a [|b [|c l]]]; try discriminate LEN.
  now apply order2_of.
Qed.

(** ** sphere *)
Lemma lagrange r v : vdot v v * vdot r r - vdot (vcross r v) (vcross r v) = vdot r v * vdot r v.
Proof. destruct r, v. unfold vdot, vcross. cbn. ring. Qed.
Lemma dot_pos v : v <> mkV 0 0 0 -> 0 < vdot v v.
Proof.
  intros V. pose proof (vnorm_pos v V) as K. unfold vnorm in K. destruct (Rlt_dec 0 (vdot v v)); [assumption|]. rewrite sqrt_neg_0 in K by lra. lra.
Qed.
Lemma sphere_in R0 r v t : v <> mkV 0 0 0 -> In t (intersect_sphere R0 r v) <-> border (Sphere R0) (on_line r v t).
Proof.
  intros V. unfold intersect_sphere. rewrite (valid_dir v V). pose proof (dot_pos v V) as A.
  set (a := vdot v v) in *. set (b := vdot r v). set (c := vdot r r - R0 * R0).
  assert (K : a * R0 * R0 - vdot (vcross r v) (vcross r v) = b * b - a * c).
  { unfold b, c. rewrite <- lagrange. fold a. ring. }
  rewrite K.
  assert (E : border (Sphere R0) (on_line r v t) <-> a * t * t + 2 * b * t + c = 0).
  { unfold border, solid, core. cbn.
    assert (Q : a * t * t + 2 * b * t + c = (vx r + t * vx v) * (vx r + t * vx v) + (vy r + t * vy v) * (vy r + t * vy v) + (vz r + t * vz v) * (vz r + t * vz v) - R0 * R0).
    { unfold a, b, c, vdot. ring. }
    rewrite Q. lra. }
  rewrite E. destruct (Rltb (b * b - a * c) 0) eqn:F.
  - apply Rltb_t in F. cbn. split; [intros []|]. intros H. now apply (quad_none a b c t F).
  - apply Rltb_f in F. cbn [In]. destruct (Req_EM_T (b * b - a * c) 0) as [Z|Z].
    + rewrite (quad_root0 a b c t) by lra. rewrite Z, sqrt_0. replace (- (b + 0)) with (- b) by ring. replace (- (b - 0)) with (- b) by ring. intuition.
    + rewrite (quad_roots a b c t) by lra. set (s := sqrt _). replace (- (b + s)) with (- b - s) by ring. replace (- (b - s)) with (- b + s) by ring. intuition.
Qed.

(** ** pyramid *)
Lemma vdot_vdiv_l a l b : vdot (vdiv a l) b = vdot a b / l.
Proof. unfold vdot, vdiv, Rdiv. cbn. ring. Qed.
Lemma vcross_vdiv_l a l b : vcross (vdiv a l) b = vdiv (vcross a b) l.
Proof. apply vec_eq; cbn; unfold Rdiv; ring. Qed.
Lemma vdot_vdiv_r a l b : vdot b (vdiv a l) = vdot b a / l.
Proof. unfold vdot, vdiv, Rdiv. cbn. ring. Qed.
Lemma vnorm_sq v : vnorm v * vnorm v = vdot v v.
Proof. unfold vnorm. apply sqrt_sqrt. unfold vdot. pose proof (Rle_0_sqr (vx v)). pose proof (Rle_0_sqr (vy v)). pose proof (Rle_0_sqr (vz v)). unfold Rsqr in *. lra. Qed.
Lemma plane_coords AB AC AP : let N := vcross AB AC in vdot AP N = 0 -> 0 < vdot N N ->
  AP = vadd (vscale (- vdot AP (vcross N AC) / vdot N N) AB) (vscale (vdot AP (vcross N AB) / vdot N N) AC).
Proof.
  intros N P0 NN.
  assert (ID : vscale (vdot N N) AP = vadd (vscale (- vdot AP (vcross N AC)) AB) (vadd (vscale (vdot AP (vcross N AB)) AC) (vscale (vdot AP N) N))).
  { unfold N. destruct AP, AB, AC. unfold vscale, vadd, vdot, vcross. cbn. apply mk_eq; ring. }
  rewrite P0 in ID. clearbody N.
  pose proof (f_equal vx ID) as I1. pose proof (f_equal vy ID) as I2. pose proof (f_equal vz ID) as I3. cbn [vx vy vz vadd vscale] in I1, I2, I3.
  apply vec_eq; cbn [vadd vscale vx vy vz]; apply (Rmult_eq_reg_l (vdot N N)); try lra; [rewrite I1|rewrite I2|rewrite I3]; field; lra.
Qed.
Lemma triangle_in r v A B C t : vcross (vsub B A) (vsub C A) <> mkV 0 0 0 ->
  In t (intersectTriangle r v A B C) -> exists c1 c2, 0 <= c1 /\ 0 <= c2 /\ c1 + c2 <= 1 /\
    on_line r v t = vadd A (vadd (vscale c1 (vsub B A)) (vscale c2 (vsub C A))).
Proof.
  intros N0. unfold intersectTriangle. set (AB := vsub B A) in *. set (AC := vsub C A) in *. set (N := vcross AB AC) in *.
  pose proof (vnorm_pos N N0) as L. set (l := vnorm N) in *.
  rewrite !vcross_vdiv_l, !vdot_vdiv_l. destruct (Rltb (Rabs (vdot N v / l)) _) eqn:E1; [intros []|]. apply Rltb_f in E1.
  assert (NV : vdot N v <> 0).
  { intros K. rewrite K in E1. unfold Rdiv in E1. rewrite Rmult_0_l, Rabs_R0 in E1. assert (0 < 1 * / 10 ^ 10) by (rewrite Rmult_1_l; apply Rinv_0_lt_compat, pow_lt; lra). lra. }
  assert (TT : (vdot N A / l - vdot N r / l) / (vdot N v / l) = (vdot N A - vdot N r) / vdot N v) by (field; split; [exact NV|lra]).
  rewrite TT. set (t0 := (vdot N A - vdot N r) / vdot N v) in *. set (AP := vsub (vadd r (vscale t0 v)) A).
  rewrite !vdot_vdiv_r.
  assert (P0 : vdot AP N = 0).
  { unfold AP. transitivity (vdot N r + t0 * vdot N v - vdot N A); [unfold vdot; cbn; ring|]. unfold t0. field. exact NV. }
  assert (NN : 0 < vdot N N) by (apply dot_pos; exact N0).
  assert (D1 : vdot AB (vcross N AC) = - vdot N N) by (unfold N; destruct AB, AC; unfold vdot, vcross; cbn; ring).
  assert (D2 : vdot AC (vcross N AB) = vdot N N) by (unfold N; destruct AB, AC; unfold vdot, vcross; cbn; ring).
  assert (C1 : vdot AP (vcross N AC) / l / (vdot AB (vcross N AC) / l) = - vdot AP (vcross N AC) / vdot N N) by (rewrite D1; field; split; lra).
  assert (C2 : vdot AP (vcross N AB) / l / (vdot AC (vcross N AB) / l) = vdot AP (vcross N AB) / vdot N N) by (rewrite D2; field; split; lra).
  rewrite C1, C2. set (c1 := - vdot AP (vcross N AC) / vdot N N). set (c2 := vdot AP (vcross N AB) / vdot N N).
  destruct (Rltb c1 0) eqn:E2; [intros []|]. destruct (Rltb c2 0) eqn:E3; [intros []|]. destruct (Rltb 1 (c1 + c2)) eqn:E4; [intros []|].
  apply Rltb_f in E2. apply Rltb_f in E3. apply Rltb_f in E4. intros [<-|[]]. exists c1, c2. split; [exact E2|]. split; [exact E3|]. split; [exact E4|].
  pose proof (plane_coords AB AC AP P0 NN) as F. fold N in F. fold c1 in F. fold c2 in F.
  rewrite <- F. unfold AP. apply vec_eq; cbn; ring.
Qed.
Lemma line_scaled r v t : v <> mkV 0 0 0 -> on_line r (vscale (1 / vnorm v) v) t = on_line r v (t / vnorm v).
Proof. intros V. pose proof (vnorm_pos v V). apply vec_eq; cbn; field; lra. Qed.
Lemma scaled_z v : v <> mkV 0 0 0 -> vz (vscale (1 / vnorm v) v) = 0 <-> vz v = 0.
Proof.
  intros V. pose proof (vnorm_pos v V) as H. cbn. split; [|intros ->; ring]. intros E.
  apply (Rmult_eq_reg_l (1 / vnorm v)); [lra|]. unfold Rdiv. rewrite Rmult_1_l. apply Rinv_neq_0_compat. lra.
Qed.
Lemma pyr_point X Y H p : 0 < X -> 0 < Y -> 0 < H ->
  vz p = - H /\ 2 * Rabs (vx p) < X /\ 2 * Rabs (vy p) < Y \/
  (- H <= vz p <= 0 /\ (2 * H * Rabs (vx p) = X * - vz p /\ 2 * H * Rabs (vy p) <= Y * - vz p \/ 2 * H * Rabs (vy p) = Y * - vz p /\ 2 * H * Rabs (vx p) <= X * - vz p)) ->
  border (Pyramid X Y H) p.
Proof.
  intros HX HY HH. unfold border, solid, core. cbn. intros [(A & B & C)|(A & [(B & C)|(B & C)])].
  - rewrite A. split; [|lra]. split; [lra|]. split; [lra|]. split; nra.
  - split; lra.
  - split; lra.
Qed.
Lemma abs_scaled H X w : 0 < H -> 0 < X -> 0 <= w -> 2 * H * Rabs (w * (X / 2)) = X * (w * H) /\ 2 * H * Rabs (w * (- X / 2)) = X * (w * H).
Proof.
  intros HH HX Hw. rewrite Rabs_right by nra. split; [field|].
  replace (w * (- X / 2)) with (- (w * (X / 2))) by field. rewrite Rabs_Ropp, Rabs_right by nra. field.
Qed.
Lemma abs_mixed H Y c1 c2 : 0 < H -> 0 < Y -> 0 <= c1 -> 0 <= c2 -> 2 * H * Rabs (c1 * (Y / 2) + c2 * (- Y / 2)) <= Y * ((c1 + c2) * H).
Proof.
  intros. assert (K : Rabs (c1 * (Y / 2) + c2 * (- Y / 2)) <= (c1 + c2) * (Y / 2)) by (apply Rabs_le; split; nra). nra.
Qed.
Lemma pyr_cand_border X Y H r d t : 0 < X -> 0 < Y -> 0 < H -> In t (pyramid_candidates X Y H r d) -> border (Pyramid X Y H) (on_line r d t).
Proof.
  intros HX HY HH. unfold pyramid_candidates. rewrite !in_app_iff, in_if, Reqb_false. intros [[N K]|K].
  { apply rect_in in K; [|exact N]. apply pyr_point; auto. left. cbn. rewrite !(Rmult_comm t). lra. }
  assert (HXY : 0 < X * Y) by nra. assert (HXH : 0 < X * H) by nra. assert (HYH : 0 < Y * H) by nra.
  apply pyr_point; auto. right.
  destruct K as [K|[K|[K|K]]]; (apply triangle_in in K; [|unfold vcross; cbn; intros E; injection E; intros; nra]);
    destruct K as (c1 & c2 & P1 & P2 & P3 & ->); cbn [vadd vscale vsub vx vy vz].
  - replace (0 + (c1 * (X / 2 - 0) + c2 * (X / 2 - 0))) with ((c1 + c2) * (X / 2)) by ring.
    replace (0 + (c1 * (Y / 2 - 0) + c2 * (- Y / 2 - 0))) with (c1 * (Y / 2) + c2 * (- Y / 2)) by ring.
    replace (0 + (c1 * (- H - 0) + c2 * (- H - 0))) with (- ((c1 + c2) * H)) by ring. rewrite Ropp_involutive.
    pose proof (abs_scaled H X (c1 + c2) HH HX ltac:(lra)) as [A1 A2]. pose proof (abs_mixed H Y c1 c2 HH HY P1 P2). split; [nra|]. left. split; [exact A1|lra].
  - replace (0 + (c1 * (X / 2 - 0) + c2 * (- X / 2 - 0))) with (c1 * (X / 2) + c2 * (- X / 2)) by ring.
    replace (0 + (c1 * (- Y / 2 - 0) + c2 * (- Y / 2 - 0))) with ((c1 + c2) * (- Y / 2)) by ring.
    replace (0 + (c1 * (- H - 0) + c2 * (- H - 0))) with (- ((c1 + c2) * H)) by ring. rewrite Ropp_involutive.
    pose proof (abs_scaled H Y (c1 + c2) HH HY ltac:(lra)) as [A1 A2]. pose proof (abs_mixed H X c1 c2 HH HX P1 P2). split; [nra|]. right. split; [exact A2|lra].
  - replace (0 + (c1 * (- X / 2 - 0) + c2 * (- X / 2 - 0))) with ((c1 + c2) * (- X / 2)) by ring.
    replace (0 + (c1 * (- Y / 2 - 0) + c2 * (Y / 2 - 0))) with (c2 * (Y / 2) + c1 * (- Y / 2)) by ring.
    replace (0 + (c1 * (- H - 0) + c2 * (- H - 0))) with (- ((c1 + c2) * H)) by ring. rewrite Ropp_involutive.
    pose proof (abs_scaled H X (c1 + c2) HH HX ltac:(lra)) as [A1 A2]. pose proof (abs_mixed H Y c2 c1 HH HY P2 P1). split; [nra|]. left. split; [exact A2|lra].
  - replace (0 + (c1 * (- X / 2 - 0) + c2 * (X / 2 - 0))) with (c2 * (X / 2) + c1 * (- X / 2)) by ring.
    replace (0 + (c1 * (Y / 2 - 0) + c2 * (Y / 2 - 0))) with ((c1 + c2) * (Y / 2)) by ring.
    replace (0 + (c1 * (- H - 0) + c2 * (- H - 0))) with (- ((c1 + c2) * H)) by ring. rewrite Ropp_involutive.
    pose proof (abs_scaled H Y (c1 + c2) HH HY ltac:(lra)) as [A1 A2]. pose proof (abs_mixed H X c2 c1 HH HX P2 P1). split; [nra|]. right. split; [exact A1|lra].
Qed.
Lemma pyr_border tol X Y H r v t : 0 < X -> 0 < Y -> 0 < H -> In t (intersect_pyramid tol X Y H r v) -> border (Pyramid X Y H) (on_line r v t).
Proof.
  intros HX HY HH. unfold intersect_pyramid. destruct (isInvalidDirection v) eqn:E; [intros []|].
  assert (V : v <> mkV 0 0 0) by (intros K; apply invalid_iff in K; congruence).
  set (l := pyramid_candidates X Y H r (vscale (1 / vnorm v) v)).
  assert (S : forall u, In u (unique tol (rsort l)) -> border (Pyramid X Y H) (on_line r v (u / vnorm v))).
  { intros u Hu. apply unique_in in Hu. rewrite rsort_in in Hu. unfold l in Hu. apply pyr_cand_border in Hu; auto. now rewrite line_scaled in Hu. }
  destruct (unique tol (rsort l)) as [|a [|b [|c m]]]; try solve [intros []].
  rewrite in_map_iff. intros (u & <- & Hu). apply order2_in in Hu. apply S. destruct Hu as [->| ->]; cbn; auto.
Qed.

(** ** transformations *)
Lemma line_dil k r v t : on_line (vscale k r) (vscale k v) t = vscale k (on_line r v t).
Proof. apply vec_eq; cbn; ring. Qed.
Lemma line_tr r v w t : on_line (vsub r w) v t = vsub (on_line r v t) w.
Proof. apply vec_eq; cbn; ring. Qed.
Lemma line_rot m r v t : on_line (dot_mv m r) (dot_mv m v) t = dot_mv m (on_line r v t).
Proof. apply vec_eq; cbn; ring. Qed.
Lemma arrow_line r v t : arrow_at r v t = on_line r v t.
Proof. reflexivity. Qed.

(** ** soundness *)
Lemma border_dil s k p : k <> 0 -> border (Dilation s k) p <-> border s (vscale (1 / k) p).
Proof. intros K. unfold border. now rewrite solid_dil, core_dil. Qed.
Lemma border_tr s v p : border (Translation s v) p <-> border s (vsub p v).
Proof. unfold border. now rewrite solid_tr, core_tr. Qed.
Lemma border_rot s m p : orthogonal m -> border (Rotation s m) p <-> border s (dot_mv (transpose m) p).
Proof. intros K. unfold border. now rewrite solid_rot, core_rot. Qed.
Lemma comp_in tol s r v members t :
  In t (visit_composition tol s r v members) <-> locate tol s (on_line r v t) = Onborder /\ exists l, In l members /\ In t l.
Proof.
  unfold visit_composition. rewrite rsort_in, in_flat_map. split.
  - intros (l & Hl & H). apply filter_In in H as [H1 H2]. unfold on_border_of in H2. rewrite arrow_line in H2.
    split; [destruct (locate tol s (on_line r v t)); cbn in H2; congruence|eauto].
  - intros (H & l & Hl & Ht). exists l. split; [exact Hl|]. apply filter_In. split; [exact Ht|]. unfold on_border_of. now rewrite arrow_line, H.
Qed.
Lemma box_border X Y Z r v t : 0 < X -> 0 < Y -> 0 < Z -> In t (intersect_box X Y Z r v) -> border (Box X Y Z) (on_line r v t).
Proof.
  intros HX HY HZ. unfold intersect_box. destruct (isInvalidDirection v); [intros []|].
  assert (S : forall u, In u (box_candidates X Y Z r v) -> border (Box X Y Z) (on_line r v u)).
  { intros u Hu. apply box_in in Hu; auto. now apply face_solid in Hu. }
  destruct (box_candidates X Y Z r v) as [|a [|b [|c m]]]; try solve [intros []].
  intros Hu. apply order2_in in Hu. apply S. destruct Hu as [->| ->]; cbn; auto.
Qed.
Lemma cyl_border tol R0 h r v t : 0 <= h -> In t (intersect_cylinder tol R0 h r v) -> border (Cylinder R0 h) (on_line r v t).
Proof.
  intros Hh. unfold intersect_cylinder. destruct (isInvalidDirection v); [intros []|].
  assert (S : forall u, In u (cylinder_candidates R0 h r v) -> border (Cylinder R0 h) (on_line r v u)) by (intros u; now apply cyl_cand_border).
  destruct (cylinder_candidates R0 h r v) as [|a [|b [|c m]]]; try solve [intros []].
  - intros Hu. apply order2_in in Hu. apply S. destruct Hu as [->| ->]; cbn; auto.
  - pose proof (fun u => unique_in tol (a :: b :: c :: m) u) as U. destruct (unique tol _) as [|a' [|b' [|c' m']]]; try solve [intros []].
    intros Hu. apply order2_in in Hu. apply S, U. destruct Hu as [->| ->]; cbn; auto.
Qed.
Lemma fold_and_map {A} (P : A -> Prop) l : fold_right and True (map P l) <-> Forall P l.
Proof. induction l; cbn; [split; auto|]. rewrite Forall_cons_iff, IHl. reflexivity. Qed.
Lemma positive_wf s : positive s -> wf s.
Proof.
  induction s using shape_ind2; cbn; try lra; try tauto; intros H0; apply fold_and_map; apply fold_and_map in H0; rewrite Forall_forall in *; auto.
Qed.
Lemma plain_border tol s : plain s -> positive s -> forall r v t, In t (intersect tol s r v) -> border s (on_line r v t).
Proof.
  induction s using shape_ind2; cbn [plain]; intros PL PO r0 v0 t Ht; try contradiction; cbn [intersect] in Ht.
  - destruct PO as (? & ? & ?). now apply box_border. - destruct PO. apply cyl_border in Ht; [exact Ht|lra].
  - destruct PO as (? & ? & ?). eapply pyr_border; eauto.
  - destruct (isInvalidDirection v0) eqn:E; [unfold intersect_sphere in Ht; now rewrite E in Ht|].
    apply sphere_in in Ht; [exact Ht|]. intros K. apply invalid_iff in K. congruence.
  - destruct PO as [PO K]. rewrite border_dil by exact K. rewrite <- line_dil. now apply IHs.
  - rewrite border_tr, <- line_tr. now apply IHs.
  - destruct PO as [PO K]. rewrite border_rot by exact K. rewrite <- line_rot. now apply IHs.
Qed.
Lemma intersect_onborder tol s : 0 < tol -> positive s -> ~ plain_cone s -> forall r v t, In t (intersect tol s r v) -> locate tol s (on_line r v t) = Onborder.
Proof.
  intros Ht. induction s using shape_ind2; intros PO NC r0 v0 t Hin.
  1,2,3,5: (apply (locate_right tol); [now apply positive_wf|exact Ht|]; apply (plain_border tol); auto; exact I).
  - exfalso. apply NC. exact I.
  - cbn [intersect] in Hin. now apply comp_in in Hin.
  - cbn [intersect] in Hin. now apply comp_in in Hin.
  - cbn [intersect] in Hin. now apply comp_in in Hin.
  - destruct PO as [PO K]. cbn [intersect locate] in *. rewrite <- line_dil. now apply IHs.
  - cbn [intersect locate] in *. rewrite <- line_tr. now apply IHs.
  - destruct PO as [PO K]. cbn [intersect locate] in *. rewrite <- line_rot. now apply IHs.
Qed.
(** the surface of a composition is part of the surfaces of its members *)
Lemma vscale_nz k v : k <> 0 -> v <> mkV 0 0 0 -> vscale k v <> mkV 0 0 0.
Proof. intros K V E. apply V. assert (H : vscale (1 / k) (vscale k v) = vscale (1 / k) (mkV 0 0 0)) by now rewrite E. rewrite vscale_inv2 in H by exact K. rewrite H. apply vec_eq; cbn; ring. Qed.
Lemma rot_nz m v : orthogonal m -> v <> mkV 0 0 0 -> dot_mv m v <> mkV 0 0 0.
Proof. intros K V E. apply V. rewrite <- (orth_left m v K), E. apply vec_eq; cbn; ring. Qed.
Lemma intersect_complete tol s : 0 < tol -> positive s -> forall r v, v <> mkV 0 0 0 -> regular s r v ->
  forall t, border s (on_line r v t) -> In t (intersect tol s r v).
Proof.
  intros Ht. induction s using shape_ind2; intros PO r0 v0 V RG t B; cbn [intersect].
  - destruct PO as (HX & HY & HZ). destruct RG as [N|[M NE]]; [exfalso; apply (N t), B|].
    destruct (box_exact X Y Z r0 v0 HX HY HZ V) as [_ E]. destruct (E M) as (t1 & t2 & EE & _ & F).
    destruct EE as (L & HC & HS).
    assert (SD : forall u, u = t1 \/ u = t2 -> border (Box X Y Z) (on_line r0 v0 u)) by (intros u Hu; split; [rewrite HS|rewrite HC]; lra).
    rewrite F by (apply NE, SD; auto). destruct B as [B1 B2]. rewrite HS in B1. rewrite HC in B2. cbn. lra.
  - destruct RG as [N|M]; [exfalso; apply (N t), B|]. destruct (cyl_exact tol r h r0 v0 V M) as (t1 & t2 & (L & HC & HS) & ->).
    destruct B as [B1 B2]. rewrite HS in B1. rewrite HC in B2. cbn. lra.
  - destruct RG. - destruct RG.
  - now apply sphere_in.
  - assert (W : wf (Difference s1 s2)) by now apply positive_wf. destruct W as [W1 W2]. destruct PO as [P1 P2]. destruct RG as [R1 R2].
    apply comp_in. split; [apply locate_right; [split; assumption|exact Ht|exact B]|].
    unfold border in B. rewrite solid_diff, core_diff in B. destruct B as [[B1 B2] B3].
    destruct (core_dec s1 (on_line r0 v0 t) W1) as [C|C].
    + exists (intersect tol s2 r0 v0). split; [cbn; auto|]. apply IHs2; auto. split; [|exact B2].
      destruct (solid_dec s2 (on_line r0 v0 t) W2); tauto.
    + exists (intersect tol s1 r0 v0). split; [cbn; auto|]. apply IHs1; auto. now split.
  - assert (W : wf (Intersection l)) by now apply positive_wf.
    apply comp_in. split; [apply locate_right; [exact W|exact Ht|exact B]|].
    cbn in W, PO, RG. apply wf_list in W. apply fold_and_map in PO. apply fold_and_map in RG.
    destruct B as [B1 B2]. rewrite solid_inter in B1. rewrite core_inter in B2.
    apply not_forall in B2; [|rewrite Forall_forall in W; intros; apply core_dec; auto]. apply Exists_exists in B2. destruct B2 as (s & Hs & C).
    rewrite Forall_forall in *. exists (intersect tol s r0 v0). split; [apply (in_map (fun s' => intersect tol s' r0 v0)), Hs|].
    apply H; auto. split; auto.
  - assert (W : wf (Union l)) by now apply positive_wf.
    apply comp_in. split; [apply locate_right; [exact W|exact Ht|exact B]|].
    cbn in W, PO, RG. apply wf_list in W. apply fold_and_map in PO. apply fold_and_map in RG.
    destruct B as [B1 B2]. rewrite solid_union in B1. rewrite core_union in B2. apply Exists_exists in B1. destruct B1 as (s & Hs & C).
    rewrite Forall_forall in *. exists (intersect tol s r0 v0). split; [apply (in_map (fun s' => intersect tol s' r0 v0)), Hs|].
    apply H; auto. split; [exact C|]. intros K. apply B2. apply Exists_exists. eauto.
  - destruct PO as [PO K]. rewrite border_dil in B by exact K. rewrite <- line_dil in B. apply IHs; auto.
    apply vscale_nz; [|exact V]. unfold Rdiv. rewrite Rmult_1_l. now apply Rinv_neq_0_compat.
  - rewrite border_tr, <- line_tr in B. now apply IHs.
  - destruct PO as [PO K]. rewrite border_rot in B by exact K. rewrite <- line_rot in B. apply IHs; auto.
    apply rot_nz; [now apply orth_transpose|exact V].
Qed.

(** ** cone *)
Lemma vnorm_unit v : v <> mkV 0 0 0 -> vnorm (vscale (1 / vnorm v) v) = 1.
Proof.
  intros V. pose proof (vnorm_pos v V) as P. unfold vnorm at 1.
  assert (E : vdot (vscale (1 / vnorm v) v) (vscale (1 / vnorm v) v) = 1).
  { transitivity (vdot v v / (vnorm v * vnorm v)); [unfold vdot; cbn; field; lra|]. rewrite vnorm_sq. field. pose proof (dot_pos v V). lra. }
  rewrite E. apply sqrt_1.
Qed.
Lemma vdiv_1 v : vdiv v 1 = v.
Proof. apply vec_eq; cbn; field. Qed.
Lemma half_quad a b c t : a <> 0 -> 0 <= b * b - 4 * a * c ->
  t = (- b - sqrt (b * b - 4 * a * c)) / 2 / a / 1 \/ t = (- b + sqrt (b * b - 4 * a * c)) / 2 / a / 1 -> a * t * t + b * t + c = 0.
Proof.
  intros Ha K. pose proof (sqrt_sqrt _ K) as S. set (q := sqrt _) in *. intros [-> | ->].
  - replace (a * ((- b - q) / 2 / a / 1) * ((- b - q) / 2 / a / 1) + b * ((- b - q) / 2 / a / 1) + c) with ((q * q - b * b + 4 * a * c) / (4 * a)) by (field; exact Ha). rewrite S. field. exact Ha.
  - replace (a * ((- b + q) / 2 / a / 1) * ((- b + q) / 2 / a / 1) + b * ((- b + q) / 2 / a / 1) + c) with ((q * q - b * b + 4 * a * c) / (4 * a)) by (field; exact Ha). rewrite S. field. exact Ha.
Qed.
Definition cone_point (tol R0 h : R) (p : vec3) : Prop :=
  h * h * (vx p * vx p + vy p * vy p) = R0 * R0 * (vz p * vz p) /\ - h - tol / 10 <= vz p < tol / 10 \/
  vz p = - h /\ vx p * vx p + vy p * vy p < R0 * R0.
Lemma cone_sound tol R0 h r v t : 0 < tol -> 0 < R0 -> 0 < h -> steep tol R0 h v ->
  In t (intersect_cone tol R0 h r v) -> cone_point tol R0 h (on_line r v t).
Proof.
  intros Ht HR Hh ST. unfold intersect_cone. destruct (isInvalidDirection v) eqn:E; [intros []|].
  assert (V : v <> mkV 0 0 0) by (intros K; apply invalid_iff in K; congruence). pose proof (vnorm_pos v V) as P.
  set (d := vscale (1 / vnorm v) v). set (l := cone_candidates tol R0 h r d).
  assert (C : forall u, In u l -> cone_point tol R0 h (on_line r d u)).
  { intros u. unfold l, cone_candidates. rewrite in_app_iff, filter_In, in_if, Reqb_false. intros [[A B]|[A B]].
    - left. apply Bool.andb_true_iff in B as [B1 B2]. apply Rltb_t in B1. apply Bool.negb_true_iff, Rltb_f in B2. split; [|cbn in *; lra].
      unfold cone_roots in A. cbv zeta in A. rewrite (vnorm_unit v V : vnorm d = 1), vdiv_1 in A.
      set (V0 := mkV 0 0 (-1)) in A. set (cs := h * h / (R0 * R0 + h * h)) in A.
      set (a := vdot d V0 * vdot d V0 - cs) in A. set (b := 2 * (vdot d V0 * vdot r V0 - vdot d r * cs)) in A. set (c := vdot r V0 * vdot r V0 - vdot r r * cs) in A.
      assert (HH : 0 < R0 * R0 + h * h) by nra.
      assert (AA : ~ Rabs (a - 0) < tol / 5).
      { intros K. unfold steep in ST. replace (norm2 v) with (vdot v v) in ST by reflexivity. rewrite <- vnorm_sq in ST.
        assert (EQ : vz v * vz v * (R0 * R0 + h * h) - h * h * (vnorm v * vnorm v) = (a - 0) * (vnorm v * vnorm v * (R0 * R0 + h * h))).
        { unfold a, cs, V0, vdot, d. cbn. field. split; lra. }
        assert (PP : 0 < vnorm v * vnorm v * (R0 * R0 + h * h)) by (apply Rmult_lt_0_compat; [apply Rmult_lt_0_compat; exact P|exact HH]).
        rewrite EQ, Rabs_mult, (Rabs_right (vnorm v * vnorm v * (R0 * R0 + h * h))) in ST by (left; exact PP).
        apply Rmult_lt_compat_r with (r := vnorm v * vnorm v * (R0 * R0 + h * h)) in K; [lra|exact PP]. }
      destruct (eq_withinepsilon tol a 0) eqn:EA; [unfold eq_withinepsilon in EA; apply Rltb_t in EA; contradiction|].
      assert (NZ : a <> 0) by (intros K; apply AA; rewrite K; replace (0 - 0) with 0 by ring; rewrite Rabs_R0; lra).
      destruct (Rltb (b * b - 4 * a * c) 0) eqn:ED; [destruct A|]. apply Rltb_f in ED.
      assert (Q : a * u * u + b * u + c = 0). { apply half_quad; auto. destruct A as [A|[A|[]]]; [left|right]; now symmetry. }
      assert (DD : vdot d d = 1) by (rewrite <- vnorm_sq, (vnorm_unit v V : vnorm d = 1); ring).
      assert (F : a * u * u + b * u + c = (R0 * R0 * (vz (on_line r d u) * vz (on_line r d u)) - h * h * (vx (on_line r d u) * vx (on_line r d u) + vy (on_line r d u) * vy (on_line r d u))) / (R0 * R0 + h * h) + cs * u * u * (vdot d d - 1)).
      { unfold a, b, c, cs, V0, vdot. cbn [on_line vx vy vz]. field. lra. }
      rewrite Q, DD in F. apply (f_equal (fun q => q * (R0 * R0 + h * h))) in F. unfold Rdiv in F. rewrite Rmult_plus_distr_r, Rmult_assoc, Rinv_l in F by lra. lra.
    - right. destruct (Rltb _ _) eqn:B1 in B; [|destruct B]. destruct B as [<-|[]]. apply Rltb_t in B1. clearbody d. cbn.
      split; [field; exact A|]. rewrite !(Rmult_comm ((- h - vz r) / _)). exact B1. }
  assert (S : forall u, In u (unique tol (rsort l)) -> cone_point tol R0 h (on_line r v (u / vnorm v))).
  { intros u Hu. apply unique_in in Hu. rewrite rsort_in in Hu. apply C in Hu. unfold d in Hu. now rewrite line_scaled in Hu. }
  destruct (unique tol (rsort l)) as [|a [|b [|c [|e m]]]]; try solve [intros []].
  - rewrite in_map_iff. intros (u & <- & Hu). apply order2_in in Hu. apply S. destruct Hu as [->| ->]; cbn; auto.
  - rewrite in_map_iff. intros (u & <- & Hu). apply order2_in in Hu. apply S. destruct Hu as [->| ->]; [cbn; auto|]. destruct (Rltb _ _); cbn; auto.
Qed.
