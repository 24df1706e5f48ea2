(** Proofs about Locator (C34). *)
From Coq Require Import Reals Lra Psatz.
From Verif Require Import Base RotModel RotSpec RotProofs ChanModel ChanProofs ShapeModel ShapeSpec.
Open Scope R_scope.

(** ** induction over shapes *)
Section shape_ind2.
Variable P : shape -> Prop.
Hypothesis HB : forall X Y Z, P (Box X Y Z).
Hypothesis HC : forall r h, P (Cylinder r h).
Hypothesis HP : forall X Y h, P (Pyramid X Y h).
Hypothesis HK : forall r h, P (Cone r h).
Hypothesis HS : forall r, P (Sphere r).
Hypothesis HD : forall a b, P a -> P b -> P (Difference a b).
Hypothesis HI : forall l, Forall P l -> P (Intersection l).
Hypothesis HU : forall l, Forall P l -> P (Union l).
Hypothesis HL : forall s k, P s -> P (Dilation s k).
Hypothesis HT : forall s v, P s -> P (Translation s v).
Hypothesis HR : forall s m, P s -> P (Rotation s m).
Fixpoint shape_ind2 (s : shape) : P s :=
  match s with
  | Box X Y Z => HB X Y Z | Cylinder r h => HC r h | Pyramid X Y h => HP X Y h | Cone r h => HK r h | Sphere r => HS r
  | Difference a b => HD a b (shape_ind2 a) (shape_ind2 b)
  | Intersection l => HI l ((fix go l := match l return Forall P l with [] => Forall_nil P | s :: l' => Forall_cons s (shape_ind2 s) (go l') end) l)
  | Union l => HU l ((fix go l := match l return Forall P l with [] => Forall_nil P | s :: l' => Forall_cons s (shape_ind2 s) (go l') end) l)
  | Dilation s k => HL s k (shape_ind2 s)
  | Translation s v => HT s v (shape_ind2 s)
  | Rotation s m => HR s m (shape_ind2 s)
  end.
End shape_ind2.

(** ** unfolding the sets *)
Lemma solid_diff a b p : solid (Difference a b) p <-> solid a p /\ ~ core b p.
Proof. reflexivity. Qed.
Lemma core_diff a b p : core (Difference a b) p <-> core a p /\ ~ solid b p.
Proof. reflexivity. Qed.
Lemma solid_inter l p : solid (Intersection l) p <-> Forall (fun s => solid s p) l.
Proof. unfold solid at 1. cbn. rewrite Forall_map. reflexivity. Qed.
Lemma core_inter l p : core (Intersection l) p <-> Forall (fun s => core s p) l.
Proof. unfold core at 1. cbn. rewrite Forall_map. reflexivity. Qed.
Lemma solid_union l p : solid (Union l) p <-> Exists (fun s => solid s p) l.
Proof. unfold solid at 1. cbn. rewrite Exists_map. reflexivity. Qed.
Lemma core_union l p : core (Union l) p <-> Exists (fun s => core s p) l.
Proof. unfold core at 1. cbn. rewrite Exists_map. reflexivity. Qed.
Lemma vec_eq a b : vx a = vx b -> vy a = vy b -> vz a = vz b -> a = b.
Proof. destruct a, b. cbn. congruence. Qed.
Lemma vscale_inv k p : k <> 0 -> vscale k (vscale (1 / k) p) = p.
Proof. intros H. apply vec_eq; cbn; field; exact H. Qed.
Lemma vscale_inv2 k p : k <> 0 -> vscale (1 / k) (vscale k p) = p.
Proof. intros H. apply vec_eq; cbn; field; exact H. Qed.
Lemma vadd_vsub p v : vadd (vsub p v) v = p.
Proof. apply vec_eq; cbn; ring. Qed.
Lemma vsub_vadd p v : vsub (vadd p v) v = p.
Proof. apply vec_eq; cbn; ring. Qed.
Lemma solid_dil s k p : k <> 0 -> solid (Dilation s k) p <-> solid s (vscale (1 / k) p).
Proof.
  intros H. unfold solid at 1. cbn. split.
  - intros (q & Hq & ->). rewrite vscale_inv2 by exact H. exact Hq.
  - intros Hq. eexists. split; [exact Hq|]. now rewrite vscale_inv.
Qed.
Lemma core_dil s k p : k <> 0 -> core (Dilation s k) p <-> core s (vscale (1 / k) p).
Proof.
  intros H. unfold core at 1. cbn. split.
  - intros (q & Hq & ->). rewrite vscale_inv2 by exact H. exact Hq.
  - intros Hq. eexists. split; [exact Hq|]. now rewrite vscale_inv.
Qed.
Lemma solid_tr s v p : solid (Translation s v) p <-> solid s (vsub p v).
Proof.
  unfold solid at 1. cbn. split.
  - intros (q & Hq & ->). rewrite vsub_vadd. exact Hq.
  - intros Hq. eexists. split; [exact Hq|]. now rewrite vadd_vsub.
Qed.
Lemma core_tr s v p : core (Translation s v) p <-> core s (vsub p v).
Proof.
  unfold core at 1. cbn. split.
  - intros (q & Hq & ->). rewrite vsub_vadd. exact Hq.
  - intros Hq. eexists. split; [exact Hq|]. now rewrite vadd_vsub.
Qed.

(** ** orthogonal matrices *)
Lemma orth_left m p : orthogonal m -> dot_mv (transpose m) (dot_mv m p) = p.
Proof. intros H. apply orth_iff in H. rewrite <- dot_matmul, H, dot_I. reflexivity. Qed.
Definition kmat (k : R) : mat3 := mkM k 0 0 0 k 0 0 0 k.
Lemma adj_det m : matmul m (adj m) = kmat (det m).
Proof. destruct m. unfold det, matmul, adj, kmat; cbn in *. apply mkM_eq; ring. Qed.
Lemma orth_right_mat m : orthogonal m -> matmul m (transpose m) = I3.
Proof.
  intros H. apply orth_iff in H.
  assert (D : det m * det m = 1).
  { rewrite <- det_transpose at 1. rewrite <- det_matmul, H. unfold det, I3. cbn. ring. }
  assert (D0 : det m <> 0) by (intros E; rewrite E in D; lra).
  assert (E : adj m = matmul (transpose m) (kmat (det m))).
  { rewrite <- adj_det, matmul_assoc, H, matmul_I_l. reflexivity. }
  pose proof (adj_det m) as A. rewrite E, matmul_assoc in A.
  set (n := matmul m (transpose m)) in *.
  assert (F : matmul (matmul n (kmat (det m))) (kmat (/ det m)) = matmul (kmat (det m)) (kmat (/ det m))) by now rewrite A.
  rewrite <- matmul_assoc in F.
  assert (G : matmul (kmat (det m)) (kmat (/ det m)) = I3).
  { unfold matmul, kmat, I3. cbn. apply mkM_eq; field; exact D0. }
  rewrite G, matmul_I_r in F. exact F.
Qed.
Lemma orth_right m p : orthogonal m -> dot_mv m (dot_mv (transpose m) p) = p.
Proof. intros H. rewrite <- dot_matmul, orth_right_mat by exact H. apply dot_I. Qed.
Lemma orth_transpose m : orthogonal m -> orthogonal (transpose m).
Proof. intros H. unfold orthogonal. apply orth_iff. rewrite transpose_inv. now apply orth_right_mat. Qed.
Lemma solid_rot s m p : orthogonal m -> solid (Rotation s m) p <-> solid s (dot_mv (transpose m) p).
Proof.
  intros H. unfold solid at 1. cbn. split.
  - intros (q & Hq & ->). rewrite orth_left by exact H. exact Hq.
  - intros Hq. eexists. split; [exact Hq|]. now rewrite orth_right.
Qed.
Lemma core_rot s m p : orthogonal m -> core (Rotation s m) p <-> core s (dot_mv (transpose m) p).
Proof.
  intros H. unfold core at 1. cbn. split.
  - intros (q & Hq & ->). rewrite orth_left by exact H. exact Hq.
  - intros Hq. eexists. split; [exact Hq|]. now rewrite orth_right.
Qed.

(** ** small facts *)
Lemma Rsqr_le_abs a b : 0 <= b -> a * a <= b * b -> a <= b.
Proof. intros. nra. Qed.
Lemma sqrt_lt_sq a b : 0 <= a -> 0 <= b -> sqrt a < b <-> a < b * b.
Proof.
  intros Ha Hb. pose proof (sqrt_pos a). pose proof (sqrt_sqrt a Ha). split; intros; nra.
Qed.
Lemma sqrt_gt_sq a b : 0 <= a -> 0 <= b -> b < sqrt a <-> b * b < a.
Proof.
  intros Ha Hb. pose proof (sqrt_pos a). pose proof (sqrt_sqrt a Ha). split; intros; nra.
Qed.
Lemma sum_sq_pos x y : 0 <= x * x + y * y.
Proof. nra. Qed.
Ltac rb := unfold Rltb in *; repeat (match goal with |- context [Rlt_dec ?a ?b] => destruct (Rlt_dec a b) end; cbn [andb orb]).

(** ** primitives: what the locator says is right *)
Definition sound (tol : R) (s : shape) : Prop :=
  forall p, (locate tol s p = Inside -> core s p) /\ (locate tol s p = Outside -> ~ solid s p).
Lemma sound_box tol X Y Z : 0 < tol -> sound tol (Box X Y Z).
Proof.
  intros Ht p. unfold core, solid. cbn [locate body fst snd prim]. unfold locate_box. rb; split; intros E; try discriminate.
  all: try (intros (? & ? & ?); lra).
  repeat match goal with H : ~ Rabs (Rabs ?a - ?b) < tol |- _ => apply Rnot_lt_le in H; unfold Rabs at 1 in H; destruct (Rcase_abs (Rabs a - b)) end;
  repeat split; lra.
Qed.
Lemma sound_cyl tol r h : 0 < tol -> wf (Cylinder r h) -> sound tol (Cylinder r h).
Proof.
  intros Ht [Hr Hh] p. unfold core, solid. cbn [locate body fst snd prim]. unfold locate_cylinder.
  pose proof (sum_sq_pos (vx p) (vy p)) as Hs. pose proof (sqrt_lt_sq _ r Hs Hr). pose proof (sqrt_gt_sq _ r Hs Hr).
  rb; split; intros E; try discriminate; try (intros (? & ?); lra).
  - split; [|lra]. apply H. lra.
Qed.
Lemma frac_eq z h X : 0 < h -> - z / h * X / 2 = X * - z / (2 * h).
Proof. intros. field. lra. Qed.
Lemma div_lt_iff a b c : 0 < c -> a < b / c <-> c * a < b.
Proof.
  intros Hc. split; intros H.
  - apply (Rmult_lt_compat_l c) in H; [|exact Hc]. replace (c * (b / c)) with b in H by (field; lra). exact H.
  - apply (Rmult_lt_reg_l c); [exact Hc|]. replace (c * (b / c)) with b by (field; lra). exact H.
Qed.
Lemma div_gt_iff a b c : 0 < c -> b / c < a <-> b < c * a.
Proof.
  intros Hc. split; intros H.
  - apply (Rmult_lt_compat_l c) in H; [|exact Hc]. replace (c * (b / c)) with b in H by (field; lra). exact H.
  - apply (Rmult_lt_reg_l c); [exact Hc|]. replace (c * (b / c)) with b by (field; lra). exact H.
Qed.
Lemma sound_pyr tol X Y h : 0 < tol -> wf (Pyramid X Y h) -> sound tol (Pyramid X Y h).
Proof.
  intros Ht (HX & HY & Hh) p. unfold core, solid. cbn [locate body fst snd prim]. unfold locate_pyramid.
  rewrite !frac_eq by exact Hh. set (a := X * - vz p / (2 * h)). set (b := Y * - vz p / (2 * h)).
  assert (0 < 2 * h) by lra.
  pose proof (div_lt_iff (Rabs (vx p)) (X * - vz p) (2 * h) H) as A1. pose proof (div_lt_iff (Rabs (vy p)) (Y * - vz p) (2 * h) H) as A2.
  pose proof (div_gt_iff (Rabs (vx p)) (X * - vz p) (2 * h) H) as A3. pose proof (div_gt_iff (Rabs (vy p)) (Y * - vz p) (2 * h) H) as A4.
  fold a in A1, A3. fold b in A2, A4.
  rb; split; intros E; try discriminate; try (intros (? & ? & ? & ?); lra).
  - split; [lra|]. split; [lra|]. split; [apply A1 | apply A2]; lra.
Qed.
Lemma frac_eq2 z h X : 0 < h -> - z / h * X = X * - z / h.
Proof. intros. field. lra. Qed.
Lemma sq_le_iff a b : 0 <= a -> 0 <= b -> a <= b <-> a * a <= b * b.
Proof. intros. split; nra. Qed.
Lemma cone_le h R z x y : 0 < h -> 0 <= R -> z <= 0 ->
  (sqrt (x * x + y * y) <= R * - z / h <-> h * h * (x * x + y * y) <= R * R * (z * z)).
Proof.
  intros Hh HR Hz. pose proof (sum_sq_pos x y) as Hs. pose proof (sqrt_pos (x * x + y * y)) as P. pose proof (sqrt_sqrt _ Hs) as E.
  assert (A : sqrt (x * x + y * y) <= R * - z / h <-> h * sqrt (x * x + y * y) <= R * - z).
  { pose proof (div_gt_iff (sqrt (x * x + y * y)) (R * - z) h Hh). lra. }
  rewrite A, sq_le_iff by nra.
  replace (h * sqrt (x * x + y * y) * (h * sqrt (x * x + y * y))) with (h * h * (sqrt (x * x + y * y) * sqrt (x * x + y * y))) by ring.
  rewrite E. replace (R * - z * (R * - z)) with (R * R * (z * z)) by ring. reflexivity.
Qed.
Lemma cone_lt h R z x y : 0 < h -> 0 <= R -> z <= 0 ->
  (sqrt (x * x + y * y) < R * - z / h <-> h * h * (x * x + y * y) < R * R * (z * z)).
Proof.
  intros Hh HR Hz. pose proof (sum_sq_pos x y) as Hs. pose proof (sqrt_pos (x * x + y * y)) as P. pose proof (sqrt_sqrt _ Hs) as E.
  assert (A : sqrt (x * x + y * y) < R * - z / h <-> h * sqrt (x * x + y * y) < R * - z) by now apply div_lt_iff.
  rewrite A.
  assert (B : h * sqrt (x * x + y * y) < R * - z <-> (h * sqrt (x * x + y * y)) * (h * sqrt (x * x + y * y)) < (R * - z) * (R * - z)).
  { assert (0 <= h * sqrt (x * x + y * y)) by nra. assert (0 <= R * - z) by nra. split; nra. }
  rewrite B.
  replace (h * sqrt (x * x + y * y) * (h * sqrt (x * x + y * y))) with (h * h * (sqrt (x * x + y * y) * sqrt (x * x + y * y))) by ring.
  rewrite E. replace (R * - z * (R * - z)) with (R * R * (z * z)) by ring. reflexivity.
Qed.
Lemma sound_cone tol r h : 0 < tol -> wf (Cone r h) -> sound tol (Cone r h).
Proof.
  intros Ht (Hr & Hh) p. unfold core, solid. cbn [locate body fst snd prim]. unfold locate_cone.
  rewrite !frac_eq2 by exact Hh.
  pose proof (cone_le h r (vz p) (vx p) (vy p) Hh Hr) as A. pose proof (cone_lt h r (vz p) (vx p) (vy p) Hh Hr) as B.
  rb; split; intros E; try discriminate; try (intros (? & ? & ?); lra).
  - split; [lra|]. split; [lra|]. apply B; lra.
Qed.
Lemma sound_sph tol r : 0 < tol -> sound tol (Sphere r).
Proof.
  intros Ht p. unfold core, solid. cbn [locate body fst snd prim]. unfold locate_sphere.
  rb; split; intros E; try discriminate; lra.
Qed.

(** ** the loops *)
Lemma inter_loop_spec f l : forall b,
  (intersection_loop f l b = Outside <-> Exists (fun s => f s = Outside) l) /\
  (intersection_loop f l b = Inside <-> b = true /\ Forall (fun s => f s = Inside) l).
Proof.
  induction l as [|s l IH]; intros b; cbn.
  - destruct b; split; split; try discriminate; intros H; try solve [inversion H]; auto. destruct H; discriminate.
  - destruct (f s) eqn:E.
    + destruct (IH (b && loc_eqb Inside Inside)%bool) as [A B]. rewrite A, B. cbn. rewrite Bool.andb_true_r. split.
      * rewrite Exists_cons, E. split; [now right|]. intros [?|?]; [discriminate|assumption].
      * rewrite Forall_cons_iff, E. tauto.
    + destruct (IH (b && loc_eqb Onborder Inside)%bool) as [A B]. rewrite A, B. cbn. rewrite Bool.andb_false_r. split.
      * rewrite Exists_cons, E. split; [now right|]. intros [?|?]; [discriminate|assumption].
      * rewrite Forall_cons_iff, E. split; intros [? ?]; [discriminate|]. destruct H0; discriminate.
    + split; split; try discriminate; auto. intros [_ H]. inversion H; congruence.
Qed.
Lemma union_loop_spec f l : forall b,
  (union_loop f l b = Inside <-> Exists (fun s => f s = Inside) l) /\
  (union_loop f l b = Outside <-> b = true /\ Forall (fun s => f s = Outside) l).
Proof.
  induction l as [|s l IH]; intros b; cbn.
  - destruct b; split; split; try discriminate; intros H; try solve [inversion H]; auto. destruct H; discriminate.
  - destruct (f s) eqn:E.
    + split; split; try discriminate; auto. intros [_ H]. inversion H; congruence.
    + destruct (IH (b && loc_eqb Onborder Outside)%bool) as [A B]. rewrite A, B. cbn. rewrite Bool.andb_false_r. split.
      * rewrite Exists_cons, E. split; [now right|]. intros [?|?]; [discriminate|assumption].
      * rewrite Forall_cons_iff, E. split; intros [? ?]; [discriminate|]. destruct H0; discriminate.
    + destruct (IH (b && loc_eqb Outside Outside)%bool) as [A B]. rewrite A, B. cbn. rewrite Bool.andb_true_r. split.
      * rewrite Exists_cons, E. split; [now right|]. intros [?|?]; [discriminate|assumption].
      * rewrite Forall_cons_iff, E. tauto.
Qed.
Lemma diff_spec p1 p2 :
  (locate_difference p1 p2 = Outside <-> p1 = Outside \/ p2 = Inside) /\
  (locate_difference p1 p2 = Inside <-> p1 = Inside /\ p2 = Outside).
Proof. destruct p1, p2; cbn; split; split; try discriminate; auto; intuition discriminate. Qed.
Lemma wf_list l : fold_right and True (map wf l) <-> Forall wf l.
Proof. induction l; cbn; [split; auto|]. rewrite Forall_cons_iff, IHl. reflexivity. Qed.

Lemma locate_sound_all s : wf s -> forall tol, 0 < tol -> sound tol s.
Proof.
  induction s using shape_ind2; intros W tol Ht.
  - now apply sound_box. - now apply sound_cyl. - now apply sound_pyr. - now apply sound_cone. - now apply sound_sph.
  - destruct W as [W1 W2]. intros p. specialize (IHs1 W1 tol Ht p). specialize (IHs2 W2 tol Ht p).
    cbn [locate]. rewrite (proj1 (diff_spec _ _)), (proj2 (diff_spec _ _)), solid_diff, core_diff. split; [intros [? ?]; tauto|]. intros [?|?]; tauto.
  - cbn in W. apply wf_list in W. intros p. cbn [locate]. pose proof (inter_loop_spec (fun s' => locate tol s' p) l true) as [A B]. rewrite A, B.
    rewrite solid_inter, core_inter. split.
    + intros [_ F]. rewrite Forall_forall in *. intros s Hs. apply (H s Hs (W s Hs) tol Ht p), F, Hs.
    + intros E F. rewrite Exists_exists in E. destruct E as (s & Hs & E). rewrite Forall_forall in *.
      apply (proj2 (H s Hs (W s Hs) tol Ht p) E). now apply F.
  - cbn in W. apply wf_list in W. intros p. cbn [locate]. pose proof (union_loop_spec (fun s' => locate tol s' p) l true) as [A B]. rewrite A, B.
    rewrite solid_union, core_union. split.
    + intros E. rewrite Exists_exists in *. destruct E as (s & Hs & E). rewrite Forall_forall in *. exists s. split; [exact Hs|].
      apply (H s Hs (W s Hs) tol Ht p), E.
    + intros [_ F] E. rewrite Exists_exists in E. destruct E as (s & Hs & E). rewrite Forall_forall in *.
      apply (proj2 (H s Hs (W s Hs) tol Ht p) (F s Hs)), E.
  - destruct W as [W1 W2]. intros p. cbn [locate]. rewrite solid_dil, core_dil by exact W2. apply IHs; auto.
  - intros p. cbn [locate]. rewrite solid_tr, core_tr. apply IHs; auto.
  - destruct W as [W1 W2]. intros p. cbn [locate]. rewrite solid_rot, core_rot by exact W2. apply IHs; auto.
Qed.

(** ** small tolerances *)
Definition eventually (P : R -> Prop) : Prop := exists e, 0 < e /\ forall tol, 0 < tol < e -> P tol.
Lemma ev_mono (P Q : R -> Prop) : (forall t, 0 < t -> P t -> Q t) -> eventually P -> eventually Q.
Proof. intros H (e & He & K). exists e. split; [exact He|]. intros t Ht. apply H; [lra|]. auto. Qed.
Lemma ev_and P Q : eventually P -> eventually Q -> eventually (fun t => P t /\ Q t).
Proof.
  intros (e & He & K) (f & Hf & L). exists (Rmin e f). split; [now apply Rmin_glb_lt|].
  intros t Ht. pose proof (Rmin_l e f). pose proof (Rmin_r e f). split; [apply K|apply L]; lra.
Qed.
Lemma ev_forall {A} (P : A -> R -> Prop) l : Forall (fun a => eventually (P a)) l -> eventually (fun t => Forall (fun a => P a t) l).
Proof.
  induction 1 as [|a l Ha _ IH].
  - exists 1. split; [lra|]. constructor.
  - pose proof (ev_and _ _ Ha IH) as H. revert H. apply ev_mono. intros t _ [? ?]. now constructor.
Qed.
Lemma ev_lt (a b : R) : a < b -> eventually (fun t => a + t < b).
Proof. intros. exists (b - a). split; [lra|]. intros t Ht. lra. Qed.
Definition tri (s : shape) (p : vec3) : Prop :=
  (core s p /\ solid s p /\ eventually (fun tol => locate tol s p = Inside)) \/
  (~ solid s p /\ ~ core s p /\ eventually (fun tol => locate tol s p = Outside)) \/
  (solid s p /\ ~ core s p).
Ltac rbt := unfold Rltb in *; repeat (match goal with |- context [Rlt_dec ?a ?b] => destruct (Rlt_dec a b) end; cbn [andb orb]); try reflexivity; try (exfalso; lra).
Lemma tri_box X Y Z p : tri (Box X Y Z) p.
Proof.
  unfold tri, core, solid. cbn [body fst snd prim locate].
  destruct (Rlt_dec X (2 * Rabs (vx p))) as [A|A]; [right; left|].
  { split; [|split]; [intros (? & ? & ?); lra..|]. exists (2 * Rabs (vx p) - X). split; [lra|]. intros t Ht. unfold locate_box. rbt. }
  destruct (Rlt_dec Y (2 * Rabs (vy p))) as [B|B]; [right; left|].
  { split; [|split]; [intros (? & ? & ?); lra..|]. exists (2 * Rabs (vy p) - Y). split; [lra|]. intros t Ht. unfold locate_box. rbt. }
  destruct (Rlt_dec Z (2 * Rabs (vz p))) as [C|C]; [right; left|].
  { split; [|split]; [intros (? & ? & ?); lra..|]. exists (2 * Rabs (vz p) - Z). split; [lra|]. intros t Ht. unfold locate_box. rbt. }
  destruct (Rlt_dec (2 * Rabs (vx p)) X) as [D|D]; [|right; right; split; [|intros (? & ? & ?)]; lra].
  destruct (Rlt_dec (2 * Rabs (vy p)) Y) as [E|E]; [|right; right; split; [|intros (? & ? & ?)]; lra].
  destruct (Rlt_dec (2 * Rabs (vz p)) Z) as [F|F]; [|right; right; split; [|intros (? & ? & ?)]; lra].
  left. split; [lra|]. split; [lra|].
  assert (G : eventually (fun t => Rabs (vx p) + t < X / 2 /\ Rabs (vy p) + t < Y / 2 /\ Rabs (vz p) + t < Z / 2)).
  { apply ev_and; [|apply ev_and]; apply ev_lt; lra. }
  revert G. apply ev_mono. intros t Ht (G1 & G2 & G3). unfold locate_box.
  assert (N : forall a b, a + t < b -> ~ Rabs (a - b) < t).
  { intros a b H. unfold Rabs. destruct (Rcase_abs (a - b)); lra. }
  apply N in G1 as N1. apply N in G2 as N2. apply N in G3 as N3. rbt.
Qed.
Lemma ev_pos (a : R) : 0 < a -> eventually (fun t => t < a).
Proof. intros. exists a. split; [lra|]. intros t Ht. lra. Qed.
Lemma tri_cyl r h p : wf (Cylinder r h) -> tri (Cylinder r h) p.
Proof.
  intros [Hr Hh]. unfold tri, core, solid. cbn [body fst snd prim locate].
  pose proof (sum_sq_pos (vx p) (vy p)) as Hs. pose proof (sqrt_lt_sq _ r Hs Hr) as L. pose proof (sqrt_gt_sq _ r Hs Hr) as G.
  destruct (Rlt_dec h (2 * Rabs (vz p))) as [A|A]; [right; left|].
  { split; [|split]; [intros (? & ?); lra..|]. eapply ev_mono; [|apply (ev_pos (Rabs (vz p) - h / 2)); lra]. intros t Ht Q. unfold locate_cylinder. rbt. }
  destruct (Rlt_dec (r * r) (vx p * vx p + vy p * vy p)) as [B|B]; [right; left|].
  { split; [|split]; [intros (? & ?); lra..|]. apply G in B. eapply ev_mono; [|apply (ev_pos (sqrt (vx p * vx p + vy p * vy p) - r)); lra].
    intros t Ht Q. unfold locate_cylinder. rbt. }
  destruct (Rlt_dec (2 * Rabs (vz p)) h) as [C|C]; [|right; right; split; [|intros (? & ?)]; lra].
  destruct (Rlt_dec (vx p * vx p + vy p * vy p) (r * r)) as [D|D]; [|right; right; split; [|intros (? & ?)]; lra].
  left. split; [lra|]. split; [lra|]. apply L in D.
  eapply ev_mono; [|apply (ev_and _ _ (ev_pos (h / 2 - Rabs (vz p)) ltac:(lra)) (ev_pos (r - sqrt (vx p * vx p + vy p * vy p)) ltac:(lra)))].
  intros t Ht [Q1 Q2]. unfold locate_cylinder. rbt.
Qed.
Lemma tri_pyr X Y h p : wf (Pyramid X Y h) -> tri (Pyramid X Y h) p.
Proof.
  intros (HX & HY & Hh). unfold tri, core, solid. cbn [body fst snd prim locate]. unfold locate_pyramid.
  rewrite !frac_eq by exact Hh. set (a := X * - vz p / (2 * h)). set (b := Y * - vz p / (2 * h)).
  assert (H : 0 < 2 * h) by lra.
  pose proof (div_lt_iff (Rabs (vx p)) (X * - vz p) (2 * h) H) as A1. pose proof (div_lt_iff (Rabs (vy p)) (Y * - vz p) (2 * h) H) as A2.
  pose proof (div_gt_iff (Rabs (vx p)) (X * - vz p) (2 * h) H) as A3. pose proof (div_gt_iff (Rabs (vy p)) (Y * - vz p) (2 * h) H) as A4.
  fold a in A1, A3. fold b in A2, A4.
  destruct (Rlt_dec 0 (vz p)) as [A|A]; [right; left|].
  { split; [|split]; [intros (? & ? & ? & ?); lra..|]. eapply ev_mono; [|apply (ev_pos (vz p)); lra]. intros t Ht Q. rbt. }
  destruct (Rlt_dec (vz p) (- h)) as [B|B]; [right; left|].
  { split; [|split]; [intros (? & ? & ? & ?); lra..|]. eapply ev_mono; [|apply (ev_pos (- h - vz p)); lra]. intros t Ht Q. rbt. }
  destruct (Rlt_dec a (Rabs (vx p))) as [C|C]; [right; left|].
  { apply A3 in C as C'. split; [|split]; [intros (? & ? & ? & ?); lra..|]. eapply ev_mono; [|apply (ev_pos (Rabs (vx p) - a)); lra]. intros t Ht Q. rbt. }
  destruct (Rlt_dec b (Rabs (vy p))) as [D|D]; [right; left|].
  { apply A4 in D as D'. split; [|split]; [intros (? & ? & ? & ?); lra..|]. eapply ev_mono; [|apply (ev_pos (Rabs (vy p) - b)); lra]. intros t Ht Q. rbt. }
  assert (S : vz p <= 0 /\ - h <= vz p /\ 2 * h * Rabs (vx p) <= X * - vz p /\ 2 * h * Rabs (vy p) <= Y * - vz p).
  { split; [lra|]. split; [lra|]. split; apply Rnot_lt_le; intros K; [apply A3 in K|apply A4 in K]; lra. }
  destruct (Rlt_dec (vz p) 0) as [E|E]; [|right; right; split; [exact S|intros (? & ? & ? & ?)]; lra].
  destruct (Rlt_dec (- h) (vz p)) as [F|F]; [|right; right; split; [exact S|intros (? & ? & ? & ?)]; lra].
  destruct (Rlt_dec (Rabs (vx p)) a) as [G|G]; [|right; right; split; [exact S|intros (? & ? & K & ?); apply A1 in K]; lra].
  destruct (Rlt_dec (Rabs (vy p)) b) as [I|I]; [|right; right; split; [exact S|intros (? & ? & ? & K); apply A2 in K]; lra].
  left. split; [|split; [exact S|]].
  { apply A1 in G. apply A2 in I. lra. }
  eapply ev_mono; [|apply (ev_and _ _ (ev_and _ _ (ev_pos (- vz p) ltac:(lra)) (ev_pos (vz p + h) ltac:(lra)))
     (ev_and _ _ (ev_pos (a - Rabs (vx p)) ltac:(lra)) (ev_pos (b - Rabs (vy p)) ltac:(lra))))].
  intros t Ht [[Q1 Q2] [Q3 Q4]]. rbt.
Qed.
Lemma tri_cone r h p : wf (Cone r h) -> tri (Cone r h) p.
Proof.
  intros (Hr & Hh). unfold tri, core, solid. cbn [body fst snd prim locate]. unfold locate_cone.
  rewrite !frac_eq2 by exact Hh. pose proof (cone_le h r (vz p) (vx p) (vy p) Hh Hr) as L. pose proof (cone_lt h r (vz p) (vx p) (vy p) Hh Hr) as M.
  set (a := r * - vz p / h) in *. set (q := sqrt (vx p * vx p + vy p * vy p)) in *.
  destruct (Rlt_dec 0 (vz p)) as [A|A]; [right; left|].
  { split; [|split]; [intros (? & ? & ?); lra..|]. eapply ev_mono; [|apply (ev_pos (vz p)); lra]. intros t Ht Q. rbt. }
  specialize (L ltac:(lra)). specialize (M ltac:(lra)).
  destruct (Rlt_dec (vz p) (- h)) as [B|B]; [right; left|].
  { split; [|split]; [intros (? & ? & ?); lra..|]. eapply ev_mono; [|apply (ev_pos (- h - vz p)); lra]. intros t Ht Q. rbt. }
  destruct (Rlt_dec a q) as [C|C]; [right; left|].
  { split; [intros (? & ? & K); apply L in K; lra|]. split; [intros (? & ? & K); apply M in K; lra|].
    eapply ev_mono; [|apply (ev_pos (q - a)); lra]. intros t Ht Q. rbt. }
  assert (S : vz p <= 0 /\ - h <= vz p /\ h * h * (vx p * vx p + vy p * vy p) <= r * r * (vz p * vz p)).
  { split; [lra|]. split; [lra|]. apply L. lra. }
  destruct (Rlt_dec (vz p) 0) as [E|E]; [|right; right; split; [exact S|intros (? & ? & ?)]; lra].
  destruct (Rlt_dec (- h) (vz p)) as [F|F]; [|right; right; split; [exact S|intros (? & ? & ?)]; lra].
  destruct (Rlt_dec q a) as [G|G]; [|right; right; split; [exact S|intros (? & ? & K); apply M in K]; lra].
  left. split; [|split; [exact S|]].
  { apply M in G. lra. }
  eapply ev_mono; [|apply (ev_and _ _ (ev_and _ _ (ev_pos (- vz p) ltac:(lra)) (ev_pos (vz p + h) ltac:(lra))) (ev_pos (a - q) ltac:(lra)))].
  intros t Ht [[Q1 Q2] Q3]. rbt.
Qed.
Lemma tri_sph r p : tri (Sphere r) p.
Proof.
  unfold tri, core, solid. cbn [body fst snd prim locate]. unfold locate_sphere.
  set (q := vx p * vx p + vy p * vy p + vz p * vz p) in *.
  destruct (Rlt_dec (r * r) q) as [C|C]; [right; left|].
  { split; [lra|]. split; [lra|]. eapply ev_mono; [|apply (ev_pos (q - r * r)); lra]. intros t Ht Q. rbt. }
  destruct (Rlt_dec q (r * r)) as [G|G]; [|right; right; lra].
  left. split; [lra|]. split; [lra|]. eapply ev_mono; [|apply (ev_pos (r * r - q)); lra]. intros t Ht Q. rbt.
Qed.
Lemma tri_all s : wf s -> forall p, tri s p.
Proof.
  induction s using shape_ind2; intros W p.
  - apply tri_box. - now apply tri_cyl. - now apply tri_pyr. - now apply tri_cone. - apply tri_sph.
  - destruct W as [W1 W2]. specialize (IHs1 W1 p). specialize (IHs2 W2 p). unfold tri. rewrite solid_diff, core_diff.
    destruct IHs1 as [(A1 & A2 & A3)|[(A1 & A2 & A3)|(A1 & A2)]]; destruct IHs2 as [(B1 & B2 & B3)|[(B1 & B2 & B3)|(B1 & B2)]].
    all: try solve [right; right; tauto].
    all: try solve [right; left; split; [tauto|split; [tauto|]]; eapply ev_mono; [|exact A3]; intros t Ht K; cbn [locate]; apply diff_spec; auto].
    all: try solve [right; left; split; [tauto|split; [tauto|]]; eapply ev_mono; [|exact B3]; intros t Ht K; cbn [locate]; apply diff_spec; auto].
    left. split; [tauto|]. split; [tauto|]. eapply ev_mono; [|exact (ev_and _ _ A3 B3)]. intros t Ht K. cbn [locate]. now apply diff_spec.
  - cbn in W. apply wf_list in W. unfold tri. rewrite solid_inter, core_inter.
    assert (T : Forall (fun s => tri s p) l) by (rewrite Forall_forall in *; auto). clear H W.
    assert (E : eventually (fun tol => Exists (fun s => locate tol s p = Outside) l) /\ Exists (fun s => ~ solid s p) l \/
                Forall (fun s => core s p) l /\ Forall (fun s => solid s p) l /\ eventually (fun tol => Forall (fun s => locate tol s p = Inside) l) \/
                Forall (fun s => solid s p) l /\ Exists (fun s => ~ core s p) l).
    { induction T as [|s l [(A1 & A2 & A3)|[(A1 & A2 & A3)|(A1 & A2)]] T IH].
      - right; left. split; [constructor|split; [constructor|]]. exists 1. split; [lra|constructor].
      - destruct IH as [[B1 B2]|[(B1 & B2 & B3)|[B1 B2]]].
        + left. split; [|now right]. eapply ev_mono; [|exact B1]. intros t Ht K. now right.
        + right; left. split; [now constructor|split; [now constructor|]]. eapply ev_mono; [|exact (ev_and _ _ A3 B3)]. intros t Ht [? ?]. now constructor.
        + right; right. split; [now constructor|now right].
      - left. split; [|now left]. eapply ev_mono; [|exact A3]. intros t Ht K. now left.
      - destruct IH as [[B1 B2]|[(B1 & B2 & B3)|[B1 B2]]].
        + left. split; [|now right]. eapply ev_mono; [|exact B1]. intros t Ht K. now right.
        + right; right. split; [now constructor|now left].
        + right; right. split; [now constructor|now left]. }
    destruct E as [[A B]|[(A & B & C)|(A & B)]].
    + right; left. assert (N : ~ Forall (fun s => solid s p) l).
      { intros K. rewrite Exists_exists in B. destruct B as (s & Hs & B). rewrite Forall_forall in K. auto. }
      split; [exact N|]. split.
      * intros K. apply N. rewrite Forall_forall in *. intros s Hs. specialize (T s Hs). specialize (K s Hs). unfold tri in T. tauto.
      * eapply ev_mono; [|exact A]. intros t Ht K. cbn [locate]. now apply inter_loop_spec.
    + left. split; [exact A|]. split; [exact B|]. eapply ev_mono; [|exact C]. intros t Ht K. cbn [locate]. now apply inter_loop_spec.
    + right; right. split; [exact A|]. intros K. rewrite Exists_exists in B. destruct B as (s & Hs & B). rewrite Forall_forall in K. auto.
  - cbn in W. apply wf_list in W. unfold tri. rewrite solid_union, core_union.
    assert (T : Forall (fun s => tri s p) l) by (rewrite Forall_forall in *; auto). clear H W.
    assert (E : eventually (fun tol => Exists (fun s => locate tol s p = Inside) l) /\ Exists (fun s => core s p) l /\ Exists (fun s => solid s p) l \/
                Forall (fun s => ~ core s p) l /\ Forall (fun s => ~ solid s p) l /\ eventually (fun tol => Forall (fun s => locate tol s p = Outside) l) \/
                Forall (fun s => ~ core s p) l /\ Exists (fun s => solid s p) l).
    { induction T as [|s l [(A1 & A2 & A3)|[(A1 & A2 & A3)|(A1 & A2)]] T IH].
      - right; left. split; [constructor|split; [constructor|]]. exists 1. split; [lra|constructor].
      - left. split; [|split; now left]. eapply ev_mono; [|exact A3]. intros t Ht K. now left.
      - destruct IH as [(B1 & B2 & B3)|[(B1 & B2 & B3)|[B1 B2]]].
        + left. split; [|split; now right]. eapply ev_mono; [|exact B1]. intros t Ht K. now right.
        + right; left. split; [now constructor|split; [now constructor|]]. eapply ev_mono; [|exact (ev_and _ _ A3 B3)]. intros t Ht [? ?]. now constructor.
        + right; right. split; [now constructor|now right].
      - destruct IH as [(B1 & B2 & B3)|[(B1 & B2 & B3)|[B1 B2]]].
        + left. split; [|split; now right]. eapply ev_mono; [|exact B1]. intros t Ht K. now right.
        + right; right. split; [now constructor|now left].
        + right; right. split; [now constructor|now left]. }
    assert (N : forall P : shape -> Prop, Forall (fun s => ~ P s) l -> ~ Exists P l).
    { intros P F X. rewrite Exists_exists in X. destruct X as (s & Hs & X). rewrite Forall_forall in F. exact (F s Hs X). }
    destruct E as [(A & B & C)|[(A & B & C)|(A & B)]].
    + left. split; [exact B|]. split; [exact C|]. eapply ev_mono; [|exact A]. intros t Ht K. cbn [locate]. now apply union_loop_spec.
    + right; left. split; [now apply (N (fun s => solid s p))|]. split; [now apply (N (fun s => core s p))|].
      eapply ev_mono; [|exact C]. intros t Ht K. cbn [locate]. now apply union_loop_spec.
    + right; right. split; [exact B|]. now apply (N (fun s => core s p)).
  - destruct W as [W1 W2]. unfold tri. cbn [locate]. rewrite solid_dil, core_dil by exact W2. now apply IHs.
  - unfold tri. cbn [locate]. rewrite solid_tr, core_tr. now apply IHs.
  - destruct W as [W1 W2]. unfold tri. cbn [locate]. rewrite solid_rot, core_rot by exact W2. now apply IHs.
Qed.
Lemma core_solid s p : wf s -> core s p -> solid s p.
Proof. intros W. destruct (tri_all s W p) as [?|[?|?]]; tauto. Qed.
Lemma solid_dec s p : wf s -> solid s p \/ ~ solid s p.
Proof. intros W. destruct (tri_all s W p) as [?|[?|?]]; tauto. Qed.
Lemma core_dec s p : wf s -> core s p \/ ~ core s p.
Proof. intros W. destruct (tri_all s W p) as [?|[?|?]]; tauto. Qed.

(** ** the open body is open, the closed body is closed *)
Definition open (P : vec3 -> Prop) : Prop := forall p, P p -> exists e, 0 < e /\ forall q, near e p q -> P q.
Lemma open_ext P Q : (forall p, P p <-> Q p) -> open P -> open Q.
Proof. intros E H p Hp. apply E in Hp. destruct (H p Hp) as (e & He & K). exists e. split; [exact He|]. intros q Hq. apply E. auto. Qed.
Lemma near_mono e f p q : 0 < e <= f -> near e p q -> near f p q.
Proof. unfold near. intros. nra. Qed.
Lemma open_and P Q : open P -> open Q -> open (fun p => P p /\ Q p).
Proof.
  intros HP HQ p [A B]. destruct (HP p A) as (e & He & K). destruct (HQ p B) as (f & Hf & L).
  exists (Rmin e f). split; [now apply Rmin_glb_lt|]. intros q Hq.
  assert (M : 0 < Rmin e f) by now apply Rmin_glb_lt.
  split; [apply K|apply L]; (eapply near_mono; [|exact Hq]; split; [exact M|]); [apply Rmin_l|apply Rmin_r].
Qed.
Lemma open_or P Q : open P -> open Q -> open (fun p => P p \/ Q p).
Proof.
  intros HP HQ p [A|A].
  - destruct (HP p A) as (e & He & K). exists e. split; [exact He|]. intros. left. auto.
  - destruct (HQ p A) as (e & He & K). exists e. split; [exact He|]. intros. right. auto.
Qed.
Lemma open_true : open (fun _ => True).
Proof. intros p _. exists 1. split; [lra|auto]. Qed.
Lemma open_false : open (fun _ => False).
Proof. intros p []. Qed.
Lemma open_forall {A} (P : A -> vec3 -> Prop) l : Forall (fun a => open (P a)) l -> open (fun p => Forall (fun a => P a p) l).
Proof.
  induction 1 as [|a l Ha _ IH].
  - eapply open_ext; [|exact open_true]. intros p. split; auto.
  - eapply open_ext; [|exact (open_and _ _ Ha IH)]. intros p. cbn. now rewrite Forall_cons_iff.
Qed.
Lemma open_exists {A} (P : A -> vec3 -> Prop) l : Forall (fun a => open (P a)) l -> open (fun p => Exists (fun a => P a p) l).
Proof.
  induction 1 as [|a l Ha _ IH].
  - eapply open_ext; [|exact open_false]. intros p. split; [intros []|intros K; inversion K].
  - eapply open_ext; [|exact (open_or _ _ Ha IH)]. intros p. cbn. now rewrite Exists_cons.
Qed.
Definition cont (f : vec3 -> R) : Prop := forall p e, 0 < e -> exists d, 0 < d /\ forall q, near d p q -> Rabs (f q - f p) < e.
Lemma abs_sq a d : 0 < d -> a * a < d * d -> Rabs a < d.
Proof. intros. apply Rabs_def1; nra. Qed.
Lemma cont_x : cont vx.
Proof. intros p e He. exists e. split; [exact He|]. intros q. unfold near, norm2, sdot. cbn. intros H.
  pose proof (Rle_0_sqr (vx q - vx p)) as A. pose proof (Rle_0_sqr (vy q - vy p)) as B. pose proof (Rle_0_sqr (vz q - vz p)) as C. unfold Rsqr in *. apply abs_sq; lra. Qed.
Lemma cont_y : cont vy.
Proof. intros p e He. exists e. split; [exact He|]. intros q. unfold near, norm2, sdot. cbn. intros H.
  pose proof (Rle_0_sqr (vx q - vx p)) as A. pose proof (Rle_0_sqr (vy q - vy p)) as B. pose proof (Rle_0_sqr (vz q - vz p)) as C. unfold Rsqr in *. apply abs_sq; lra. Qed.
Lemma cont_z : cont vz.
Proof. intros p e He. exists e. split; [exact He|]. intros q. unfold near, norm2, sdot. cbn. intros H.
  pose proof (Rle_0_sqr (vx q - vx p)) as A. pose proof (Rle_0_sqr (vy q - vy p)) as B. pose proof (Rle_0_sqr (vz q - vz p)) as C. unfold Rsqr in *. apply abs_sq; lra. Qed.
Lemma cont_c k : cont (fun _ => k).
Proof. intros p e He. exists 1. split; [lra|]. intros q _. replace (k - k) with 0 by ring. rewrite Rabs_R0. exact He. Qed.
Lemma two_near e f p q : 0 < e -> 0 < f -> near (Rmin e f) p q -> near e p q /\ near f p q.
Proof.
  intros He Hf Hq. assert (M : 0 < Rmin e f) by now apply Rmin_glb_lt.
  split; (eapply near_mono; [|exact Hq]; split; [exact M|]); [apply Rmin_l|apply Rmin_r].
Qed.
Lemma cont_plus f g : cont f -> cont g -> cont (fun p => f p + g p).
Proof.
  intros F G p e He. destruct (F p (e / 2) ltac:(lra)) as (d & Hd & K). destruct (G p (e / 2) ltac:(lra)) as (c & Hc & L).
  exists (Rmin d c). split; [now apply Rmin_glb_lt|]. intros q Hq. destruct (two_near _ _ _ _ Hd Hc Hq) as [A B].
  apply K in A. apply L in B. replace (f q + g q - (f p + g p)) with ((f q - f p) + (g q - g p)) by ring.
  pose proof (Rabs_triang (f q - f p) (g q - g p)). lra.
Qed.
Lemma cont_opp f : cont f -> cont (fun p => - f p).
Proof.
  intros F p e He. destruct (F p e He) as (d & Hd & K). exists d. split; [exact Hd|]. intros q Hq.
  replace (- f q - - f p) with (- (f q - f p)) by ring. rewrite Rabs_Ropp. auto.
Qed.
Lemma cont_abs f : cont f -> cont (fun p => Rabs (f p)).
Proof.
  intros F p e He. destruct (F p e He) as (d & Hd & K). exists d. split; [exact Hd|]. intros q Hq.
  pose proof (Rabs_triang_inv2 (f q) (f p)). specialize (K q Hq). lra.
Qed.
Lemma cont_mult f g : cont f -> cont g -> cont (fun p => f p * g p).
Proof.
  intros F G p e He. set (A := Rabs (f p) + 1). set (B := Rabs (g p) + 1).
  assert (HA : 0 < A) by (unfold A; pose proof (Rabs_pos (f p)); lra).
  assert (HB : 0 < B) by (unfold B; pose proof (Rabs_pos (g p)); lra).
  set (e1 := Rmin 1 (e / (2 * B))). set (e2 := e / (2 * A)).
  assert (H1 : 0 < e1). { apply Rmin_glb_lt; [lra|]. apply Rdiv_lt_0_compat; lra. }
  assert (H2 : 0 < e2). { apply Rdiv_lt_0_compat; lra. }
  destruct (F p e1 H1) as (d & Hd & K). destruct (G p e2 H2) as (c & Hc & L).
  exists (Rmin d c). split; [now apply Rmin_glb_lt|]. intros q Hq. destruct (two_near _ _ _ _ Hd Hc Hq) as [P Q].
  apply K in P. apply L in Q.
  replace (f q * g q - f p * g p) with (f q * (g q - g p) + (f q - f p) * g p) by ring.
  pose proof (Rabs_triang (f q * (g q - g p)) ((f q - f p) * g p)) as T. rewrite !Rabs_mult in T.
  assert (Q1 : Rabs (f q) <= A).
  { unfold A. pose proof (Rabs_triang_inv (f q) (f p)). pose proof (Rmin_l 1 (e / (2 * B))). fold e1 in H0. lra. }
  assert (P1 : Rabs (f q - f p) <= e / (2 * B)). { pose proof (Rmin_r 1 (e / (2 * B))). fold e1 in H. lra. }
  assert (R1 : Rabs (f q) * Rabs (g q - g p) <= A * Rabs (g q - g p)).
  { apply Rmult_le_compat_r; [apply Rabs_pos|exact Q1]. }
  assert (R2 : A * Rabs (g q - g p) < A * e2) by (apply Rmult_lt_compat_l; assumption).
  assert (R3 : A * e2 = e / 2) by (unfold e2; field; lra).
  assert (R4 : Rabs (f q - f p) * Rabs (g p) <= e / (2 * B) * B).
  { apply Rmult_le_compat; [apply Rabs_pos|apply Rabs_pos|exact P1|unfold B; lra]. }
  assert (R5 : e / (2 * B) * B = e / 2) by (field; lra).
  lra.
Qed.
Lemma open_lt f g : cont f -> cont g -> open (fun p => f p < g p).
Proof.
  intros F G p H. destruct (cont_plus _ _ G (cont_opp _ F) p (g p - f p) ltac:(lra)) as (d & Hd & K).
  exists d. split; [exact Hd|]. intros q Hq. apply K in Hq. apply Rabs_def2 in Hq. lra.
Qed.
Create HintDb ct.
#[export] Hint Resolve cont_x cont_y cont_z cont_c cont_plus cont_opp cont_abs cont_mult : ct.
Lemma open_pre (P : vec3 -> Prop) (A : vec3 -> vec3) K :
  0 < K -> (forall p q, norm2 (vsub (A q) (A p)) = K * K * norm2 (vsub q p)) -> open P -> open (fun p => P (A p)).
Proof.
  intros HK L H p Hp. destruct (H _ Hp) as (e & He & M). exists (e / K). split; [now apply Rdiv_lt_0_compat|].
  intros q Hq. apply M. unfold near in *. rewrite L. apply (Rmult_lt_compat_l (K * K)) in Hq; [|nra].
  replace (K * K * (e / K * (e / K))) with (e * e) in Hq by (field; lra). exact Hq.
Qed.
Lemma open_dil P k : k <> 0 -> open P -> open (fun p => P (vscale (1 / k) p)).
Proof.
  intros H. apply open_pre with (K := Rabs (1 / k)).
  - apply Rabs_pos_lt. unfold Rdiv. rewrite Rmult_1_l. now apply Rinv_neq_0_compat.
  - intros p q. rewrite <- Rabs_mult, (Rabs_right (1 / k * (1 / k))) by nra. destruct p, q. unfold norm2, sdot. cbn. ring.
Qed.
Lemma open_tr P v : open P -> open (fun p => P (vsub p v)).
Proof. apply open_pre with (K := 1); [lra|]. intros p q. destruct p, q, v. unfold norm2, sdot. cbn. ring. Qed.
Lemma open_rot P m : orthogonal m -> open P -> open (fun p => P (dot_mv m p)).
Proof. intros H. apply open_pre with (K := 1); [lra|]. intros p q. rewrite <- dot_vsub. unfold norm2. rewrite H. ring. Qed.

Lemma not_and_iff (P Q : Prop) : (P \/ ~ P) -> ~ (P /\ Q) <-> ~ P \/ ~ Q.
Proof. tauto. Qed.
Lemma open_nle_and f g P : cont f -> cont g -> open (fun p => ~ P p) -> open (fun p => ~ (f p <= g p /\ P p)).
Proof.
  intros F G H. eapply open_ext; [|exact (open_or _ _ (open_lt g f G F) H)]. intros p. cbn.
  destruct (Rle_dec (f p) (g p)); [split; [intros [?|?]; [lra|tauto]|tauto]|]. split; [intros _; tauto|intros _; left; lra].
Qed.
Lemma open_nle f g : cont f -> cont g -> open (fun p => ~ (f p <= g p)).
Proof. intros F G. eapply open_ext; [|exact (open_lt g f G F)]. intros p. cbn. lra. Qed.
Lemma prim_open s : open (prim Rlt s) /\ (match s with Box _ _ _ | Cylinder _ _ | Pyramid _ _ _ | Cone _ _ | Sphere _ => open (fun p => ~ prim Rle s p) | _ => True end).
Proof.
  destruct s; (split; [|try exact I]); cbn [prim]; try exact open_false.
  all: repeat first [apply open_and | apply open_nle_and | apply open_nle | apply open_lt].
  all: auto 20 with ct.
Qed.
Lemma not_forall {A} (P : A -> Prop) l : (forall a, In a l -> P a \/ ~ P a) -> ~ Forall P l -> Exists (fun a => ~ P a) l.
Proof.
  induction l as [|a l IH]; intros D H.
  - exfalso. apply H. constructor.
  - destruct (D a (or_introl eq_refl)) as [K|K]; [|now left]. right. apply IH; [intros b Hb; apply D; now right|]. intros F. apply H. now constructor.
Qed.
Lemma body_open s : wf s -> open (core s) /\ open (fun p => ~ solid s p).
Proof.
  induction s using shape_ind2; intros W; try solve [split; apply prim_open with (s := Box X Y Z) || apply prim_open with (s := Cylinder r h) || apply prim_open with (s := Pyramid X Y h) || apply prim_open with (s := Cone r h) || apply prim_open with (s := Sphere r)].
  - destruct W as [W1 W2]. destruct (IHs1 W1) as [A1 A2]. destruct (IHs2 W2) as [B1 B2]. split.
    + exact (open_and _ _ A1 B2).
    + eapply open_ext; [|exact (open_or _ _ A2 B1)]. intros p. cbv beta. rewrite solid_diff. destruct (solid_dec s1 p W1), (core_dec s2 p W2); tauto.
  - cbn in W. apply wf_list in W. rewrite Forall_forall in *. split.
    + eapply open_ext; [intros p; symmetry; apply core_inter|]. apply open_forall. rewrite Forall_forall. intros s Hs. now apply H, W.
    + eapply open_ext; [|apply (open_exists (fun s p => ~ solid s p) l); rewrite Forall_forall; intros s Hs; now apply H, W].
      intros p. cbv beta. rewrite solid_inter. split.
      * rewrite Exists_exists, Forall_forall. intros (s & Hs & K) F. auto.
      * apply not_forall. intros s Hs. apply solid_dec. auto.
  - cbn in W. apply wf_list in W. rewrite Forall_forall in *. split.
    + eapply open_ext; [intros p; symmetry; apply core_union|]. apply open_exists. rewrite Forall_forall. intros s Hs. now apply H, W.
    + eapply open_ext; [|apply (open_forall (fun s p => ~ solid s p) l); rewrite Forall_forall; intros s Hs; now apply H, W].
      intros p. cbv beta. rewrite solid_union. apply Forall_Exists_neg.
  - destruct W as [W1 W2]. destruct (IHs W1) as [A B]. split; (eapply open_ext; [intros p; symmetry; first [apply core_dil|apply not_iff_compat, solid_dil]; exact W2|]).
    + exact (open_dil _ k W2 A).
    + exact (open_dil _ k W2 B).
  - destruct (IHs W) as [A B]. split; (eapply open_ext; [intros p; symmetry; first [apply core_tr|apply not_iff_compat, solid_tr]|]).
    + exact (open_tr _ v A).
    + exact (open_tr _ v B).
  - destruct W as [W1 W2]. destruct (IHs W1) as [A B]. split; (eapply open_ext; [intros p; symmetry; first [apply core_rot|apply not_iff_compat, solid_rot]; exact W2|]).
    + exact (open_rot _ _ (orth_transpose _ W2) A).
    + exact (open_rot _ _ (orth_transpose _ W2) B).
Qed.

(** ** the statements of C34 *)
Lemma locate_right tol s p : wf s -> 0 < tol ->
  (locate tol s p = Inside -> core s p /\ exists e, 0 < e /\ forall q, near e p q -> core s q) /\
  (locate tol s p = Outside -> ~ solid s p /\ exists e, 0 < e /\ forall q, near e p q -> ~ solid s q) /\
  (border s p -> locate tol s p = Onborder).
Proof.
  intros W Ht. destruct (locate_sound_all s W tol Ht p) as [A B]. destruct (body_open s W) as [C D]. split; [|split].
  - intros E. apply A in E. split; [exact E|]. now apply C.
  - intros E. apply B in E. split; [exact E|]. now apply D.
  - intros [E F]. destruct (locate tol s p) eqn:G; [|reflexivity|]; exfalso; tauto.
Qed.
Lemma locate_limit s p : wf s ->
  exists e, 0 < e /\ forall tol, 0 < tol < e ->
    (locate tol s p = Inside <-> core s p) /\ (locate tol s p = Outside <-> ~ solid s p) /\ (locate tol s p = Onborder <-> border s p).
Proof.
  intros W. destruct (tri_all s W p) as [(A & B & e & He & C)|[(A & B & e & He & C)|(A & B)]].
  - exists e. split; [exact He|]. intros tol Ht. rewrite (C tol Ht). unfold border. repeat split; try discriminate; tauto.
  - exists e. split; [exact He|]. intros tol Ht. rewrite (C tol Ht). unfold border. repeat split; try discriminate; tauto.
  - exists 1. split; [lra|]. intros tol Ht. assert (E : locate tol s p = Onborder) by (apply locate_right; [exact W|lra|split; assumption]).
    rewrite E. unfold border. repeat split; try discriminate; tauto.
Qed.
