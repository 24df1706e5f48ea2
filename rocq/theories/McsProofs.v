(** Proofs for C78. *)
From Coq Require Import Reals Lra Lia Permutation.
From Verif Require Import Base RotModel RotSpec ChanModel ChanProofs ShapeModel ShapeSpec ShapeProofs ShapeProofs2 McsModel McsSpec.
Open Scope R_scope.

(** ** box *)
Definition nz (l : list R) : list R := filter (fun t => negb (Reqb t 0)) l.
Lemma nz_in l t : In t (nz l) <-> In t l /\ t <> 0.
Proof. unfold nz. rewrite filter_In, Bool.negb_true_iff, Reqb_false. reflexivity. Qed.
Lemma half_lt d p : Rltb (- d / 2) p && Rltb p (d / 2) = true <-> 2 * Rabs p < d.
Proof. rewrite Bool.andb_true_iff, !Rltb_t. unfold Rabs. destruct (Rcase_abs p); lra. Qed.
Lemma faces_in c vc p vp q vq dc dp dq t : 0 < dc -> t <> 0 ->
  In t (box_faces c vc p vp q vq dc dp dq) <-> vc <> 0 /\ 2 * Rabs (c + t * vc) = dc /\ 2 * Rabs (p + t * vp) < dp /\ 2 * Rabs (q + t * vq) < dq.
Proof.
  intros D T. unfold box_faces. destruct (Reqb vc 0) eqn:Z; [apply Reqb_true in Z|apply Reqb_false in Z].
  - split; [cbn; intros [<-|[<-|[]]]; lra|intros [N _]; contradiction].
  - assert (F : forall tt, let b := (Rltb (- dp / 2) (p + tt * vp) && Rltb (p + tt * vp) (dp / 2) && Rltb (- dq / 2) (q + tt * vq) && Rltb (q + tt * vq) (dq / 2))%bool in (if b then tt else 0) = t <-> t = tt /\ 2 * Rabs (p + t * vp) < dp /\ 2 * Rabs (q + t * vq) < dq).
    { intros tt b. rewrite <- !half_lt. destruct b eqn:B; unfold b in B.
      - split; [intros ->|intuition]. rewrite <- !Bool.andb_assoc in B. apply Bool.andb_true_iff in B as [B1 B]. apply Bool.andb_true_iff in B as [B2 B]. rewrite B1, B2, B. auto.
      - split; [intros E; congruence|intros (-> & B1 & B2)]. rewrite <- !Bool.andb_assoc in B. rewrite B2, Bool.andb_true_r in B. congruence. }
    cbn [In]. rewrite !F. rewrite abs_half by exact D.
    assert (E1 : t = - (dc / 2 + c) / vc <-> c + t * vc + dc / 2 = 0). { split; [intros ->; field; exact Z|intros E; apply (Rmult_eq_reg_r vc); [|exact Z]; replace (- (dc / 2 + c) / vc * vc) with (- (dc / 2 + c)) by (field; exact Z); lra]. }
    assert (E2 : t = (dc / 2 - c) / vc <-> c + t * vc - dc / 2 = 0). { split; [intros ->; field; exact Z|intros E; apply (Rmult_eq_reg_r vc); [|exact Z]; replace ((dc / 2 - c) / vc * vc) with (dc / 2 - c) by (field; exact Z); lra]. }
    rewrite E1, E2. tauto.
Qed.
Lemma faces_nodup c vc p vp q vq dc dp dq : 0 < dc -> NoDup (nz (box_faces c vc p vp q vq dc dp dq)).
Proof.
  intros D. unfold box_faces. destruct (Reqb vc 0) eqn:Z; [apply Reqb_true in Z|apply Reqb_false in Z].
  - unfold nz. cbn. rewrite (proj2 (Reqb_true 0 0) eq_refl). cbn. constructor.
  - assert (N : - (dc / 2 + c) / vc <> (dc / 2 - c) / vc). { intros E. apply (Rmult_eq_compat_r vc) in E. replace (- (dc / 2 + c) / vc * vc) with (- (dc / 2 + c)) in E by (field; exact Z). replace ((dc / 2 - c) / vc * vc) with (dc / 2 - c) in E by (field; exact Z). lra. }
    set (t1 := - (dc / 2 + c) / vc) in *. set (t2 := (dc / 2 - c) / vc) in *. clearbody t1 t2.
    assert (G : forall (b1 b2 : bool), NoDup (nz [if b1 then t1 else 0; if b2 then t2 else 0])).
    { assert (Z0 : Reqb 0 0 = true) by now apply Reqb_true. intros [|] [|]; unfold nz; cbn [filter]; rewrite ?Z0; cbn [negb]; repeat match goal with |- context [Reqb ?a 0] => destruct (Reqb a 0) end; cbn [negb]; repeat constructor; cbn; try tauto; intros [E|[]]; congruence. }
    apply G.
Qed.
Lemma step_nz l : forall s, fold_left box_step l s = fold_left box_step (nz l) s.
Proof.
  induction l as [|t l IH]; intros s; [reflexivity|]. unfold nz. cbn [filter fold_left]. fold (nz l). destruct (Reqb t 0) eqn:E; cbn [negb].
  - rewrite <- IH. f_equal. unfold box_step. destruct s as [[a b] n]. now rewrite E.
  - cbn [fold_left]. apply IH.
Qed.
Definition box_times (r v : vec3) (dx dy dz : R) : list R :=
  nz (box_faces (vx r) (vx v) (vy r) (vy v) (vz r) (vz v) dx dy dz ++ box_faces (vy r) (vy v) (vx r) (vx v) (vz r) (vz v) dy dx dz ++ box_faces (vz r) (vz v) (vx r) (vx v) (vy r) (vy v) dz dx dy).
Lemma times_in r v dx dy dz t : 0 < dx -> 0 < dy -> 0 < dz -> In t (box_times r v dx dy dz) <-> t <> 0 /\ face dx dy dz (on_line r v t) v.
Proof.
  intros X Y Z. unfold box_times. rewrite nz_in, !in_app_iff. split.
  - intros [H N]. split; [exact N|]. rewrite !faces_in in H by assumption. unfold face, on_line. cbn [vx vy vz]. tauto.
  - intros [N H]. split; [|exact N]. rewrite !faces_in by assumption. unfold face, on_line in H. cbn [vx vy vz] in H. tauto.
Qed.
Lemma times_nodup r v dx dy dz : 0 < dx -> 0 < dy -> 0 < dz -> NoDup (box_times r v dx dy dz).
Proof.
  intros X Y Z. unfold box_times, nz. rewrite !filter_app. fold (nz (box_faces (vx r) (vx v) (vy r) (vy v) (vz r) (vz v) dx dy dz)). fold (nz (box_faces (vy r) (vy v) (vx r) (vx v) (vz r) (vz v) dy dx dz)). fold (nz (box_faces (vz r) (vz v) (vx r) (vx v) (vy r) (vy v) dz dx dy)).
  repeat apply nodup_app; try (now apply faces_nodup).
  - intros t A B. apply nz_in in A as [A N], B as [B _]. rewrite faces_in in A, B by assumption. lra.
  - intros t A B. apply nz_in in A as [A N]. apply in_app_iff in B as [B|B]; apply nz_in in B as [B _]; rewrite faces_in in A, B by assumption; lra.
Qed.
(** What is returned for at most two times. *)
Definition of_times (l : list R) : option (R * R) :=
  match l with [] => None | [a] => Some (Rmin a 0, Rmax a 0) | a :: b :: _ => Some (Rmin a b, Rmax a b) end.
Lemma box_of_times r v dx dy dz : (List.length (box_times r v dx dy dz) <= 2)%nat -> mc_box_intersect r v dx dy dz = of_times (box_times r v dx dy dz).
Proof.
  intros L. unfold mc_box_intersect. rewrite step_nz. fold (box_times r v dx dy dz). assert (NZ : forall t, In t (box_times r v dx dy dz) -> t <> 0) by (unfold box_times; intros t H; now apply nz_in in H).
  set (l := box_times r v dx dy dz) in *. clearbody l. assert (O : forall a b, (if Rltb a b then Some (a, b) else Some (b, a)) = Some (Rmin a b, Rmax a b)).
  { intros a b. destruct (Rltb a b) eqn:E; [apply Rltb_t in E; now rewrite Rmin_left, Rmax_right by lra|apply Rltb_f in E; now rewrite Rmin_right, Rmax_left by lra]. }
  assert (Z0 : Reqb 0 0 = true) by now apply Reqb_true.
  destruct l as [|a [|b [|c l]]]; [| | |cbn in L; lia]; cbn [fold_left].
  - now rewrite Z0.
  - assert (A : Reqb a 0 = false) by (apply Reqb_false, NZ; now left). unfold box_step. rewrite A. cbn [Nat.eqb]. rewrite A. cbn [andb of_times]. apply O.
  - assert (A : Reqb a 0 = false) by (apply Reqb_false, NZ; now left). assert (B : Reqb b 0 = false) by (apply Reqb_false, NZ; right; now left). unfold box_step. rewrite A. cbn [Nat.eqb]. rewrite B, A. cbn [andb of_times]. apply O.
Qed.
Lemma one_time (l : list R) a : NoDup l -> (forall t, In t l <-> t = a) -> l = [a].
Proof.
  intros N H. assert (P : Permutation l [a]) by (apply NoDup_Permutation; [exact N|repeat constructor; intros []|intros t; rewrite H; cbn; intuition]). now apply Permutation_sym, Permutation_length_1_inv in P.
Qed.
Lemma box_all r v dx dy dz : 0 < dx -> 0 < dy -> 0 < dz -> v <> mkV 0 0 0 ->
  (~ meets (Box dx dy dz) r v -> mc_box_intersect r v dx dy dz = None) /\
  (meets (Box dx dy dz) r v -> exists t1 t2, entry_exit (Box dx dy dz) r v t1 t2 /\
     (~ on_edge dx dy dz (on_line r v t1) -> ~ on_edge dx dy dz (on_line r v t2) -> mc_box_intersect r v dx dy dz = Some (t1, t2)) /\
     (on_edge dx dy dz (on_line r v t1) -> ~ on_edge dx dy dz (on_line r v t2) -> t2 <> 0 -> mc_box_intersect r v dx dy dz = Some (Rmin t2 0, Rmax t2 0)) /\
     (~ on_edge dx dy dz (on_line r v t1) -> on_edge dx dy dz (on_line r v t2) -> t1 <> 0 -> mc_box_intersect r v dx dy dz = Some (Rmin t1 0, Rmax t1 0)) /\
     (on_edge dx dy dz (on_line r v t1) -> on_edge dx dy dz (on_line r v t2) -> mc_box_intersect r v dx dy dz = None)).
Proof.
  intros HX HY HZ V. pose proof (times_nodup r v dx dy dz HX HY HZ) as ND. pose proof (fun t => times_in r v dx dy dz t HX HY HZ) as TI. pose proof (box_of_times r v dx dy dz) as OF.
  set (l := box_times r v dx dy dz) in *. split.
  - intros M. assert (E : l = []). { destruct l as [|a l]; [reflexivity|]. exfalso. apply M. apply (face_meets dx dy dz r v a); auto. apply TI. now left. } rewrite E in OF. apply OF. cbn. lia.
  - intros M. destruct (box_seg dx dy dz r v V M) as (t1 & t2 & L & HC & HS). exists t1, t2. split; [now split; [|split]|].
    assert (SUB : forall t, In t l -> t = t1 \/ t = t2). { intros t Ht. apply TI in Ht as [_ Ht]. apply face_solid in Ht as [K1 K2]. rewrite HS in K1. rewrite HC in K2. lra. }
    assert (EF : forall t, on_edge dx dy dz (on_line r v t) -> ~ In t l). { intros t E Ht. apply TI in Ht as [_ Ht]. unfold on_edge, face in *. lra. }
    assert (FE : forall t, (t = t1 \/ t = t2) -> ~ on_edge dx dy dz (on_line r v t) -> t <> 0 -> In t l).
    { intros t Ht NE TZ. apply TI. split; [exact TZ|]. assert (S1 : solid (Box dx dy dz) (on_line r v t)) by (apply HS; lra). assert (S2 : ~ core (Box dx dy dz) (on_line r v t)) by (rewrite HC; lra).
      destruct M as (t0 & M). unfold solid, core in *. cbn in S1, S2, M. unfold on_edge, face in *. cbn [on_line vx vy vz] in *.
      assert (AX : vx v = 0 -> 2 * Rabs (vx r + t * vx v) < dx) by (intros E; replace (vx r + t * vx v) with (vx r + t0 * vx v) by (rewrite E; ring); apply M).
      assert (AY : vy v = 0 -> 2 * Rabs (vy r + t * vy v) < dy) by (intros E; replace (vy r + t * vy v) with (vy r + t0 * vy v) by (rewrite E; ring); apply M).
      assert (AZ : vz v = 0 -> 2 * Rabs (vz r + t * vz v) < dz) by (intros E; replace (vz r + t * vz v) with (vz r + t0 * vz v) by (rewrite E; ring); apply M).
      destruct (Rlt_dec (2 * Rabs (vx r + t * vx v)) dx); destruct (Rlt_dec (2 * Rabs (vy r + t * vy v)) dy); destruct (Rlt_dec (2 * Rabs (vz r + t * vz v)) dz); try lra. }
    assert (NZ : forall t, In t l -> t <> 0) by (intros t H; now apply TI in H).
    assert (ONE : forall a b, (a = t1 /\ b = t2 \/ a = t2 /\ b = t1) -> (forall t, t = b -> ~ In t l) -> In a l -> mc_box_intersect r v dx dy dz = Some (Rmin a 0, Rmax a 0)).
    { intros a b AB NB IA. assert (E : l = [a]). { apply one_time; [exact ND|]. intros t. split; [|intros ->; exact IA]. intros H. destruct (SUB t H) as [E|E]; destruct AB as [[A B]|[A B]]; subst a b; try exact E; exfalso; exact (NB t E H). }
      rewrite E in OF. apply OF. cbn. lia. }
    repeat split.
    + intros N1 N2. destruct (Req_EM_T t1 0) as [Z1|Z1]; [|destruct (Req_EM_T t2 0) as [Z2|Z2]].
      * rewrite (ONE t2 t1); [rewrite Rmin_right, Rmax_left by lra; now rewrite Z1|now right|intros t E H; apply (NZ t H); lra|apply FE; [now right|exact N2|lra]].
      * rewrite (ONE t1 t2); [rewrite Rmin_left, Rmax_right by lra; now rewrite Z2|now left|intros t E H; apply (NZ t H); lra|apply FE; [now left|exact N1|lra]].
      * assert (P : Permutation l [t1; t2]) by (apply pair_perm; auto; intros t; split; [apply SUB|]; intros [->| ->]; apply FE; auto).
        pose proof (Permutation_length P) as LEN. destruct l as [|a [|b [|c l]]]; try discriminate LEN. rewrite OF by (cbn; lia). cbn [of_times].
        apply Permutation_length_2_inv in P. destruct P as [E|E]; injection E as E1 E2; subst; [rewrite Rmin_left, Rmax_right by lra|rewrite Rmin_right, Rmax_left by lra]; reflexivity.
    + intros E1 N2 Z2. apply (ONE t2 t1); [now right|intros t -> H; exact (EF t1 E1 H)|apply FE; auto].
    + intros N1 E2 Z1. apply (ONE t1 t2); [now left|intros t -> H; exact (EF t2 E2 H)|apply FE; auto].
    + intros E1 E2. assert (E : l = []). { destruct l as [|a l']; [reflexivity|]. exfalso. destruct (SUB a (or_introl eq_refl)) as [->| ->]; [apply (EF t1 E1)|apply (EF t2 E2)]; now left. } rewrite E in OF. apply OF. cbn. lia.
Qed.

(** ** quadratic inequalities *)
Lemma roots_between a b c t : 0 < a -> 0 <= b * b - a * c -> let s := sqrt (b * b - a * c) in
  a * t * t + 2 * b * t + c <= 0 <-> (- b - s) / a <= t <= (- b + s) / a.
Proof.
  intros A D s. assert (S : s * s = b * b - a * c) by (now apply sqrt_sqrt). assert (SP : 0 <= s) by apply sqrt_pos.
  set (p := (- b - s) / a). set (q := (- b + s) / a). assert (EP : a * p = - b - s) by (unfold p; field; lra). assert (EQ : a * q = - b + s) by (unfold q; field; lra).
  assert (F : a * (a * t * t + 2 * b * t + c) = (a * t - a * p) * (a * t - a * q)) by (rewrite EP, EQ; transitivity ((a * t + b) * (a * t + b) - s * s); [rewrite S; ring|ring]). split.
  - intros H. assert (H1 : (a * t - a * p) * (a * t - a * q) <= 0) by (rewrite <- F; nra). assert (PQ : a * p <= a * q) by lra. split; apply Rnot_lt_le; intros K; [assert (a * t < a * p) by (now apply Rmult_lt_compat_l)|assert (a * q < a * t) by (now apply Rmult_lt_compat_l)]; nra.
  - intros [H1 H2]. assert (a * p <= a * t) by nra. assert (a * t <= a * q) by nra. assert (a * (a * t * t + 2 * b * t + c) <= 0) by (rewrite F; nra). nra.
Qed.
Lemma no_roots a b c t : 0 < a -> b * b - a * c < 0 -> 0 < a * t * t + 2 * b * t + c.
Proof. intros A D. assert (F : a * (a * t * t + 2 * b * t + c) = (a * t + b) * (a * t + b) - (b * b - a * c)) by ring. assert (0 < a * (a * t * t + 2 * b * t + c)) by (rewrite F; pose proof (Rle_0_sqr (a * t + b)) as SQ; unfold Rsqr in SQ; lra). nra. Qed.
Lemma sqrt_4 x : 0 <= x -> sqrt (4 * x) = 2 * sqrt x.
Proof. intros X. rewrite sqrt_mult by lra. replace 4 with (2 * 2) by ring. rewrite sqrt_square by lra. reflexivity. Qed.

(** ** sphere *)
Lemma mc_sphere r v R0 : v <> mkV 0 0 0 ->
  (mc_sphere_intersect r v R0 = Ok None /\ forall t, ~ solid (Sphere R0) (on_line r v t)) \/
  exists t0 t1, mc_sphere_intersect r v R0 = Ok (Some (t0, t1)) /\ inside_from_to (solid (Sphere R0)) r v t0 t1.
Proof.
  intros V. pose proof (dot_pos v V) as A. unfold vdot in A. unfold mc_sphere_intersect. rewrite sqrt_sqrt by lra. set (a := vx v * vx v + vy v * vy v + vz v * vz v) in *. set (b := vx r * vx v + vy r * vy v + vz r * vz v). set (c := vx r * vx r + vy r * vy r + vz r * vz r - R0 * R0).
  assert (Q : forall t, solid (Sphere R0) (on_line r v t) <-> a * t * t + 2 * b * t + c <= 0) by (intros t; unfold solid; cbn; unfold a, b, c; split; intros H; nra).
  replace (2 * b * (2 * b) - 4 * a * c) with (4 * (b * b - a * c)) by ring. destruct (Rltb (4 * (b * b - a * c)) 0) eqn:E; [apply Rltb_t in E|apply Rltb_f in E].
  - left. split; [reflexivity|]. intros t H. apply Q in H. pose proof (no_roots a b c t A). lra.
  - right. rewrite (proj2 (Reqb_false a 0)) by lra. do 2 eexists. split; [reflexivity|]. rewrite sqrt_4 by lra. set (s := sqrt (b * b - a * c)).
    assert (SP : 0 <= s) by apply sqrt_pos. replace ((- (2 * b) - 2 * s) / (2 * a)) with ((- b - s) / a) by (field; lra). replace ((- (2 * b) + 2 * s) / (2 * a)) with ((- b + s) / a) by (field; lra). split.
    + apply Rmult_le_compat_r; [left; now apply Rinv_0_lt_compat|lra].
    + intros t. rewrite Q. apply roots_between; lra.
Qed.
Lemma mc_sphere_rest r R0 : mc_sphere_intersect r (mkV 0 0 0) R0 = Err ZeroDivisionError.
Proof.
  unfold mc_sphere_intersect. cbn [vx vy vz]. replace (0 * 0 + 0 * 0 + 0 * 0) with 0 by ring. rewrite sqrt_0. rewrite (proj2 (Rltb_f _ 0)) by (assert (E : 2 * (vx r * 0 + vy r * 0 + vz r * 0) = 0) by ring; rewrite E; nra). now rewrite (proj2 (Reqb_true (0 * 0) 0)) by ring.
Qed.

(** ** cylinder *)
Lemma cyl_iff r h p : closed_cylinder r h p <-> axis_dist2 p <= r * r /\ - h / 2 <= vy p <= h / 2.
Proof. unfold closed_cylinder, solid, axis_dist2, upright. cbn. unfold Rabs. destruct (Rcase_abs (vy p)); lra. Qed.
Lemma cyl_open_iff r h p : open_cylinder r h p <-> axis_dist2 p < r * r /\ - h / 2 < vy p < h / 2.
Proof. unfold open_cylinder, core, axis_dist2, upright. cbn. unfold Rabs. destruct (Rcase_abs (vy p)); lra. Qed.

(** The part of a time interval at which a linear function is between two values. *)
Lemma linear_top y v h t : v <> 0 -> let T := (h - y) / v in y + t * v <= h <-> 0 <= v * (T - t).
Proof. intros N T. assert (E : v * T = h - y) by (unfold T; field; exact N). split; intros; nra. Qed.
Lemma linear_bottom y v h t : v <> 0 -> let T := (h - y) / v in h <= y + t * v <-> v * (T - t) <= 0.
Proof. intros N T. assert (E : v * T = h - y) by (unfold T; field; exact N). split; intros; nra. Qed.

Lemma cyl_cross p v r h : 0 <= h -> vx v <> 0 \/ vz v <> 0 ->
  exists o k, mc_cylinder_intersect p v r h = Ok (mkHit o k) /\
    (k = 0%Z -> forall t, ~ closed_cylinder r h (on_line p v t)) /\
    (k <> 0%Z -> exists t0 t1, o = Some (t0, t1) /\ inside_from_to (closed_cylinder r h) p v t0 t1 /\ bits_ok r h p v t0 t1 k).
Proof.
  intros H NV. assert (A : 0 < vx v * vx v + vz v * vz v) by (destruct NV as [N|N]; apply Rsqr_pos_lt in N; unfold Rsqr in N; nra). unfold mc_cylinder_intersect. cbv zeta.
  rewrite (proj2 (Reqb_false _ 0)) by lra. set (a := vx v * vx v + vz v * vz v) in *. set (b := vx p * vx v + vz p * vz v). set (c := vx p * vx p + vz p * vz p - r * r).
  assert (Q : forall t, axis_dist2 (on_line p v t) <= r * r <-> a * t * t + 2 * b * t + c <= 0) by (intros t; unfold axis_dist2, on_line, a, b, c; cbn; split; intros; nra).
  assert (Q0 : forall t, axis_dist2 (on_line p v t) - r * r = a * t * t + 2 * b * t + c) by (intros t; unfold axis_dist2, on_line, a, b, c; cbn; ring).
  replace ((2 * vx v * vx p + 2 * vz v * vz p) * (2 * vx v * vx p + 2 * vz v * vz p) - 4 * a * c) with (4 * (b * b - a * c)) by (unfold b; ring).
  destruct (Rltb (4 * (b * b - a * c)) 0) eqn:E; [apply Rltb_t in E|apply Rltb_f in E].
  { do 2 eexists. split; [reflexivity|]. split; [|congruence]. intros _ t K. apply cyl_iff in K as [K _]. apply Q in K. pose proof (no_roots a b c t A). lra. }
  rewrite sqrt_4 by lra. set (s := sqrt (b * b - a * c)). assert (SP : 0 <= s) by apply sqrt_pos. assert (SS : s * s = b * b - a * c) by (apply sqrt_sqrt; lra).
  replace (vz v * vz v + vx v * vx v) with a by (unfold a; ring).
  replace ((- (2 * vz v * vz p + 2 * vx v * vx p) - 2 * s) / (2 * a)) with ((- b - s) / a) by (unfold b; field; lra).
  replace ((- (2 * vz v * vz p + 2 * vx v * vx p) + 2 * s) / (2 * a)) with ((- b + s) / a) by (unfold b; field; lra).
  set (t0 := (- b - s) / a). set (t1 := (- b + s) / a). assert (T01 : t0 <= t1) by (apply Rmult_le_compat_r; [left; now apply Rinv_0_lt_compat|lra]).
  assert (QB : forall t, axis_dist2 (on_line p v t) <= r * r <-> t0 <= t <= t1) by (intros t; rewrite Q; apply roots_between; lra).
  assert (QE0 : axis_dist2 (on_line p v t0) = r * r). { assert (AT : a * t0 = - b - s) by (unfold t0; field; lra). pose proof (Q0 t0) as K. assert (Z0 : a * (a * t0 * t0 + 2 * b * t0 + c) = 0) by (replace (a * (a * t0 * t0 + 2 * b * t0 + c)) with (a * t0 * (a * t0) + 2 * b * (a * t0) + a * c) by ring; rewrite AT; transitivity (s * s - (b * b - a * c)); [ring|lra]). nra. }
  assert (QE1 : axis_dist2 (on_line p v t1) = r * r). { assert (AT : a * t1 = - b + s) by (unfold t1; field; lra). pose proof (Q0 t1) as K. assert (Z0 : a * (a * t1 * t1 + 2 * b * t1 + c) = 0) by (replace (a * (a * t1 * t1 + 2 * b * t1 + c)) with (a * t1 * (a * t1) + 2 * b * (a * t1) + a * c) by ring; rewrite AT; transitivity (s * s - (b * b - a * c)); [ring|lra]). nra. }
  clearbody t0 t1. clear Q Q0 E SP SS. clearbody s. clear s c. clearbody b. clear b. clearbody a. clear a A NV.
  assert (C : forall t, closed_cylinder r h (on_line p v t) <-> t0 <= t <= t1 /\ - h / 2 <= vy p + t * vy v <= h / 2) by (intros t; rewrite cyl_iff, QB; reflexivity).
  assert (Y : forall t, vy (on_line p v t) = vy p + t * vy v) by reflexivity.
  set (y := vy p) in *. set (u := vy v) in *. clearbody y u.
  destruct (Rltb (h / 2) (u * t0 + y)) eqn:E1; destruct (Rltb (h / 2) (u * t1 + y)) eqn:E2; destruct (Rltb (u * t0 + y) (- h / 2)) eqn:E3; destruct (Rltb (u * t1 + y) (- h / 2)) eqn:E4; cbn [andb orb];
    repeat match goal with K : Rltb _ _ = true |- _ => apply Rltb_t in K | K : Rltb _ _ = false |- _ => apply Rltb_f in K end; try (exfalso; lra).
  all: try (do 2 eexists; split; [reflexivity|]; split; [|congruence]; intros _ t K; apply C in K as [K1 K2]; destruct (Rle_dec 0 u); nra).
  all: do 2 eexists; (split; [reflexivity|]); (split; [cbn; lia|]); intros _; do 2 eexists; (split; [reflexivity|]).
  all: unfold bits_ok; cbn [Z.add Pos.add Pos.succ Z.testbit Pos.testbit]; rewrite !Y.
  all: try (assert (UN : u <> 0) by (intros ->; lra)).
  all: split; [|repeat split; try discriminate; try (intros; field; exact UN); auto].
  all: unfold inside_from_to.
  - set (T0 := (h / 2 - y) / u). set (T1 := (- h / 2 - y) / u). assert (B0 : u * T0 = h / 2 - y) by (unfold T0; field; exact UN). assert (B1 : u * T1 = - h / 2 - y) by (unfold T1; field; exact UN). clearbody T0 T1. assert (UNEG : u < 0) by nra. split; [nra|]. intros t. rewrite C. split; intros; nra.
  - set (T0 := (h / 2 - y) / u). assert (B0 : u * T0 = h / 2 - y) by (unfold T0; field; exact UN). clearbody T0. assert (UNEG : u < 0) by nra. split; [nra|]. intros t. rewrite C. split; intros; nra.
  - set (T0 := (- h / 2 - y) / u). set (T1 := (h / 2 - y) / u). assert (B0 : u * T0 = - h / 2 - y) by (unfold T0; field; exact UN). assert (B1 : u * T1 = h / 2 - y) by (unfold T1; field; exact UN). clearbody T0 T1. assert (UPOS : 0 < u) by nra. split; [nra|]. intros t. rewrite C. split; intros; nra.
  - set (T1 := (h / 2 - y) / u). assert (B1 : u * T1 = h / 2 - y) by (unfold T1; field; exact UN). clearbody T1. assert (UPOS : 0 < u) by nra. split; [nra|]. intros t. rewrite C. split; intros; nra.
  - set (T0 := (- h / 2 - y) / u). assert (B0 : u * T0 = - h / 2 - y) by (unfold T0; field; exact UN). clearbody T0. assert (UPOS : 0 < u) by nra. split; [nra|]. intros t. rewrite C. split; intros; nra.
  - set (T1 := (- h / 2 - y) / u). assert (B1 : u * T1 = - h / 2 - y) by (unfold T1; field; exact UN). clearbody T1. assert (UNEG : u < 0) by nra. split; [nra|]. intros t. rewrite C. split; intros; nra.
  - split; [exact T01|]. intros t. rewrite C. split; [intros [K _]; exact K|]. intros K. split; [exact K|]. destruct (Rle_dec 0 u); split; nra.
Qed.
Lemma cyl_parallel p r h u : 0 <= h -> u <> 0 -> let v := mkV 0 u 0 in
  (r * r <= axis_dist2 p -> mc_cylinder_intersect p v r h = Ok (mkHit None 0) /\ forall t, ~ open_cylinder r h (on_line p v t)) /\
  (axis_dist2 p < r * r -> exists t0 t1, mc_cylinder_intersect p v r h = Ok (mkHit (Some (t0, t1)) 2) /\ inside_from_to (closed_cylinder r h) p v t0 t1).
Proof.
  intros H U v. unfold mc_cylinder_intersect. cbv zeta. cbn [v vx vy vz]. rewrite (proj2 (Reqb_true _ 0)) by ring. fold (axis_dist2 p).
  assert (AX : forall t, axis_dist2 (on_line p v t) = axis_dist2 p) by (intros t; unfold axis_dist2, on_line, v; cbn; ring). split; intros D.
  - rewrite (proj2 (Rleb_true _ _) D). split; [reflexivity|]. intros t K. apply cyl_open_iff in K as [K _]. rewrite AX in K. lra.
  - rewrite (proj2 (Rleb_false _ _) D), (proj2 (Reqb_false _ _) U).
    assert (C : forall t, closed_cylinder r h (on_line p v t) <-> - h / 2 <= vy p + t * u <= h / 2) by (intros t; rewrite cyl_iff, AX; cbn [on_line vy v]; lra).
    set (T0 := (- h / 2 - vy p) / u). set (T1 := (h / 2 - vy p) / u). assert (B0 : u * T0 = - h / 2 - vy p) by (unfold T0; field; exact U). assert (B1 : u * T1 = h / 2 - vy p) by (unfold T1; field; exact U). clearbody T0 T1.
    destruct (Rltb 0 u) eqn:E; [apply Rltb_t in E|apply Rltb_f in E]; do 2 eexists; (split; [reflexivity|]); (split; [nra|]); intros t; rewrite C; split; intros; nra.
Qed.
Lemma cyl_rest p r h : axis_dist2 p < r * r -> mc_cylinder_intersect p (mkV 0 0 0) r h = Err ZeroDivisionError.
Proof. intros D. unfold mc_cylinder_intersect. cbv zeta. cbn [vx vy vz]. rewrite (proj2 (Reqb_true _ 0)) by ring. fold (axis_dist2 p). now rewrite (proj2 (Rleb_false _ _) D), (proj2 (Reqb_true 0 0) eq_refl). Qed.
