(** Proofs for C45: lengths, orbits, the list of peaks. *)
From Coq Require Import Reals Lra Lia Logic.FinFun.
From Verif Require Import Base RotModel ChanModel ChanProofs PeakModel PeakSpec.
Open Scope R_scope.

(** Lengths. *)
Lemma point_is m v : dot_mv m (realv v) = point m v.
Proof. destruct v as [[h k] l]. unfold dot_mv, realv, point. cbn [vx vy vz]. f_equal; ring. Qed.
Lemma norm_point m v : norm (point m v) = sqrt (sqlen m v).
Proof. reflexivity. Qed.
Lemma sqlen_nonneg m v : 0 <= sqlen m v.
Proof. unfold sqlen, inner. nra. Qed.
Lemma q_is m v : q_of m v = 2 * PI * sqrt (sqlen m v).
Proof.
  pose proof PI_RGT_0. unfold q_of, norm. replace (2 * PI) with (sqrt ((2 * PI) * (2 * PI))) by (rewrite sqrt_square; lra). rewrite <- sqrt_mult by (try apply sqlen_nonneg; nra). f_equal.
  destruct v as [[h k] l]. unfold sqlen, inner, point, q_rows, transpose. cbn. ring.
Qed.
Lemma laz_is m v : laz_q m v = 2 * PI * sqrt (sqlen (transpose m) v).
Proof. rewrite <- q_is. unfold laz_q, q_of. destruct m; reflexivity. Qed.
Lemma d_none m v : sqlen m v = 0 -> d_spacing m v = None.
Proof. intros H. unfold d_spacing. rewrite point_is, norm_point, H, sqrt_0. destruct (Req_EM_T 0 0); [reflexivity|lra]. Qed.
Lemma d_some m v : sqlen m v <> 0 -> d_spacing m v = Some (1 / sqrt (sqlen m v)).
Proof. intros H. unfold d_spacing. rewrite point_is, norm_point. destruct (Req_EM_T _ 0) as [E|]; [|reflexivity]. exfalso. apply H. apply sqrt_eq_0; [apply sqlen_nonneg|exact E]. Qed.
Lemma sqrt_pos' m v : sqlen m v <> 0 -> 0 < sqrt (sqlen m v).
Proof. intros H. apply sqrt_lt_R0. pose proof (sqlen_nonneg m v). lra. Qed.

(** A nonsingular matrix has no vector to zero. *)
Lemma sqlen_zero m v : det m <> 0 -> sqlen m v = 0 -> v = (0, 0, 0)%Z.
Proof.
  intros D Z. destruct v as [[h k] l]. unfold sqlen, inner, point in Z. cbn [vx vy vz] in Z.
  set (X := IZR h * m00 m + IZR k * m01 m + IZR l * m02 m) in *. set (Y := IZR h * m10 m + IZR k * m11 m + IZR l * m12 m) in *. set (W := IZR h * m20 m + IZR k * m21 m + IZR l * m22 m) in *.
  assert (X = 0) by nra. assert (Y = 0) by nra. assert (W = 0) by nra. subst X Y W.
  assert (A : IZR h * det m = 0).
  { replace (IZR h * det m) with ((IZR h * m00 m + IZR k * m01 m + IZR l * m02 m) * (m11 m * m22 m - m12 m * m21 m) - (IZR h * m10 m + IZR k * m11 m + IZR l * m12 m) * (m01 m * m22 m - m02 m * m21 m)
      + (IZR h * m20 m + IZR k * m21 m + IZR l * m22 m) * (m01 m * m12 m - m02 m * m11 m)) by (unfold det; ring). rewrite H, H0, H1. ring. }
  assert (B : IZR k * det m = 0).
  { replace (IZR k * det m) with (- (IZR h * m00 m + IZR k * m01 m + IZR l * m02 m) * (m10 m * m22 m - m12 m * m20 m) + (IZR h * m10 m + IZR k * m11 m + IZR l * m12 m) * (m00 m * m22 m - m02 m * m20 m)
      - (IZR h * m20 m + IZR k * m21 m + IZR l * m22 m) * (m00 m * m12 m - m02 m * m10 m)) by (unfold det; ring). rewrite H, H0, H1. ring. }
  assert (C : IZR l * det m = 0).
  { replace (IZR l * det m) with ((IZR h * m00 m + IZR k * m01 m + IZR l * m02 m) * (m10 m * m21 m - m11 m * m20 m) - (IZR h * m10 m + IZR k * m11 m + IZR l * m12 m) * (m00 m * m21 m - m01 m * m20 m)
      + (IZR h * m20 m + IZR k * m21 m + IZR l * m22 m) * (m00 m * m11 m - m01 m * m10 m)) by (unfold det; ring). rewrite H, H0, H1. ring. }
  apply Rmult_integral in A, B, C. destruct A as [A|]; [|contradiction]. destruct B as [B|]; [|contradiction]. destruct C as [C|]; [|contradiction].
  apply eq_IZR in A, B, C. congruence.
Qed.
Lemma sqlen_nz m v : det m <> 0 -> v <> (0, 0, 0)%Z -> sqlen m v <> 0.
Proof. intros D N Z. apply N. apply (sqlen_zero m); assumption. Qed.

(** The assertion. *)
Lemma dq_is m v : sqlen m v <> 0 -> dq_close (d_spacing m v) (q_of m v) = true.
Proof.
  intros N. rewrite d_some by exact N. rewrite q_is. unfold dq_close. pose proof (sqrt_pos' _ _ N). replace (1 / sqrt (sqlen m v) * (2 * PI * sqrt (sqlen m v)) - 2 * PI) with 0 by (field; lra). rewrite Rabs_R0.
  destruct (Rle_dec _ _) as [|X]; [reflexivity|]. exfalso. apply X. pose proof (Rabs_pos (2 * PI)). lra.
Qed.

(** The pruning by the limit. *)
Lemma pruned_is m dmin v : sqlen m v <> 0 -> pruned m dmin v = false <-> spaced m dmin v.
Proof.
  intros N. unfold pruned, spaced. destruct dmin as [d|]; [|tauto]. rewrite d_some by exact N. cbn [below]. rewrite Rltb_f. pose proof (sqrt_pos' _ _ N) as P. set (n := sqrt _) in *. split; intros H.
  - apply Rmult_le_reg_r with (/ n); [apply Rinv_0_lt_compat; exact P|]. replace (d * n * / n) with d by (field; lra). unfold Rdiv in H. exact H.
  - apply Rmult_le_reg_r with n; [exact P|]. replace (1 / n * n) with 1 by (field; lra). exact H.
Qed.
Lemma pruned_zero m dmin : pruned m dmin (0, 0, 0)%Z = false.
Proof. unfold pruned. destruct dmin; [|reflexivity]. rewrite d_none; [reflexivity|]. unfold sqlen, inner, point. cbn. ring. Qed.
Lemma spaced_zero m dmin : spaced m dmin (0, 0, 0)%Z.
Proof. unfold spaced. destruct dmin; [|exact Logic.I]. replace (sqlen m (0, 0, 0)%Z) with 0 by (unfold sqlen, inner, point; cbn; ring). rewrite sqrt_0. lra. Qed.
Lemma pruned_iff m dmin v : det m <> 0 -> pruned m dmin v = false <-> spaced m dmin v.
Proof.
  intros D. destruct (Req_EM_T (sqlen m v) 0) as [E|E]; [|apply pruned_is; exact E]. apply sqlen_zero in E; [|exact D]. subst v. rewrite pruned_zero. split; [intros _; apply spaced_zero|reflexivity].
Qed.

(** The loops. *)
Lemma zrange_in lo hi x : In x (zrange lo hi) <-> (lo <= x < hi)%Z.
Proof.
  unfold zrange. rewrite in_map_iff. split.
  - intros [i [<- H]]. apply in_seq in H. lia.
  - intros H. exists (Z.to_nat (x - lo)). split; [lia|]. apply in_seq. lia.
Qed.
Lemma zrange_nodup lo hi : NoDup (zrange lo hi).
Proof. unfold zrange. apply Injective_map_NoDup; [intros a b H; lia|apply seq_NoDup]. Qed.
Lemma candidates_in m dmin lo hi v : det m <> 0 ->
  In v (candidates m dmin lo hi) <->
  (let '(h, k, l) := v in (lo <= h < hi /\ lo <= k < hi /\ lo <= l < hi)%Z /\ v <> (0, 0, 0)%Z /\ spaced m dmin v /\ spaced m dmin (h, 0, 0)%Z /\ spaced m dmin (0, k, 0)%Z).
Proof.
  intros D. destruct v as [[h k] l]. unfold candidates. rewrite in_flat_map. split.
  - intros [h' [Hh A]]. destruct (pruned m dmin (h', 0, 0)%Z) eqn:P1; [destruct A|]. apply in_flat_map in A. destruct A as [k' [Hk A]]. destruct (pruned m dmin (0, k', 0)%Z) eqn:P2; [destruct A|].
    apply in_flat_map in A. destruct A as [l' [Hl A]]. destruct ((h' =? 0) && (k' =? 0) && (l' =? 0))%Z eqn:Z0; [destruct A|]. destruct (pruned m dmin (h', k', l')) eqn:P3; [destruct A|]. destruct A as [A|[]].
    injection A as -> -> ->. apply zrange_in in Hh, Hk, Hl. apply pruned_iff in P1, P2, P3; try exact D. split; [lia|]. split; [|tauto]. intros X. injection X as -> -> ->. cbn in Z0. discriminate.
  - intros ((Hh & Hk & Hl) & N & S1 & S2 & S3). exists h. split; [apply zrange_in; exact Hh|]. apply pruned_iff in S1, S2, S3; try exact D. rewrite S2. apply in_flat_map. exists k. split; [apply zrange_in; exact Hk|]. rewrite S3.
    apply in_flat_map. exists l. split; [apply zrange_in; exact Hl|]. rewrite S1. destruct ((h =? 0) && (k =? 0) && (l =? 0))%Z eqn:Z0; [|left; reflexivity]. exfalso. apply N. apply andb_true_iff in Z0. destruct Z0 as [Z0 Z1].
    apply andb_true_iff in Z0. destruct Z0 as [Z0 Z2]. apply Z.eqb_eq in Z0, Z1, Z2. congruence.
Qed.

Lemma flat_map_nodup {A B} (f : A -> list B) (key : B -> A) l : NoDup l -> (forall a, NoDup (f a)) -> (forall a b, In b (f a) -> key b = a) -> NoDup (flat_map f l).
Proof.
  intros N F K. induction N as [|a l Ha N IH]; [constructor|]. cbn [flat_map]. specialize (F a) as Fa. revert Fa. assert (D : forall b, In b (f a) -> ~ In b (flat_map f l)).
  { intros b Hb Hl. apply in_flat_map in Hl. destruct Hl as [a' [Ha' Hb']]. apply K in Hb, Hb'. congruence. }
  induction (f a) as [|b r IHr]; intros Fa; [exact IH|]. inversion Fa; subst. cbn. constructor.
  - rewrite in_app_iff. intros [X|X]; [contradiction|]. apply (D b); [left; reflexivity|exact X].
  - apply IHr; [|assumption]. intros b' Hb'. apply D. right. exact Hb'.
Qed.
Lemma candidates_nodup m dmin lo hi : NoDup (candidates m dmin lo hi).
Proof.
  unfold candidates. apply (flat_map_nodup _ (fun b => fst (fst b))); [apply zrange_nodup| |].
  - intros h. destruct (pruned _ _ _); [constructor|]. apply (flat_map_nodup _ (fun b => snd (fst b))); [apply zrange_nodup| |].
    + intros k. destruct (pruned _ _ _); [constructor|]. apply (flat_map_nodup _ (fun b => snd b)); [apply zrange_nodup| |].
      * intros l. destruct (_ && _)%bool; [constructor|]. destruct (pruned _ _ _); [constructor|]. constructor; [intros []|constructor].
      * intros l b. destruct (_ && _)%bool; [intros []|]. destruct (pruned _ _ _); [intros []|]. intros [<-|[]]. reflexivity.
    + intros k b. destruct (pruned _ _ _); [intros []|]. rewrite in_flat_map. intros [l [_ X]]. destruct (_ && _)%bool; [destruct X|]. destruct (pruned _ _ _); [destruct X|]. destruct X as [<-|[]]. reflexivity.
  - intros h b. destruct (pruned _ _ _); [intros []|]. rewrite in_flat_map. intros [k [_ X]]. destruct (pruned _ _ _); [destruct X|]. apply in_flat_map in X. destruct X as [l [_ X]]. destruct (_ && _)%bool; [destruct X|].
    destruct (pruned _ _ _); [destruct X|]. destruct X as [<-|[]]. reflexivity.
Qed.

(** Orbits. *)
Open Scope Z_scope.
Lemma zclose_refl a : zclose a a = true.
Proof. unfold zclose. apply Z.leb_le. rewrite Z.sub_diag. cbn [Z.abs]. lia. Qed.
Lemma zclose_small a b : Z.abs b <= 99999 -> zclose a b = true -> a = b.
Proof. unfold zclose. intros S H. apply Z.leb_le in H. change (10 ^ 7) with 10000000 in H. lia. Qed.
Lemma vclose_refl v : vclose v v = true.
Proof. destruct v as [[a b] c]. cbn. rewrite !zclose_refl. reflexivity. Qed.
Lemma vclose_small v w : within_index 99999 w -> vclose v w = true -> v = w.
Proof.
  destruct v as [[a b] c], w as [[d e] f]. cbn. intros (A & B & C) H. apply andb_true_iff in H. destruct H as [H H3]. apply andb_true_iff in H. destruct H as [H1 H2].
  apply zclose_small in H1, H2, H3; try assumption. congruence.
Qed.
Lemma image_is m v w : image m v w <-> w = zapply m v.
Proof. destruct m as [[[[a b] c] [[d e] f]] [[g i] j]], v as [[h k] l]. unfold image, zapply, zrow. tauto. Qed.
Lemma related_is ops v w : related ops v w <-> In w (map (fun m => zapply m v) ops).
Proof.
  unfold related. rewrite in_map_iff. split.
  - intros [m [A B]]. apply image_is in B. exists m. split; [symmetry; exact B|exact A].
  - intros [m [A B]]. exists m. split; [exact B|]. apply image_is. symmetry. exact A.
Qed.

Definition eq_step (v : refl) := fun (vs : list refl) (m : imat) => let v1 := zapply m v in if existsb (vclose v1) vs then vs else vs ++ [v1].
Lemma equivalents_inv v ops : forall vs, (forall w, In w (map (fun m => zapply m v) ops) -> within_index 99999 w) -> (forall w, In w vs -> within_index 99999 w) -> NoDup vs ->
  NoDup (fold_left (eq_step v) ops vs) /\ (forall w, In w (fold_left (eq_step v) ops vs) <-> In w vs \/ In w (map (fun m => zapply m v) ops)).
Proof.
  induction ops as [|m ops IH]; intros vs S1 S2 N; cbn [fold_left map] in *; [split; [exact N|cbn; tauto]|].
  unfold eq_step at 2 4. cbv zeta. destruct (existsb (vclose (zapply m v)) vs) eqn:E.
  - assert (H : In (zapply m v) vs). { apply existsb_exists in E. destruct E as [w [Hw C]]. apply vclose_small in C; [subst w; exact Hw|apply S2; exact Hw]. }
    destruct (IH vs) as [A B]; [intros w Hw; apply S1; right; exact Hw|exact S2|exact N|]. split; [exact A|]. intros w. rewrite B. cbn [In]. split; [tauto|]. intros [X|[<-|X]]; tauto.
  - destruct (IH (vs ++ [zapply m v])) as [A B].
    + intros w Hw. apply S1. right. exact Hw.
    + intros w Hw. apply in_app_iff in Hw. destruct Hw as [Hw|[<-|[]]]; [apply S2; exact Hw|]. apply S1. left. reflexivity.
    + assert (X : ~ In (zapply m v) vs). { intros X. assert (existsb (vclose (zapply m v)) vs = true); [|congruence]. apply existsb_exists. exists (zapply m v). split; [exact X|apply vclose_refl]. }
      clear - N X. induction N as [|a l Ha N IH]; cbn; [constructor; [intros []|constructor]|]. constructor.
      * rewrite in_app_iff. intros [Y|[Y|[]]]; [contradiction|]. apply X. left. symmetry. exact Y.
      * apply IH. intros Y. apply X. right. exact Y.
    + split; [exact A|]. intros w. rewrite B, in_app_iff. cbn [In]. tauto.
Qed.
Lemma equivalents_ok ops v : small_orbit ops v -> NoDup (equivalent_hkls v ops) /\ (forall w, In w (equivalent_hkls v ops) <-> related ops v w).
Proof.
  intros S. destruct (equivalents_inv v ops []) as [A B].
  - intros w Hw. apply S. apply related_is. exact Hw.
  - intros w [].
  - constructor.
  - split; [exact A|]. intros w. change (equivalent_hkls v ops) with (fold_left (eq_step v) ops []). rewrite B, related_is. cbn [In]. tauto.
Qed.

(** Group-like operations by matrices. *)
Lemma hkl_eqb_is a b : hkl_eqb a b = true <-> a = b.
Proof.
  destruct a as [[h k] l], b as [[h' k'] l']. cbn. rewrite !andb_true_iff, !Z.eqb_eq. split; [intros [[-> ->] ->]; reflexivity|]. intros E. injection E as -> -> ->. tauto.
Qed.
Lemma in_skip v l : existsb (hkl_eqb v) l = true <-> In v l.
Proof. rewrite existsb_exists. split; [intros [w [A B]]; apply hkl_eqb_is in B; subst; exact A|]. intros H. exists v. split; [exact H|apply hkl_eqb_is; reflexivity]. Qed.
