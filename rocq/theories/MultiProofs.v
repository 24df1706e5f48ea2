(** Proofs for C50: sums, convolution. *)
From Coq Require Import Reals Lra Psatz.
From Verif Require Import Base RotModel DetModel ChanModel MonModel ShapeModel ScatModel UnitModel GridModel PhonModel PhonSpec GridProofs PhonProofs PhonProofs2 MultiModel MultiSpec.
Open Scope R_scope.

Lemma np_total l : np_sum l = total l.
Proof. unfold np_sum. rewrite fold_total. ring. Qed.
Lemma nth_map_seq (f : nat -> R) n i : (i < n)%nat -> nth i (map f (seq 0 n)) 0 = f i.
Proof. intros I. rewrite (nth_indep _ 0 (f 0%nat)) by (rewrite map_length, seq_length; exact I). rewrite map_nth, seq_nth by exact I. reflexivity. Qed.
Lemma nth_map_R (f : R -> R) l i : (i < List.length l)%nat -> nth i (map f l) 0 = f (nth i l 0).
Proof. intros I. rewrite (nth_indep _ 0 (f 0)) by (rewrite map_length; exact I). apply map_nth. Qed.
Lemma list_nth : forall l : list R, l = map (fun i => nth i l 0) (seq 0 (List.length l)).
Proof.
  intros l. apply nth_ext with 0 0; [now rewrite map_length, seq_length|]. intros i I. rewrite nth_map_seq by exact I. reflexivity.
Qed.
Lemma sum_split f a b : loop_sum f (a + b) = loop_sum f a + loop_sum (fun i => f (a + i)%nat) b.
Proof. induction b as [|b IH]; [rewrite Nat.add_0_r; cbn; ring|]. rewrite Nat.add_succ_r. cbn [loop_sum]. rewrite IH. ring. Qed.
Lemma sum_first f n : loop_sum f (S n) = f 0%nat + loop_sum (fun i => f (S i)) n.
Proof. change (S n) with (1 + n)%nat. rewrite (sum_split f 1 n). cbn. ring. Qed.
Lemma sum_rev f n : loop_sum f n = loop_sum (fun i => f (n - 1 - i)%nat) n.
Proof.
  revert f. induction n as [|n IH]; intros f; [reflexivity|]. rewrite sum_first. cbn [loop_sum]. rewrite (IH (fun i => f (S i))).
  replace (S n - 1 - n)%nat with 0%nat by lia. rewrite Rplus_comm. f_equal. apply sum_ext. intros i I. f_equal. lia.
Qed.
Lemma sum_zero f n : (forall i, (i < n)%nat -> f i = 0) -> loop_sum f n = 0.
Proof. intros H. rewrite (sum_ext f (fun _ => 0) n H), sum_const. ring. Qed.
Lemma sum_middle f h : loop_sum f (2 * h + 1) = f h + loop_sum (fun i => f (h + S i)%nat + f (h - S i)%nat) h.
Proof.
  replace (2 * h + 1)%nat with (h + S h)%nat by lia. rewrite sum_split, sum_first, Nat.add_0_r, sum_add.
  rewrite (sum_rev f h). rewrite (sum_ext (fun i => f (h - 1 - i)%nat) (fun i => f (h - S i)%nat) h) by (intros i I; f_equal; lia). ring.
Qed.
Lemma total_seq f n : total (map f (seq 0 n)) = loop_sum f n.
Proof. symmetry. apply loop_total. Qed.
Lemma dot_nth : forall a b, List.length a = List.length b -> np_sum (map (fun p => fst p * snd p) (combine a b)) = loop_sum (fun i => nth i a 0 * nth i b 0) (List.length b).
Proof.
  intros a b L. rewrite np_total. revert b L. induction a as [|x a IH]; intros [|y b] L; try discriminate; [reflexivity|].
  cbn [combine map List.length]. rewrite sum_first. unfold total in *. cbn [fold_right fst snd nth]. rewrite (IH b) by (now injection L). reflexivity.
Qed.
Lemma nth_padded n l m j : nth j (repeat 0 n ++ l ++ repeat 0 m) 0 = if (Nat.leb n j && Nat.ltb j (n + List.length l))%bool then nth (j - n) l 0 else 0.
Proof.
  destruct (Nat.leb_spec n j) as [A|A]; cbn [andb].
  - rewrite app_nth2 by (rewrite repeat_length; exact A). rewrite repeat_length. destruct (Nat.ltb_spec j (n + List.length l)) as [B|B].
    + rewrite app_nth1 by lia. reflexivity.
    + rewrite app_nth2 by lia. apply nth_repeat.
  - rewrite app_nth1 by (rewrite repeat_length; exact A). apply nth_repeat.
Qed.
Lemma nth_firstn' (l : list R) : forall k i, (i < k)%nat -> nth i (firstn k l) 0 = nth i l 0.
Proof. induction l as [|x l IH]; intros k i I; [now rewrite firstn_nil|]. destruct k; [lia|]. destruct i; [reflexivity|]. cbn. apply IH. lia. Qed.
Lemma nth_skipn (l : list R) : forall k i, nth i (skipn k l) 0 = nth (k + i) l 0.
Proof. induction l as [|x l IH]; intros k i; [rewrite skipn_nil; destruct i, k; reflexivity|]. destruct k; [reflexivity|]. cbn. apply IH. Qed.
Lemma folded_sum a b k : folded a b k = loop_sum (fun j => nth j a 0 * (if Nat.leb j k then nth (k - j) b 0 else 0)) (List.length a).
Proof. unfold folded. apply total_seq. Qed.

(** one element of the product of the matrix with the row *)
Lemma res_value A B i : List.length B = List.length A -> (1 <= i < 4 * List.length A)%nat ->
  let n := List.length A in let y := rev (repeat 0 (3 * n) ++ A) in
  np_sum (map (fun p => fst p * snd p) (combine (repeat 0 i ++ firstn (List.length y - i) y) (repeat 0 n ++ B ++ repeat 0 (2 * n)))) = folded B A (i - 1).
Proof.
  intros L I n y. assert (YL : List.length y = (4 * n)%nat) by (unfold y; rewrite rev_length, app_length, repeat_length; unfold n; lia).
  rewrite dot_nth. 2:{ rewrite !app_length, !repeat_length, firstn_length, YL. unfold n in *. lia. }
  rewrite !app_length, !repeat_length, L. fold n. replace (n + (n + 2 * n))%nat with (n + (n + 2 * n))%nat by lia. rewrite sum_split, sum_split.
  rewrite (sum_zero _ n). 2:{ intros j J. rewrite nth_padded, (proj2 (Nat.leb_gt n j)) by exact J. cbn [andb]. ring. }
  rewrite (sum_zero (fun j => _) (2 * n)). 2:{ intros j J. rewrite nth_padded, L. fold n. rewrite (proj2 (Nat.ltb_ge _ _)) by lia. rewrite Bool.andb_false_r. ring. }
  rewrite folded_sum, L. fold n. rewrite Rplus_0_l, Rplus_0_r. apply sum_ext. intros j J.
  rewrite nth_padded, L. fold n. rewrite (proj2 (Nat.leb_le _ _)) by lia. rewrite (proj2 (Nat.ltb_lt _ _)) by lia. cbn [andb]. replace (n + j - n)%nat with j by lia. rewrite Rmult_comm. f_equal.
  destruct (Nat.le_gt_cases i (n + j)) as [C|C].
  - rewrite app_nth2 by (rewrite repeat_length; exact C). rewrite repeat_length, nth_firstn' by lia. unfold y. rewrite rev_nth by (rewrite app_length, repeat_length; fold n; lia).
    rewrite app_length, repeat_length. fold n. destruct (Nat.leb_spec j (i - 1)) as [D|D].
    + rewrite app_nth2 by (rewrite repeat_length; lia). rewrite repeat_length. f_equal. lia.
    + rewrite app_nth1 by (rewrite repeat_length; lia). apply nth_repeat.
  - rewrite app_nth1 by (rewrite repeat_length; exact C). rewrite nth_repeat. rewrite (proj2 (Nat.leb_le _ _)) by lia. symmetry. apply nth_overflow. fold n. lia.
Qed.
Lemma numbers_some l : numbers (map Some l) = Some l.
Proof. induction l as [|x l IH]; [reflexivity|]. cbn. now rewrite IH. Qed.
Lemma numbers_in l r : numbers l = Some r -> l = map Some r.
Proof.
  revert r. induction l as [|[x|] l IH]; intros r H; cbn in H; [injection H as <-; reflexivity| |discriminate].
  destruct (numbers l) as [r'|]; [|discriminate]. injection H as <-. cbn. now rewrite (IH r' eq_refl).
Qed.
Lemma middle_length a b : List.length (middle a b) = List.length a.
Proof. unfold middle. now rewrite map_length, seq_length. Qed.
Lemma middle_nth a b i : (i < List.length a)%nat -> nth i (middle a b) 0 = folded a b (i + List.length a / 2).
Proof. intros I. unfold middle. now rewrite nth_map_seq. Qed.
(** the slice *)
Lemma slice_value A B dE : List.length B = List.length A -> A <> [] ->
  let n := List.length A in let y := rev (repeat 0 (3 * n) ++ A) in
  firstn n (skipn (n / 2 + 1) (map (fun x => x * dE) (np_inner (convMatrix y) (repeat 0 n ++ B ++ repeat 0 (2 * n))))) = map (fun x => x * dE) (middle B A).
Proof.
  intros L NE n y. assert (YL : List.length y = (4 * n)%nat) by (unfold y; rewrite rev_length, app_length, repeat_length; unfold n; lia).
  assert (NP : (1 <= n)%nat) by (unfold n; destruct A; [congruence|cbn; lia]). assert (N2 : (n / 2 < n)%nat) by (apply Nat.div_lt; lia).
  unfold np_inner, convMatrix. rewrite YL, !map_map. apply nth_ext with 0 0.
  - rewrite firstn_length, skipn_length, !map_length, seq_length, middle_length, L. fold n. lia.
  - intros i I. rewrite firstn_length, skipn_length, map_length, seq_length in I. rewrite nth_firstn' by lia. rewrite nth_skipn, nth_map_seq by lia.
    rewrite nth_map_R by (rewrite middle_length, L; fold n; lia). rewrite middle_nth by (rewrite L; fold n; lia). f_equal.
    rewrite <- YL. unfold y, n. etransitivity; [apply res_value; [exact L|fold n; lia]|]. f_equal. rewrite L. lia.
Qed.
Theorem next_exact A B dE : List.length B = List.length A -> A <> [] -> dE <> 0 ->
  AnE_from_n_1 A B dE = Ok (if Req_EM_T (total (middle B A)) 0 then None else Some (map (fun x => x / (dE * total (middle B A))) (middle B A))).
Proof.
  intros L NE D. unfold AnE_from_n_1. rewrite L, Nat.eqb_refl. cbn [negb]. f_equal.
  etransitivity. { apply (f_equal (fun t => numbers (map (fun x => fdiv x (np_sum t * dE)) t))). exact (slice_value A B dE L NE). }
  rewrite np_total, map_map. replace (map (fun x => x * dE) (middle B A)) with (map (fun x => dE * x) (middle B A)) by (apply map_ext; intros; ring). rewrite total_scale.
  set (s := total (middle B A)). destruct (Req_EM_T s 0) as [E|E].
  - rewrite E. assert (NM : middle B A <> []). { intros H. apply (f_equal (@List.length R)) in H. rewrite middle_length, L in H. destruct A; [congruence|discriminate]. }
    destruct (middle B A) as [|x l]; [congruence|]. cbn [map numbers]. unfold fdiv at 1. rewrite (proj2 (Reqb_t _ _)) by ring. reflexivity.
  - rewrite <- numbers_some, map_map. f_equal. apply map_ext. intros x. unfold fdiv. rewrite (proj2 (Reqb_f _ _)) by (apply Rmult_integral_contrapositive; split; [now apply Rmult_integral_contrapositive|exact D]).
    f_equal. field. split; assumption.
Qed.
Lemma total_map_div c l : total (map (fun x => x / c) l) = total l / c.
Proof. unfold Rdiv. rewrite <- (Rmult_comm (/ c)). rewrite <- total_scale. f_equal. apply map_ext. intros. ring. Qed.

(** detailed balance goes through the convolution *)
Lemma balanced_all x h l : balanced x h l -> forall k, (k <= 2 * h)%nat -> nth k l 0 = exp ((INR k - INR h) * x) * nth (2 * h - k) l 0.
Proof.
  intros [L H] k K. destruct (Nat.le_ge_cases h k) as [C|C].
  - specialize (H (k - h)%nat ltac:(lia)). replace (h + (k - h))%nat with k in H by lia. replace (h - (k - h))%nat with (2 * h - k)%nat in H by lia. rewrite H, minus_INR by exact C. reflexivity.
  - specialize (H (h - k)%nat ltac:(lia)). replace (h + (h - k))%nat with (2 * h - k)%nat in H by lia. replace (h - (h - k))%nat with k in H by lia. rewrite H, minus_INR by exact C.
    rewrite <- Rmult_assoc, <- exp_plus. replace ((INR k - INR h) * x + (INR h - INR k) * x) with 0 by ring. rewrite exp_0. ring.
Qed.
Lemma folded_balance x h a b i : balanced x h a -> balanced x h b -> (i <= 2 * h)%nat -> folded a b (2 * h + i) = exp (INR i * x) * folded a b (2 * h - i).
Proof.
  intros BA BB I. pose proof (balanced_all _ _ _ BA) as HA. pose proof (balanced_all _ _ _ BB) as HB. destruct BA as [LA _], BB as [LB _].
  rewrite !folded_sum, LA, <- sum_scale. rewrite (sum_rev (fun j => exp (INR i * x) * _)). apply sum_ext. intros j J. replace (2 * h + 1 - 1 - j)%nat with (2 * h - j)%nat by lia.
  rewrite (proj2 (Nat.leb_le j (2 * h + i))) by lia. destruct (Nat.leb_spec (2 * h - j) (2 * h - i)) as [C|C].
  - rewrite (HA j) by lia. rewrite (HB (2 * h + i - j)%nat) by lia. replace (2 * h - i - (2 * h - j))%nat with (j - i)%nat by lia. replace (2 * h - (2 * h + i - j))%nat with (j - i)%nat by lia.
    replace (INR (2 * h + i - j)) with (2 * INR h + INR i - INR j) by (rewrite minus_INR, plus_INR, mult_INR by lia; cbn; ring).
    replace (exp (INR i * x)) with (exp ((INR j - INR h) * x) * exp ((2 * INR h + INR i - INR j - INR h) * x)) by (rewrite <- exp_plus; f_equal; ring). ring.
  - rewrite (nth_overflow b) by lia. ring.
Qed.
Lemma middle_balance x h a b : balanced x h a -> balanced x h b -> balanced x h (middle a b).
Proof.
  intros BA BB. pose proof (proj1 BA) as LA. split; [rewrite middle_length; exact LA|]. intros i I. rewrite !middle_nth by lia. rewrite LA.
  replace ((2 * h + 1) / 2)%nat with h by (rewrite Nat.mul_comm, Nat.div_add_l by lia; cbn; lia).
  replace (h + i + h)%nat with (2 * h + i)%nat by lia. replace (h - i + h)%nat with (2 * h - i)%nat by lia. apply folded_balance; [assumption|assumption|lia].
Qed.
Lemma balanced_scale x h l c : balanced x h l -> balanced x h (map (fun v => v / c) l).
Proof.
  intros [L H]. split; [now rewrite map_length|]. intros i I. rewrite !nth_map_R by lia. rewrite (H i I). unfold Rdiv. ring.
Qed.
Lemma nonneg_nth l i : Forall (fun v => 0 <= v) l -> 0 <= nth i l 0.
Proof. intros F. destruct (Nat.lt_ge_cases i (List.length l)) as [I|I]; [rewrite Forall_forall in F; apply F; now apply nth_In|rewrite nth_overflow by exact I; lra]. Qed.
Lemma folded_nonneg a b k : Forall (fun v => 0 <= v) a -> Forall (fun v => 0 <= v) b -> 0 <= folded a b k.
Proof.
  intros FA FB. rewrite folded_sum. apply sum_nonneg. intros j J. apply Rmult_le_pos; [now apply nonneg_nth|]. destruct (Nat.leb j k); [now apply nonneg_nth|lra].
Qed.
Lemma middle_nonneg a b : Forall (fun v => 0 <= v) a -> Forall (fun v => 0 <= v) b -> Forall (fun v => 0 <= v) (middle a b).
Proof. intros FA FB. unfold middle. apply Forall_forall. intros v V. apply in_map_iff in V. destruct V as (i & <- & _). now apply folded_nonneg. Qed.
Lemma middle_centre a b h : List.length a = (2 * h + 1)%nat -> Forall (fun v => 0 <= v) a -> Forall (fun v => 0 <= v) b -> 0 < nth h a 0 -> 0 < nth h b 0 -> 0 < nth h (middle a b) 0.
Proof.
  intros L FA FB PA PB. rewrite middle_nth by lia. rewrite L. replace ((2 * h + 1) / 2)%nat with h by (rewrite Nat.mul_comm, Nat.div_add_l by lia; cbn; lia).
  rewrite folded_sum, L. apply (sum_pos _ _ h); [lia| |].
  - rewrite (proj2 (Nat.leb_le _ _)) by lia. replace (h + h - h)%nat with h by lia. nra.
  - intros j J. apply Rmult_le_pos; [now apply nonneg_nth|]. destruct (Nat.leb j _); [now apply nonneg_nth|lra].
Qed.
Lemma total_centre l h : Forall (fun v => 0 <= v) l -> 0 < nth h l 0 -> (h < List.length l)%nat -> 0 < total l.
Proof. intros F P H. rewrite <- total_nth. apply (sum_pos _ _ h); [exact H|exact P|]. intros i I. now apply nonneg_nth. Qed.
