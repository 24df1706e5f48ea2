(* Proofs about the Mersenne Twister: words, recurrence and initial values. *)
From Coq Require Import List ZArith NArith Lia Bool.
From Verif Require Import Base RngModel RngSpec.
Import ListNotations.
Local Open Scope N_scope.

Lemma NM : (0 < Mw /\ Mw < Nw /\ Nw - Mw < Mw)%nat.
Proof. unfold Nw, Mw. lia. Qed.
Lemma Nw_is : Nw = 624%nat. Proof. reflexivity. Qed.
Lemma Mw_is : Mw = 397%nat. Proof. reflexivity. Qed.

(* Arrays. *)
Lemma get_0 : forall x l, get (x :: l) 0 = x. Proof. reflexivity. Qed.
Lemma get_S : forall x l k, get (x :: l) (S k) = get l k. Proof. reflexivity. Qed.
Lemma set_len : forall l i v, List.length (set l i v) = List.length l.
Proof. induction l as [|x l IH]; intros [|i] v; cbn; auto. Qed.
Lemma get_same : forall l i v, (i < List.length l)%nat -> get (set l i v) i = v.
Proof. induction l as [|x l IH]; intros [|i] v H; cbn in *; try lia; auto. apply IH. lia. Qed.
Lemma get_other : forall l i v j, j <> i -> get (set l i v) j = get l j.
Proof. induction l as [|x l IH]; intros [|i] v [|j] H; cbn; auto; try contradiction. apply IH. congruence. Qed.

(* Words. *)
Lemma low32_mod : forall x, low32 x = x mod 2 ^ 32.
Proof. intro x. unfold low32. change 4294967295 with (N.ones 32). apply N.land_ones. Qed.
Lemma low32_u64 : forall x, low32 (u64 x) = x mod 2 ^ 32.
Proof.
  intro x. rewrite low32_mod. unfold u64. change (2 ^ 64) with (2 ^ 32 * 2 ^ 32).
  rewrite N.mod_mul_r by discriminate. rewrite N.mul_comm, N.mod_add by discriminate. apply N.mod_mod. discriminate.
Qed.
Lemma mod_word : forall x, word (x mod 2 ^ 32).
Proof. intro x. apply N.mod_lt. discriminate. Qed.

Lemma bits_above : forall x n, x < 2 ^ n -> forall i, n <= i -> N.testbit x i = false.
Proof.
  intros x n H i I. destruct (N.eq_dec x 0) as [->|E]; [apply N.bits_0|].
  apply N.bits_above_log2. apply N.log2_lt_pow2; [lia|]. apply N.lt_le_trans with (1 := H). apply N.pow_le_mono_r; [discriminate|exact I].
Qed.
Lemma bits_lt : forall x n, (forall i, n <= i -> N.testbit x i = false) -> x < 2 ^ n.
Proof.
  intros x n H. rewrite <- (N.mod_small_iff x (2 ^ n)) by (apply N.pow_nonzero; discriminate).
  rewrite <- N.land_ones. apply N.bits_inj. intro i. rewrite N.land_spec.
  destruct (N.lt_ge_cases i n) as [L|L].
  - rewrite N.ones_spec_low by exact L. apply andb_true_r.
  - rewrite H by exact L. reflexivity.
Qed.
Lemma lxor_lt : forall x y n, x < 2 ^ n -> y < 2 ^ n -> N.lxor x y < 2 ^ n.
Proof. intros x y n X Y. apply bits_lt. intros i I. rewrite N.lxor_spec, !(bits_above _ n) by assumption. reflexivity. Qed.
Lemma land_lt : forall x y n, y < 2 ^ n -> N.land x y < 2 ^ n.
Proof. intros x y n Y. apply bits_lt. intros i I. rewrite N.land_spec, (bits_above y n) by assumption. apply andb_false_r. Qed.
Lemma shiftr_lt : forall x k n, x < 2 ^ n -> N.shiftr x k < 2 ^ n.
Proof.
  intros x k n X. apply bits_lt. intros i I. rewrite N.shiftr_spec by lia. apply (bits_above x n); [exact X|lia].
Qed.
Lemma lxor_cancel : forall a b c, N.lxor a b = N.lxor a c -> b = c.
Proof.
  intros a b c H. rewrite <- (N.lxor_0_l b), <- (N.lxor_0_l c), <- (N.lxor_nilpotent a), !N.lxor_assoc, H. reflexivity.
Qed.

(* The new word. *)
Lemma joined_bits : forall a b, word a -> N.lor (N.land a UPPER_MASK) (N.land b LOWER_MASK) = joined a b.
Proof.
  intros a b A. unfold joined, LOWER_MASK. change 2147483647 with (N.ones 31). rewrite N.land_ones.
  rewrite <- N.shiftr_div_pow2, <- N.shiftl_mul_pow2.
  assert (E : N.land a UPPER_MASK = N.shiftl (N.shiftr a 31) 31).
  { apply N.bits_inj. intro i. rewrite N.land_spec. unfold UPPER_MASK. change 2147483648 with (2 ^ 31).
    rewrite N.pow2_bits_eqb. destruct (N.lt_ge_cases i 31) as [L|L].
    - rewrite N.shiftl_spec_low by exact L. destruct (N.eqb_spec 31 i); [lia|]. apply andb_false_r.
    - rewrite N.shiftl_spec_high by lia. rewrite N.shiftr_spec by lia. replace (i - 31 + 31) with i by lia.
      destruct (N.eqb_spec 31 i) as [_|Ne]; [apply andb_true_r|]. rewrite andb_false_r. symmetry.
      apply (bits_above a 32); [exact A|lia]. }
  rewrite E.
  assert (D : N.land (N.shiftl (N.shiftr a 31) 31) (b mod 2 ^ 31) = 0).
  { apply N.bits_inj. intro i. rewrite N.land_spec, N.bits_0. destruct (N.lt_ge_cases i 31) as [L|L].
    - rewrite N.shiftl_spec_low by exact L. reflexivity.
    - rewrite (bits_above (b mod 2 ^ 31) 31); [apply andb_false_r| |exact L]. apply N.mod_lt. discriminate. }
  rewrite N.add_nocarry_lxor by exact D. symmetry. apply N.lxor_lor. exact D.
Qed.
Lemma new_word_spec : forall a b m, word a -> new_word a b m = N.lxor m (times_A (joined a b)).
Proof.
  intros a b m A. unfold new_word. cbv zeta. rewrite joined_bits by exact A. set (y := joined a b). clearbody y.
  unfold times_A. rewrite <- N.lxor_assoc. f_equal.
  - f_equal. rewrite N.shiftr_div_pow2. reflexivity.
  - change 1 with (N.ones 1) at 1. rewrite N.land_ones. change (2 ^ 1) with 2.
    rewrite <- N.bit0_mod, N.bit0_odd. destruct (N.odd y); reflexivity.
Qed.
Lemma joined_word : forall a b, word a -> word (joined a b).
Proof.
  intros a b A. unfold joined, word in *. assert (B : b mod 2 ^ 31 < 2 ^ 31) by (apply N.mod_lt; discriminate).
  assert (Q : a / 2 ^ 31 < 2) by (apply N.div_lt_upper_bound; [discriminate|exact A]).
  change (2 ^ 32) with (2 * 2 ^ 31). nia.
Qed.
Lemma times_A_word : forall y, word y -> word (times_A y).
Proof.
  intros y Y. unfold times_A. apply lxor_lt.
  - unfold word in Y. apply N.le_lt_trans with y; [|exact Y]. apply N.div_le_upper_bound; lia.
  - destruct (N.odd y); reflexivity.
Qed.

(* Initial values. *)
Lemma seed_from_len : forall n prev i, List.length (seed_from n prev i) = n.
Proof. induction n as [|n IH]; intros prev i; cbn; auto. Qed.
Lemma seed_from_get : forall n prev i k, (k < n)%nat ->
  get (seed_from n prev i) k =
    (1812433253 * N.lxor (get (prev :: seed_from n prev i) k) (get (prev :: seed_from n prev i) k / 2 ^ 30) + (i + N.of_nat k)) mod 2 ^ 32.
Proof.
  induction n as [|n IH]; intros prev i k K; [lia|]. cbn [seed_from]. cbv zeta.
  set (v := low32 (u64 (1812433253 * N.lxor prev (N.shiftr prev 30) + i))).
  destruct k as [|k].
  - rewrite !get_0. unfold v. rewrite low32_u64, N.shiftr_div_pow2. rewrite N.add_0_r. reflexivity.
  - rewrite !get_S. rewrite IH by lia.
    replace (i + 1 + N.of_nat k) with (i + N.of_nat (S k)) by lia. reflexivity.
Qed.
Lemma mt_srandom_len : forall s, List.length (mt (mt_srandom s)) = Nw.
Proof. intro s. unfold mt_srandom. cbv zeta. cbn [mt List.length]. rewrite seed_from_len. assert (H := NM). lia. Qed.
Lemma mt_srandom_seeded : forall s, seeded (get (mt (mt_srandom s))) s.
Proof.
  intro s. unfold mt_srandom. cbv zeta. cbn [mt]. split.
  - rewrite get_0. apply low32_mod.
  - intros k K. rewrite get_S. rewrite seed_from_get by (rewrite Nw_is; lia).
    replace (1 + N.of_nat k) with (N.of_nat (S k)) by lia. reflexivity.
Qed.
Lemma seeded_words : forall x s, seeded x s -> forall k, (k < 624)%nat -> word (x k).
Proof.
  intros x s (H0 & H1) [|k] K; [rewrite H0; apply mod_word|]. rewrite H1 by lia. apply mod_word.
Qed.
Lemma seeded_agree : forall x x' s s', seeded x s -> seeded x' s' -> s mod 2 ^ 32 = s' mod 2 ^ 32 ->
  forall k, (k < 624)%nat -> x k = x' k.
Proof.
  intros x x' s s' (H0 & H1) (H0' & H1') E. induction k as [|k IH]; intros K; [congruence|].
  rewrite H1, H1' by lia. rewrite IH by lia. reflexivity.
Qed.

(* Sequences of words. *)
Lemma recurrence_words : forall x, recurrence x -> (forall k, (k < 624)%nat -> word (x k)) -> forall k, word (x k).
Proof.
  intros x Rx W. induction k as [k IH] using lt_wf_ind. destruct (Nat.lt_ge_cases k 624) as [L|L]; [apply W; exact L|].
  replace k with (k - 624 + 624)%nat by lia. rewrite Rx. apply lxor_lt; [apply IH; lia|].
  apply times_A_word, joined_word. apply IH. lia.
Qed.
