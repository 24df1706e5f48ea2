(* Proofs about the Mersenne Twister: the stream of numbers. *)
From Coq Require Import List ZArith NArith Lia Bool.
From Verif Require Import Base RngModel RngSpec RngProofs.
Import ListNotations.
Local Open Scope N_scope.

(* The list holds x from base on, the first kk entries already of the next round. *)
Definition half (x : nat -> N) (base kk : nat) (l : list N) : Prop :=
  List.length l = Nw /\ (forall j, (j < kk)%nat -> get l j = x (base + Nw + j)%nat)
  /\ (forall j, (kk <= j < Nw)%nat -> get l j = x (base + j)%nat).

Lemma half_step : forall x base kk l m, recurrence x -> (forall k, word (x k)) -> (kk < Nw)%nat -> half x base kk l ->
  m = x (base + kk + Mw)%nat -> half x base (S kk) (set l kk (new_word (get l kk) (x (base + kk + 1)%nat) m)).
Proof.
  intros x base kk l m Rx W K (L & H1 & H2) ->. split; [rewrite set_len; exact L|]. split.
  - intros j J. destruct (Nat.eq_dec j kk) as [->|Ne].
    + rewrite get_same by lia. rewrite new_word_spec by (rewrite H2 by lia; apply W). rewrite H2 by lia.
      assert (Q := Rx (base + kk)%nat). rewrite <- Nw_is, <- Mw_is in Q.
      replace (base + Nw + kk)%nat with (base + kk + Nw)%nat by lia. symmetry. exact Q.
    + rewrite get_other by exact Ne. apply H1. lia.
  - intros j J. rewrite get_other by lia. apply H2. lia.
Qed.
Lemma gen_first_half : forall x base, recurrence x -> (forall k, word (x k)) ->
  forall n kk l, (kk + n = Nw - Mw)%nat -> half x base kk l -> half x base (Nw - Mw) (gen_first n kk l).
Proof.
  intros x base Rx W. assert (NMH := NM). induction n as [|n IH]; intros kk l E H; cbn [gen_first].
  - replace (Nw - Mw)%nat with kk by lia. exact H.
  - apply IH; [lia|]. assert (H' := H). destruct H' as (L & H1 & H2).
    rewrite (H2 (kk + 1)%nat) by lia. rewrite (H2 (kk + Mw)%nat) by lia.
    replace (base + (kk + 1))%nat with (base + kk + 1)%nat by lia.
    apply half_step; auto; [lia|]. f_equal. lia.
Qed.
Lemma gen_second_half : forall x base, recurrence x -> (forall k, word (x k)) ->
  forall n kk l, (kk + n = Nw - 1)%nat -> (Nw - Mw <= kk)%nat -> half x base kk l -> half x base (Nw - 1) (gen_second n kk l).
Proof.
  intros x base Rx W. assert (NMH := NM). induction n as [|n IH]; intros kk l E K H; cbn [gen_second].
  - replace (Nw - 1)%nat with kk by lia. exact H.
  - apply IH; [lia|lia|]. assert (H' := H). destruct H' as (L & H1 & H2).
    rewrite (H2 (kk + 1)%nat) by lia. rewrite (H1 (kk - (Nw - Mw))%nat) by lia.
    replace (base + (kk + 1))%nat with (base + kk + 1)%nat by lia.
    apply half_step; auto; [lia|]. f_equal. lia.
Qed.
Lemma generate_half : forall x base l, recurrence x -> (forall k, word (x k)) -> half x base 0 l -> half x (base + Nw) 0 (generate l).
Proof.
  intros x base l Rx W H. assert (NMH := NM). unfold generate. cbv zeta.
  assert (A := gen_first_half x base Rx W (Nw - Mw) 0 l ltac:(lia) H).
  set (l1 := gen_first (Nw - Mw) 0 l) in *. clearbody l1.
  assert (B := gen_second_half x base Rx W (Mw - 1) (Nw - Mw) l1 ltac:(lia) ltac:(lia) A).
  set (l2 := gen_second (Mw - 1) (Nw - Mw) l1) in *. clearbody l2.
  assert (B' := B). destruct B' as (L & H1 & H2).
  rewrite (H1 0%nat) by lia. rewrite (H1 (Mw - 1)%nat) by lia.
  replace (base + Nw + 0)%nat with (base + (Nw - 1) + 1)%nat by lia.
  assert (C := half_step x base (Nw - 1) l2 (x (base + Nw + (Mw - 1))%nat) Rx W ltac:(lia) B ltac:(f_equal; lia)).
  destruct C as (C0 & C1 & C2). split; [exact C0|]. split; [intros j J; lia|].
  intros j J. apply C1. lia.
Qed.

(* After n calls. *)
Definition reached (x : nat -> N) (n : nat) (st : twister) : Prop :=
  exists base, half x base 0 (mt st) /\ (mti st <= Nw)%nat /\ (base + mti st = Nw + n)%nat.
Lemma mt_random_step : forall x n st, recurrence x -> (forall k, word (x k)) -> reached x n st ->
  fst (mt_random st) = temper (x (Nw + n)%nat) /\ reached x (S n) (snd (mt_random st)).
Proof.
  intros x n st Rx W (base & H & P & E). unfold mt_random.
  destruct (Nat.leb_spec Nw (mti st)) as [G|G].
  - destruct (Nat.eqb_spec (mti st) (Nw + 1)); [lia|]. assert (M : mti st = Nw) by lia.
    assert (Q := generate_half x base (mt st) Rx W H). destruct Q as (Q0 & Q1 & Q2).
    cbn [fst snd mt mti]. assert (NMH := NM). split.
    + f_equal. rewrite Q2 by lia. f_equal. lia.
    + exists (base + Nw)%nat. cbn [mt mti]. split; [split; [exact Q0|split; [exact Q1|exact Q2]]|]. lia.
  - cbn [fst snd mt mti]. destruct H as (H0 & H1 & H2). split.
    + f_equal. rewrite H2 by lia. f_equal. lia.
    + exists base. cbn [mt mti]. split; [split; [exact H0|split; [exact H1|exact H2]]|]. lia.
Qed.
Lemma after_S : forall A B (f : A -> B * A) n st, after f (S n) st = snd (f (after f n st)).
Proof. intros A B f n. induction n as [|n IH]; intro st; [reflexivity|]. change (after f (S (S n)) st) with (after f (S n) (snd (f st))). rewrite IH. reflexivity. Qed.
Lemma stream : forall x st, recurrence x -> (forall k, word (x k)) -> reached x 0 st ->
  forall n, output mt_random st n = temper (x (Nw + n)%nat) /\ reached x n (after mt_random n st).
Proof.
  intros x st Rx W H n.
  assert (K : forall n, reached x n (after mt_random n st)).
  { induction n0 as [|m IH]; [exact H|]. rewrite after_S. apply mt_random_step; assumption. }
  split; [|apply K]. unfold output. apply mt_random_step; auto.
Qed.

(* A sequence with given beginning exists. *)
Definition shift (l : list N) : list N :=
  tl l ++ [N.lxor (get l Mw) (times_A (joined (get l 0) (get l 1)))].
Fixpoint shifts (n : nat) (l : list N) : list N := match n with O => l | S n' => shifts n' (shift l) end.
Lemma shift_len : forall l, List.length l = Nw -> List.length (shift l) = Nw.
Proof.
  intros l L. unfold shift. rewrite app_length. cbn [List.length]. destruct l as [|a l]; [assert (H := NM); cbn [List.length] in L; lia|].
  cbn [tl List.length] in *. lia.
Qed.
Lemma shift_get : forall l i, List.length l = Nw -> (S i < Nw)%nat -> get (shift l) i = get l (S i).
Proof.
  intros l i L I. unfold shift, get. destruct l as [|a l]; [cbn [List.length] in L; lia|]. cbn [tl].
  cbn [List.length] in L. rewrite app_nth1 by lia. reflexivity.
Qed.
Lemma shift_last : forall l, List.length l = Nw ->
  get (shift l) (Nw - 1) = N.lxor (get l Mw) (times_A (joined (get l 0) (get l 1))).
Proof.
  intros l L. assert (H := NM). unfold shift. set (v := N.lxor _ _). clearbody v. unfold get.
  destruct l as [|a l]; [cbn [List.length] in L; lia|]. cbn [tl]. cbn [List.length] in L.
  rewrite app_nth2 by lia. replace (Nw - 1 - List.length l)%nat with O by lia. reflexivity.
Qed.
Lemma shifts_len : forall n l, List.length l = Nw -> List.length (shifts n l) = Nw.
Proof. induction n as [|n IH]; intros l L; [exact L|]. cbn [shifts]. apply IH, shift_len, L. Qed.
Lemma shifts_S : forall n l, shifts (S n) l = shift (shifts n l).
Proof. induction n as [|n IH]; intro l; [reflexivity|]. change (shifts (S (S n)) l) with (shifts (S n) (shift l)). rewrite IH. reflexivity. Qed.
Lemma shifts_get : forall i n l, List.length l = Nw -> (i < Nw)%nat -> get (shifts n l) i = get (shifts (n + i) l) 0.
Proof.
  induction i as [|i IH]; intros n l L I; [rewrite Nat.add_0_r; reflexivity|].
  rewrite <- shift_get by (auto using shifts_len). rewrite <- shifts_S, IH by (auto; lia).
  replace (S n + i)%nat with (n + S i)%nat by lia. reflexivity.
Qed.
Lemma sequence_exists : forall l, List.length l = Nw ->
  exists x, recurrence x /\ (forall k, (k < Nw)%nat -> x k = get l k).
Proof.
  intros l L. assert (H := NM). exists (fun k => get (shifts k l) 0). split.
  - intro k. rewrite <- Nw_is, <- Mw_is.
    replace (k + Nw)%nat with (S k + (Nw - 1))%nat by lia. rewrite <- shifts_get by (auto; lia).
    rewrite shifts_S, shift_last by (apply shifts_len, L). rewrite !shifts_get with (n := k) by (auto; lia).
    rewrite Nat.add_0_r. reflexivity.
  - intros k K. symmetry. exact (shifts_get k 0 l L K).
Qed.
Lemma recurrence_agree : forall x x', recurrence x -> recurrence x' -> (forall k, (k < 624)%nat -> x k = x' k) -> forall k, x k = x' k.
Proof.
  intros x x' Rx Rx' E. induction k as [k IH] using lt_wf_ind. destruct (Nat.lt_ge_cases k 624) as [L|L]; [apply E; exact L|].
  replace k with (k - 624 + 624)%nat by lia. rewrite Rx, Rx'.
  rewrite (IH (k - 624 + 397)%nat) by lia. rewrite (IH (k - 624)%nat) by lia. rewrite (IH (k - 624 + 1)%nat) by lia. reflexivity.
Qed.

(* Tempering. *)
Lemma shiftr_fixed : forall d k, 0 < k -> d = N.shiftr d k -> d = 0.
Proof.
  intros d k K E. rewrite N.shiftr_div_pow2 in E. destruct (N.eq_dec d 0) as [Z|Z]; [exact Z|].
  assert (L : d / 2 ^ k < d); [|lia]. apply N.div_lt; [lia|]. apply N.pow_gt_1; [lia|lia].
Qed.
Lemma shiftl_fixed : forall d k m, 0 < k -> d = N.land (u64 (N.shiftl d k)) m -> d = 0.
Proof.
  intros d k m K E.
  assert (B : forall i, N.testbit d i = false).
  { intro i. induction i as [i IH] using (well_founded_induction N.lt_wf_0). rewrite E, N.land_spec.
    unfold u64. destruct (N.lt_ge_cases i 64) as [L|L].
    - rewrite N.mod_pow2_bits_low by exact L. destruct (N.lt_ge_cases i k) as [L2|L2].
      + rewrite N.shiftl_spec_low by exact L2. reflexivity.
      + rewrite N.shiftl_spec_high by lia. rewrite IH by lia. reflexivity.
    - rewrite N.mod_pow2_bits_high by exact L. reflexivity. }
  apply N.bits_inj. intro i. rewrite B, N.bits_0. reflexivity.
Qed.
Lemma u64_lxor : forall a b, u64 (N.lxor a b) = N.lxor (u64 a) (u64 b).
Proof.
  intros a b. unfold u64. apply N.bits_inj. intro i. rewrite N.lxor_spec. destruct (N.lt_ge_cases i 64) as [L|L].
  - rewrite !N.mod_pow2_bits_low by exact L. apply N.lxor_spec.
  - rewrite !N.mod_pow2_bits_high by exact L. reflexivity.
Qed.
Lemma land_lxor_l : forall a b m, N.land (N.lxor a b) m = N.lxor (N.land a m) (N.land b m).
Proof.
  intros a b m. apply N.bits_inj. intro i. rewrite !N.land_spec, !N.lxor_spec, !N.land_spec.
  destruct (N.testbit a i), (N.testbit b i), (N.testbit m i); reflexivity.
Qed.
Lemma lxor_swap : forall a b c d, N.lxor a b = N.lxor c d -> N.lxor a c = N.lxor b d.
Proof.
  intros a b c d H. apply N.bits_inj. intro i. assert (B : N.testbit (N.lxor a b) i = N.testbit (N.lxor c d) i) by (rewrite H; reflexivity).
  rewrite !N.lxor_spec in *. destruct (N.testbit a i), (N.testbit b i), (N.testbit c i), (N.testbit d i); cbn in *; congruence.
Qed.
Lemma right_inj : forall a b k, 0 < k -> N.lxor a (N.shiftr a k) = N.lxor b (N.shiftr b k) -> a = b.
Proof.
  intros a b k K H. apply N.lxor_eq. apply lxor_swap in H. apply (shiftr_fixed _ k K). rewrite N.shiftr_lxor. exact H.
Qed.
Lemma left_inj : forall a b k m, 0 < k ->
  N.lxor a (N.land (u64 (N.shiftl a k)) m) = N.lxor b (N.land (u64 (N.shiftl b k)) m) -> a = b.
Proof.
  intros a b k m K H. apply N.lxor_eq. apply lxor_swap in H. apply (shiftl_fixed _ k m K).
  rewrite N.shiftl_lxor, u64_lxor, land_lxor_l. exact H.
Qed.
Lemma temper_inj : forall a b, temper a = temper b -> a = b.
Proof.
  intros a b H. unfold temper in H. cbv zeta in H. apply right_inj in H; [|reflexivity]. apply left_inj in H; [|reflexivity].
  apply left_inj in H; [|reflexivity]. apply right_inj in H; [exact H|reflexivity].
Qed.
Lemma temper_word : forall a, word a -> word (temper a).
Proof.
  intros a A. unfold temper, word in *. cbv zeta.
  repeat (first [apply lxor_lt | apply shiftr_lt | apply land_lt | exact A | reflexivity]).
Qed.

(* Going back. *)
Lemma times_A_inj : forall y y', word y -> word y' -> times_A y = times_A y' -> y = y'.
Proof.
  intros y y' W W' H.
  assert (T : forall z, word z -> N.testbit (times_A z) 31 = N.odd z).
  { intros z Z. unfold times_A. rewrite N.lxor_spec. rewrite (bits_above (z / 2) 31).
    - destruct (N.odd z); reflexivity.
    - apply N.div_lt_upper_bound; [discriminate|]. exact Z.
    - lia. }
  assert (O : N.odd y = N.odd y') by (rewrite <- !T by assumption; rewrite H; reflexivity).
  unfold times_A in H. rewrite O in H.
  assert (D : y / 2 = y' / 2).
  { rewrite (N.lxor_comm (y / 2)), (N.lxor_comm (y' / 2)) in H. apply lxor_cancel in H. exact H. }
  rewrite (N.div_mod y 2), (N.div_mod y' 2) by discriminate. rewrite D, <- !N.bit0_mod, !N.bit0_odd, O. reflexivity.
Qed.
Lemma joined_inj : forall a b a' b', joined a b = joined a' b' -> a / 2 ^ 31 = a' / 2 ^ 31 /\ b mod 2 ^ 31 = b' mod 2 ^ 31.
Proof.
  intros a b a' b' H. unfold joined in H.
  assert (B : b mod 2 ^ 31 < 2 ^ 31) by (apply N.mod_lt; discriminate).
  assert (B' : b' mod 2 ^ 31 < 2 ^ 31) by (apply N.mod_lt; discriminate).
  rewrite (N.mul_comm (a / _)), (N.mul_comm (a' / _)) in H. apply (N.div_mod_unique (2 ^ 31)) in H; auto.
Qed.
(* A window of 624 equal words fixes the sequence from the second word on. *)
Lemma back : forall x x', recurrence x -> recurrence x' -> (forall k, word (x k)) -> (forall k, word (x' k)) ->
  forall n, (forall i, (i < 624)%nat -> x (S n + i)%nat = x' (S n + i)%nat) ->
  x n / 2 ^ 31 = x' n / 2 ^ 31 /\ x (S n) mod 2 ^ 31 = x' (S n) mod 2 ^ 31.
Proof.
  intros x x' Rx Rx' W W' n E. apply joined_inj. apply times_A_inj; [apply joined_word, W|apply joined_word, W'|].
  assert (A := Rx n). assert (B := Rx' n). rewrite Nat.add_1_r in A, B.
  assert (E1 : x (n + 624)%nat = x' (n + 624)%nat).
  { replace (n + 624)%nat with (S n + 623)%nat by lia. apply E. lia. }
  assert (E2 : x (n + 397)%nat = x' (n + 397)%nat).
  { replace (n + 397)%nat with (S n + 396)%nat by lia. apply E. lia. }
  rewrite E1, B, E2 in A. apply lxor_cancel in A. symmetry. exact A.
Qed.
Lemma back_word : forall x x', recurrence x -> recurrence x' -> (forall k, word (x k)) -> (forall k, word (x' k)) ->
  forall n, (forall i, (i < 624)%nat -> x (S (S n) + i)%nat = x' (S (S n) + i)%nat) -> x (S n) = x' (S n).
Proof.
  intros x x' Rx Rx' W W' n E.
  destruct (back x x' Rx Rx' W W' (S n) E) as (A & _).
  (* The word n + 624 is in the window, so the lower bits follow from word n. *)
  assert (L : x (S n) mod 2 ^ 31 = x' (S n) mod 2 ^ 31).
  { assert (P := Rx n). assert (Q := Rx' n). rewrite Nat.add_1_r in P, Q.
    assert (E1 : x (n + 624)%nat = x' (n + 624)%nat).
    { replace (n + 624)%nat with (S (S n) + 622)%nat by lia. apply E. lia. }
    assert (E2 : x (n + 397)%nat = x' (n + 397)%nat).
    { replace (n + 397)%nat with (S (S n) + 395)%nat by lia. apply E. lia. }
    rewrite E1, Q, E2 in P. apply lxor_cancel in P. symmetry in P.
    apply times_A_inj in P; [|apply joined_word, W|apply joined_word, W']. apply joined_inj in P. apply P. }
  rewrite (N.div_mod (x (S n)) (2 ^ 31)), (N.div_mod (x' (S n)) (2 ^ 31)) by discriminate. rewrite A, L. reflexivity.
Qed.
Lemma merged : forall x x', recurrence x -> recurrence x' -> (forall k, word (x k)) -> (forall k, word (x' k)) ->
  forall n, (forall i, (i < 624)%nat -> x (S n + i)%nat = x' (S n + i)%nat) ->
  (forall k, x (S k) = x' (S k)) /\ x 0%nat / 2 ^ 31 = x' 0%nat / 2 ^ 31.
Proof.
  intros x x' Rx Rx' W W'.
  assert (K : forall n, (forall i, (i < 624)%nat -> x (S n + i)%nat = x' (S n + i)%nat) -> forall i, (i < 624)%nat -> x (1 + i)%nat = x' (1 + i)%nat).
  { induction n as [|n IH]; intros E; [exact E|]. apply IH. intros i I. destruct i as [|i].
    - rewrite Nat.add_0_r. apply back_word; auto.
    - replace (S n + S i)%nat with (S (S n) + i)%nat by lia. apply E. lia. }
  intros n E. assert (F := K n E). split.
  - assert (Rs : recurrence (fun k => x (S k))) by (intro k; exact (Rx (S k))).
    assert (Rs' : recurrence (fun k => x' (S k))) by (intro k; exact (Rx' (S k))).
    intro k. apply (recurrence_agree _ _ Rs Rs' F k).
  - apply (back x x' Rx Rx' W W' 0 F).
Qed.

Lemma land_u64 : forall z m, m < 2 ^ 32 -> N.land (u64 z) m = N.land z m.
Proof.
  intros z m M. apply N.bits_inj. intro i. rewrite !N.land_spec. destruct (N.lt_ge_cases i 64) as [L|L].
  - unfold u64. rewrite N.mod_pow2_bits_low by exact L. reflexivity.
  - rewrite (bits_above m 32 M) by lia. rewrite !andb_false_r. reflexivity.
Qed.
Lemma temper_spec : forall y, temper y = tempered y.
Proof.
  intro y. unfold temper, tempered. cbv zeta. rewrite !land_u64 by reflexivity.
  rewrite !N.shiftr_div_pow2, !N.shiftl_mul_pow2. reflexivity.
Qed.
