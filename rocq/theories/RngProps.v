(* C82: the Mersenne Twister of the McStas components.  C83: the additive
   generator. *)
From Coq Require Import Reals List ZArith NArith Lia Lra Bool.
From Verif Require Import Base RngModel RngSpec RngProofs RngProofs2 RngProofs3.
Import ListNotations.
Local Open Scope N_scope.

(* A seeded generator. *)
Lemma start : forall s x, seeded x s -> recurrence x -> (forall k, word (x k)) /\ reached x 0 (mt_srandom s).
Proof.
  intros s x Sx Rx. split; [apply recurrence_words; [exact Rx|apply (seeded_words x s Sx)]|].
  exists 0%nat. split; [|split; [apply Nat.le_refl|unfold mt_srandom; cbn [mti]; lia]].
  split; [apply mt_srandom_len|]. split; [intros j J; lia|]. intros j (_ & J). cbn [Nat.add].
  apply (seeded_agree _ _ s s (mt_srandom_seeded s) Sx eq_refl). rewrite <- Nw_is. exact J.
Qed.
Lemma sequence_of : forall s, exists x, seeded x s /\ recurrence x.
Proof.
  intro s. destruct (sequence_exists (mt (mt_srandom s)) (mt_srandom_len s)) as (x & Rx & E). exists x. split; [|exact Rx].
  destruct (mt_srandom_seeded s) as (H0 & H1). rewrite Nw_is in E. split.
  - rewrite E by lia. exact H0.
  - intros k K. rewrite !E by lia. apply H1. exact K.
Qed.

(* Call number n after mt_srandom(s) returns the tempered word number 624 + n of the
   sequence that the recurrence of MT19937 gives for the seed. *)
Theorem C82_stream : forall s x, seeded x s -> recurrence x -> forall n,
  output mt_random (mt_srandom s) n = tempered (x (624 + n)%nat) /\ word (output mt_random (mt_srandom s) n).
Proof.
  intros s x Sx Rx n. destruct (start s x Sx Rx) as (W & H).
  destruct (stream x (mt_srandom s) Rx W H n) as (E & _). rewrite E, temper_spec, Nw_is. split; [reflexivity|].
  rewrite <- temper_spec. apply temper_word, W.
Qed.
Print Assumptions C82_stream.
(* There is such a sequence for every seed. *)
Example stream_case : forall s, exists x, seeded x s /\ recurrence x.
Proof. exact sequence_of. Qed.
Example stream_value : output mt_random (mt_srandom 5489) 0 = 3499211612 /\ output mt_random (mt_srandom 5489) 999 = 1341017984.
Proof. split; vm_compute; reflexivity. Qed.

(* Without a seed the generator behaves as with 5489. *)
Theorem C82_default : forall n, output mt_random unseeded n = output mt_random (mt_srandom 5489) n.
Proof.
  assert (E : mt_random unseeded = mt_random (mt_srandom 5489)).
  { unfold mt_random at 1. change (Nw <=? mti unseeded)%nat with true. change (mti unseeded =? Nw + 1)%nat with true. reflexivity. }
  intros [|n]; unfold output; cbn [after]; rewrite E; reflexivity.
Qed.
Print Assumptions C82_default.

(* Seeds that agree in the lower 32 bits give the same numbers. *)
Theorem C82_same_seed : forall s s', s mod 2 ^ 32 = s' mod 2 ^ 32 ->
  forall n, output mt_random (mt_srandom s) n = output mt_random (mt_srandom s') n.
Proof.
  intros s s' E n. assert (Q : mt_srandom s = mt_srandom s') by (unfold mt_srandom; rewrite !low32_mod, E; reflexivity).
  rewrite Q. reflexivity.
Qed.
Print Assumptions C82_same_seed.
Example same_seed_case : 7 mod 2 ^ 32 = (7 + 2 ^ 32) mod 2 ^ 32.
Proof. reflexivity. Qed.

(* Other seeds give streams that are not equal over 624 successive calls, however
   late. *)
Theorem C82_different_seeds : forall s s' n,
  (forall i, (i < 624)%nat -> output mt_random (mt_srandom s) (n + i) = output mt_random (mt_srandom s') (n + i)) ->
  s mod 2 ^ 32 = s' mod 2 ^ 32.
Proof.
  intros s s' n E. destruct (sequence_of s) as (x & Sx & Rx). destruct (sequence_of s') as (x' & Sx' & Rx').
  destruct (start s x Sx Rx) as (W & H). destruct (start s' x' Sx' Rx') as (W' & H').
  destruct (merged x x' Rx Rx' W W' (623 + n)) as (M & _).
  - intros i I. specialize (E i I).
    destruct (stream x (mt_srandom s) Rx W H (n + i)) as (E1 & _). destruct (stream x' (mt_srandom s') Rx' W' H' (n + i)) as (E2 & _).
    rewrite E1, E2 in E. apply temper_inj in E. rewrite Nw_is in E.
    replace (S (623 + n) + i)%nat with (624 + (n + i))%nat by lia. exact E.
  - apply (seeds_differ x x'); auto.
Qed.
Print Assumptions C82_different_seeds.
Example different_seeds_case : forall n i, output mt_random (mt_srandom 3) (n + i) = output mt_random (mt_srandom (3 + 2 ^ 32)) (n + i).
Proof. intros n i. apply C82_same_seed. reflexivity. Qed.

(* There are never 624 zeros in succession. *)
Theorem C82_not_zero : forall s n, ~ (forall i, (i < 624)%nat -> output mt_random (mt_srandom s) (n + i) = 0).
Proof.
  intros s n E. destruct (sequence_of s) as (x & Sx & Rx). destruct (start s x Sx Rx) as (W & H).
  destruct (merged x (fun _ => 0) Rx zero_recurrence W (fun _ => eq_refl) (623 + n)) as (M & _).
  - intros i I. specialize (E i I). destruct (stream x (mt_srandom s) Rx W H (n + i)) as (E1 & _).
    rewrite E1 in E. change 0 with (temper 0) in E. apply temper_inj in E. rewrite Nw_is in E.
    replace (S (623 + n) + i)%nat with (624 + (n + i))%nat by lia. exact E.
  - apply (seeded_not_zero x s Sx). exact M.
Qed.
Print Assumptions C82_not_zero.

(* Initialisation by an array of keys: again a stream of the recurrence, whose first
   word is 2^31, so that there are never 624 zeros.  Without keys it reads outside. *)
Theorem C82_array : forall key, key <> [] ->
  exists st x, init_by_array key = Ok st /\ recurrence x /\ x 0%nat = 2 ^ 31
    /\ (forall n, output mt_random st n = tempered (x (624 + n)%nat) /\ word (output mt_random st n))
    /\ (forall n, ~ forall i, (i < 624)%nat -> output mt_random st (n + i) = 0).
Proof.
  intros key K. destruct (init_by_array_ok key K) as (st & E & (L & Wm) & T & Z).
  destruct (sequence_exists (mt st) L) as (x & Rx & X). rewrite Nw_is in X.
  assert (W : forall k, word (x k)) by (apply recurrence_words; [exact Rx|intros k Hk; rewrite X by exact Hk; apply Wm]).
  assert (H : reached x 0 st).
  { exists 0%nat. split; [|split; [rewrite T; apply Nat.le_refl|rewrite T; lia]].
    split; [exact L|]. split; [intros j J; lia|]. intros j (_ & J). symmetry. apply X. rewrite <- Nw_is. exact J. }
  exists st, x. split; [exact E|]. split; [exact Rx|]. split; [rewrite X by lia; exact Z|]. split.
  - intro n. destruct (stream x st Rx W H n) as (E1 & _). rewrite E1, temper_spec, Nw_is. split; [reflexivity|].
    rewrite <- temper_spec. apply temper_word, W.
  - intros n A. destruct (merged x (fun _ => 0) Rx zero_recurrence W (fun _ => eq_refl) (623 + n)) as (_ & M).
    + intros i I. specialize (A i I). destruct (stream x st Rx W H (n + i)) as (E1 & _).
      rewrite E1 in A. change 0 with (temper 0) in A. apply temper_inj in A. rewrite Nw_is in A.
      replace (S (623 + n) + i)%nat with (624 + (n + i))%nat by lia. exact A.
    + rewrite X in M by lia. rewrite Z in M. discriminate.
Qed.
Print Assumptions C82_array.
Example array_case : [291; 564; 837; 1110] <> []
  /\ match init_by_array [291; 564; 837; 1110] with Ok st => output mt_random st 0 = 1067595299 | Err _ => False end.
Proof. split; [discriminate|]. vm_compute. reflexivity. Qed.
Theorem C82_array_empty_refuted : init_by_array [] = Err UndefinedBehaviour.
Proof. exact init_by_array_empty. Qed.
Print Assumptions C82_array_empty_refuted.

(* Every word becomes a number in [0,1), [-1,1), [0,max) or [min,max); rand01 is the
   word divided by 2^32. *)
Theorem C82_conversions : forall y, word y ->
  (0 <= rand01 y < 1)%R /\ (rand01 y * 2 ^ 32)%R = IZR (Z.of_N y) /\ (-1 <= randpm1 y < 1)%R
  /\ (forall m, (0 < m)%R -> (0 <= rand0max m y < m)%R)
  /\ (forall a b, (a < b)%R -> (a <= randminmax a b y < b)%R).
Proof.
  intros y W. destruct (rand01_range y W) as (A & B). split; [exact A|]. split; [exact B|]. split; [apply randpm1_range, W|].
  split; [intros m M; apply rand0max_range; assumption | intros a b L; apply randminmax_range; assumption].
Qed.
Print Assumptions C82_conversions.
Example conversions_case : word 4294967295 /\ (0 < 3)%R.
Proof. split; [reflexivity|lra]. Qed.

Local Open Scope Z_scope.
(* mc_random: half of the words of y(k+31) = y(k) + y(k+28), starting with the table. *)
Theorem C83_stream : forall st y, List.length (tbl st) = 31%nat -> fp st = 3%nat -> rp st = 0%nat ->
  additive_sequence y -> (forall i, (i < 31)%nat -> y i = unsigned (nth ((3 + i) mod 31) (tbl st) 0)) ->
  forall n, output mc_random st n = y (n + 31)%nat / 2 /\ 0 <= output mc_random st n < 2 ^ 31.
Proof.
  intros st y L F Rp Ay T n. split; [|apply mc_range]. apply mc_stream; [exact Ay|].
  split; [exact L|]. split; [exact F|]. split; [exact Rp|]. intros i I. cbn [Nat.add]. symmetry. apply T. exact I.
Qed.
Print Assumptions C83_stream.
(* There is such a sequence for every table. *)
Example stream83_exists : forall t : list Z, List.length t = 31%nat ->
  exists y, additive_sequence y /\ forall i, (i < 31)%nat -> y i = unsigned (nth ((3 + i) mod 31) t 0).
Proof. exact additive_exists. Qed.
Example stream83_case : List.length (tbl initial) = 31%nat /\ fp initial = 3%nat /\ rp initial = 0%nat
  /\ output mc_random initial 0 = 1804289383.
Proof. repeat split; vm_compute; reflexivity. Qed.

(* mc_srandom: the multiplicative generator of Park and Miller for every seed. *)
Theorem C83_seed : forall x w, 0 < x < 2 ^ 32 ->
  let st := fst (mc_srandom x w) in
  List.length (tbl st) = 31%nat /\ fp st = 3%nat /\ rp st = 0%nat /\ unsigned (nth 0 (tbl st) 0) = x
  /\ forall i, (i < 30)%nat -> nth (S i) (tbl st) 0 = (16807 * nth i (tbl st) 0) mod 2147483647.
Proof.
  intros x w H. cbv zeta. unfold mc_srandom. cbn [fst tbl fp rp]. destruct (Z.eqb_spec x 0); [lia|].
  set (s0 := wrap32 x).
  assert (B0 : -2147483648 <= s0 < 2147483648) by (unfold s0, wrap32; assert (Q := Z.mod_pos_bound (x + 2147483648) 4294967296 ltac:(lia)); lia).
  assert (K : forall n s, -2147483648 <= s < 2147483648 -> List.length (seeds n s) = n
    /\ forall i, (i < n)%nat -> nth (S i) (s :: seeds n s) 0 = (16807 * nth i (s :: seeds n s) 0) mod 2147483647).
  { induction n0 as [|n0 IH]; intros s B; [split; [reflexivity|intros; lia]|]. cbn [seeds]. cbv zeta.
    assert (E := schrage_mod s B).
    assert (B' : -2147483648 <= schrage s < 2147483648) by (rewrite E; assert (Q := Z.mod_pos_bound (16807 * s) 2147483647 ltac:(lia)); lia).
    destruct (IH (schrage s) B') as (L & I). split; [cbn [List.length]; lia|].
    intros [|i] Hi; [exact E|]. apply (I i). lia. }
  destruct (K (deg - 1)%nat s0 B0) as (L & I). split; [cbn [List.length]; rewrite L; reflexivity|]. split; [reflexivity|]. split; [reflexivity|].
  split; [cbn [nth]; unfold s0, unsigned; rewrite wrap32_mod; apply Z.mod_small; exact (conj (Z.lt_le_incl _ _ (proj1 H)) (proj2 H))|].
  intros i Hi. apply I. exact Hi.
Qed.
Print Assumptions C83_seed.
Example seed_case : 0 < 4000000000 < 2 ^ 32.
Proof. lia. Qed.

(* The 310 numbers that are to be discarded are taken from the Mersenne Twister,
   whose state changes; the first number is not the one the algorithm specifies. *)
Theorem C83_warmup_refuted :
  (forall x w, snd (mc_srandom x w) = after mt_random 310 w)
  /\ output mc_random (fst (mc_srandom 1 unseeded)) 310 = 1804289383
  /\ output mc_random (fst (mc_srandom 1 unseeded)) 0 <> 1804289383.
Proof.
  split; [|split; [vm_compute; reflexivity|vm_compute; discriminate]].
  intros x w. unfold mc_srandom. cbn [snd].
  assert (K : forall n u, mt_skip n u = after mt_random n u) by (induction n as [|n IH]; intro u; [reflexivity|cbn [mt_skip after]; apply IH]).
  apply K.
Qed.
Print Assumptions C83_warmup_refuted.
