(* Proofs about seeds, initialisation by arrays, conversions and the additive generator. *)
From Coq Require Import Reals List ZArith NArith Lia Lra Bool.
From Verif Require Import Base RngModel RngSpec RngProofs RngProofs2.
Import ListNotations.
Local Open Scope N_scope.

(* Seeds. *)
Lemma odd_cancel : forall u v, word u -> word v ->
  (1812433253 * u + 1) mod 2 ^ 32 = (1812433253 * v + 1) mod 2 ^ 32 -> u = v.
Proof.
  intros u v U V H.
  assert (K : forall w, word w -> (2520285293 * ((1812433253 * w + 1) mod 2 ^ 32) + (2 ^ 32 - 2520285293)) mod 2 ^ 32 = w).
  { intros w W. rewrite N.add_mod, N.mul_mod_idemp_r, <- N.add_mod by discriminate.
    replace (2520285293 * (1812433253 * w + 1) + (2 ^ 32 - 2520285293)) with (w + (1063535193 * w + 1) * 2 ^ 32) by lia.
    rewrite N.mod_add by discriminate. apply N.mod_small. exact W. }
  rewrite <- (K u U), <- (K v V), H. reflexivity.
Qed.
Lemma seeds_differ : forall x x' s s', seeded x s -> seeded x' s' -> x 1%nat = x' 1%nat -> s mod 2 ^ 32 = s' mod 2 ^ 32.
Proof.
  intros x x' s s' (H0 & H1) (H0' & H1') E. assert (A := H1 0%nat ltac:(lia)). assert (B := H1' 0%nat ltac:(lia)).
  rewrite E, B in A. rewrite H0, H0' in A. change (N.of_nat 1) with 1 in A.
  assert (W : forall t, word (N.lxor (t mod 2 ^ 32) (t mod 2 ^ 32 / 2 ^ 30))).
  { intro t. apply lxor_lt; [apply mod_word|]. rewrite <- N.shiftr_div_pow2. apply shiftr_lt, mod_word. }
  apply odd_cancel in A; [|apply W|apply W]. rewrite <- !N.shiftr_div_pow2 in A. apply right_inj in A; [congruence|reflexivity].
Qed.

(* Initialisation by an array. *)
Definition words (l : list N) : Prop := List.length l = Nw /\ forall i, word (get l i).
Lemma words_set : forall l i v, words l -> word v -> words (set l i v).
Proof.
  intros l i v (L & W) V. split; [rewrite set_len; exact L|]. intro j.
  destruct (Nat.lt_ge_cases i (List.length l)) as [B|B].
  - destruct (Nat.eq_dec j i) as [->|N]; [rewrite get_same by exact B; exact V|rewrite get_other by exact N; apply W].
  - destruct (Nat.eq_dec j i) as [->|N]; [|rewrite get_other by exact N; apply W].
    unfold get. rewrite nth_overflow; [reflexivity|]. rewrite set_len. exact B.
Qed.
Lemma words_seed : forall s, words (mt (mt_srandom s)).
Proof.
  intro s. split; [apply mt_srandom_len|]. intro i. destruct (Nat.lt_ge_cases i 624) as [B|B].
  - apply (seeded_words _ s (mt_srandom_seeded s)). exact B.
  - unfold get. rewrite nth_overflow; [reflexivity|]. rewrite mt_srandom_len, Nw_is. exact B.
Qed.
Lemma low32_word : forall x, word (low32 x).
Proof. intro x. rewrite low32_mod. apply mod_word. Qed.
Lemma mix_keys_ok : forall key k l i j, words l -> (1 <= i < Nw)%nat -> (j < List.length key)%nat ->
  exists l' i', mix_keys key k l i j = Ok (l', i') /\ words l' /\ (1 <= i' < Nw)%nat.
Proof.
  intros key k. induction k as [|k IH]; intros l i j W I J; cbn [mix_keys].
  - exists l, i. auto.
  - destruct (nth_error key j) as [x|] eqn:E; [|apply nth_error_None in E; lia]. cbv zeta.
    set (v := low32 _). assert (V : word v) by apply low32_word. clearbody v.
    assert (W1 := words_set l i v W V). assert (H := NM).
    assert (J' : ((if (List.length key <=? S j)%nat then O else S j) < List.length key)%nat)
      by (destruct (Nat.leb_spec (List.length key) (S j)); lia).
    destruct (Nat.leb_spec Nw (S i)).
    + apply IH; [apply words_set; [exact W1|apply W1]|lia|exact J'].
    + apply IH; [exact W1|lia|exact J'].
Qed.
Lemma mix_index_ok : forall k l i, words l -> (1 <= i < Nw)%nat -> words (mix_index k l i).
Proof.
  intro k. induction k as [|k IH]; intros l i W I; cbn [mix_index]; [exact W|]. cbv zeta.
  set (v := low32 _). assert (V : word v) by apply low32_word. clearbody v.
  assert (W1 := words_set l i v W V). assert (H := NM).
  destruct (Nat.leb_spec Nw (S i)).
  - apply IH; [apply words_set; [exact W1|apply W1]|lia].
  - apply IH; [exact W1|lia].
Qed.
Lemma init_by_array_ok : forall key, key <> [] ->
  exists st, init_by_array key = Ok st /\ words (mt st) /\ mti st = Nw /\ get (mt st) 0 = 2 ^ 31.
Proof.
  intros key K. unfold init_by_array. cbv zeta. assert (H := NM).
  assert (J : (0 < List.length key)%nat) by (destruct key; [contradiction|cbn; lia]).
  destruct (mix_keys_ok key (Nat.max Nw (List.length key)) (mt (mt_srandom 19650218)) 1 0 (words_seed _) ltac:(lia) J) as (l & i & E & W & I).
  rewrite E. cbn [bind]. assert (W1 := mix_index_ok (Nw - 1) l i W I). set (l1 := mix_index _ _ _) in *. clearbody l1.
  eexists. split; [reflexivity|]. cbn [mt mti]. split; [apply words_set; [exact W1|reflexivity]|]. split; [reflexivity|].
  apply get_same. destruct W1 as (L & _). lia.
Qed.
Lemma init_by_array_empty : init_by_array [] = Err UndefinedBehaviour.
Proof.
  unfold init_by_array. cbv zeta. change (Nat.max Nw (List.length (@nil N))) with (S (Nw - 1)). cbn [mix_keys nth_error bind]. reflexivity.
Qed.

(* Not only zeros. *)
Lemma zero_recurrence : recurrence (fun _ => 0).
Proof. intro k. reflexivity. Qed.
Lemma seeded_not_zero : forall x s, seeded x s -> ~ (forall k, x (S k) = 0).
Proof.
  intros x s (_ & H) Z. assert (A := H 1%nat ltac:(lia)). rewrite (Z 1%nat), (Z 0%nat) in A. discriminate.
Qed.

Local Open Scope R_scope.
(* Conversions. *)
Lemma word_R : forall y, word y -> 0 <= IZR (Z.of_N y) < 4294967296.
Proof.
  intros y H. unfold word in H. split; [apply IZR_le; lia|]. apply IZR_lt. lia.
Qed.
Lemma rand01_range : forall y, word y -> 0 <= rand01 y < 1 /\ rand01 y * 2 ^ 32 = IZR (Z.of_N y).
Proof. intros y H. apply word_R in H. unfold rand01, MC_RAND_MAX. split; [split; lra|]. lra. Qed.
Lemma randpm1_range : forall y, word y -> -1 <= randpm1 y < 1.
Proof. intros y H. apply word_R in H. unfold randpm1, MC_RAND_MAX. split; lra. Qed.
Lemma rand0max_range : forall y m, word y -> 0 < m -> 0 <= rand0max m y < m.
Proof.
  intros y m H M. apply word_R in H. unfold rand0max, MC_RAND_MAX.
  replace (IZR (Z.of_N y) / ((4294967295 + 1) / m)) with (IZR (Z.of_N y) / 4294967296 * m) by (field; lra).
  split; [apply Rmult_le_pos; lra|]. rewrite <- (Rmult_1_l m) at 2. apply Rmult_lt_compat_r; lra.
Qed.
Lemma randminmax_range : forall y a b, word y -> a < b -> a <= randminmax a b y < b.
Proof. intros y a b H L. unfold randminmax. assert (Q := rand0max_range y (b - a) H ltac:(lra)). lra. Qed.

Local Open Scope Z_scope.
(* The additive generator. *)
Lemma setz_len : forall l i v, List.length (setz l i v) = List.length l.
Proof. induction l as [|x l IH]; intros [|i] v; cbn; auto. Qed.
Lemma getz_same : forall l i v, (i < List.length l)%nat -> nth i (setz l i v) 0 = v.
Proof. induction l as [|x l IH]; intros [|i] v H; cbn in *; try lia; auto. apply IH. lia. Qed.
Lemma getz_other : forall l i v j, j <> i -> nth j (setz l i v) 0 = nth j l 0.
Proof. induction l as [|x l IH]; intros [|i] v [|j] H; cbn; auto; try contradiction. Qed.

Lemma wrap32_mod : forall x, wrap32 x mod 2 ^ 32 = x mod 2 ^ 32.
Proof.
  intro x. unfold wrap32. change 4294967296 with (2 ^ 32).
  rewrite Zminus_mod, Zmod_mod, <- Zminus_mod. f_equal. lia.
Qed.
Lemma wrap32_id : forall x, - 2147483648 <= x < 2147483648 -> wrap32 x = x.
Proof. intros x H. unfold wrap32. rewrite Z.mod_small; lia. Qed.
Lemma half_bits : forall v, Z.land (Z.shiftr v 1) 2147483647 = (v mod 2 ^ 32) / 2.
Proof.
  intro v. change 2147483647 with (Z.ones 31). rewrite Z.land_ones by lia. rewrite Z.shiftr_div_pow2 by lia.
  change (2 ^ 1) with 2. change (2 ^ 32) with (2 * 2 ^ 31). rewrite (Z.rem_mul_r v 2 (2 ^ 31)) by lia.
  rewrite (Z.mul_comm 2), Z.div_add by lia.
  rewrite (Z.div_small (v mod 2)) by (apply Z.mod_pos_bound; lia). lia.
Qed.

Definition reachedA (y : nat -> Z) (n : nat) (st : additive) : Prop :=
  List.length (tbl st) = 31%nat /\ fp st = ((3 + n) mod 31)%nat /\ rp st = (n mod 31)%nat
  /\ forall i, (i < 31)%nat -> nth ((3 + n + i) mod 31)%nat (tbl st) 0 mod 2 ^ 32 = y (n + i)%nat.

Lemma mod31 : forall a, exists q r, (a = 31 * q + r /\ a mod 31 = r /\ r < 31)%nat.
Proof.
  intro a. exists (a / 31)%nat, (a mod 31)%nat. split; [apply Nat.div_mod; lia|]. split; [reflexivity|apply Nat.mod_upper_bound; lia].
Qed.
Ltac m31 := repeat match goal with |- context [(?a mod 31)%nat] =>
  let q := fresh in let r := fresh in let A := fresh in let B := fresh in let C := fresh in
  destruct (mod31 a) as (q & r & A & B & C); rewrite B in *; clear B end.
Lemma mod31_eq : forall a b, (a mod 31 = b mod 31)%nat <-> exists q, (a = b + 31 * q \/ b = a + 31 * q)%nat.
Proof.
  intros a b. split.
  - intro H. destruct (mod31 a) as (q & r & A & B & C). destruct (mod31 b) as (q' & r' & A' & B' & C').
    assert (r = r') by congruence. subst r'. destruct (Nat.le_ge_cases q q').
    + exists (q' - q)%nat. right. nia.
    + exists (q - q')%nat. left. nia.
  - intros (q & [->| ->]).
    + replace (b + 31 * q)%nat with (b + q * 31)%nat by lia. apply Nat.mod_add. lia.
    + replace (a + 31 * q)%nat with (a + q * 31)%nat by lia. symmetry. apply Nat.mod_add. lia.
Qed.

Lemma mc_step : forall y n st, additive_sequence y -> reachedA y n st ->
  fst (mc_random st) = y (n + 31)%nat / 2 /\ reachedA y (S n) (snd (mc_random st)).
Proof.
  intros y n st Ay (L & F & Rp & T).
  set (v := wrap32 (nth (fp st) (tbl st) 0 + nth (rp st) (tbl st) 0)).
  assert (V : v mod 2 ^ 32 = y (n + 31)%nat).
  { unfold v. rewrite wrap32_mod, Zplus_mod. rewrite Ay. f_equal. rewrite F, Rp.
    assert (T0 := T 0%nat ltac:(lia)). rewrite !Nat.add_0_r in T0. rewrite T0.
    assert (T28 := T 28%nat ltac:(lia)).
    replace ((3 + n + 28) mod 31)%nat with (n mod 31)%nat in T28; [rewrite T28; reflexivity|].
    apply mod31_eq. exists 1%nat. right. lia. }
  assert (S1 : fst (mc_random st) = y (n + 31)%nat / 2 /\ tbl (snd (mc_random st)) = setz (tbl st) (fp st) v
    /\ fp (snd (mc_random st)) = ((3 + S n) mod 31)%nat /\ rp (snd (mc_random st)) = (S n mod 31)%nat).
  { unfold mc_random. fold v. rewrite half_bits, V.
    destruct (mod31 (3 + n)) as (q & r & A & B & C). destruct (mod31 n) as (q' & r' & A' & B' & C').
    rewrite F, Rp, B, B'. unfold deg.
    assert (W1 : (S n mod 31 = (if r' =? 30 then O else S r'))%nat).
    { destruct (Nat.eqb_spec r' 30).
      - symmetry. change O with (0 mod 31)%nat. apply mod31_eq. exists (S q'). right. lia.
      - rewrite <- (Nat.mod_small (S r') 31) by lia. apply mod31_eq. exists q'. left. lia. }
    assert (W2 : ((3 + S n) mod 31 = (if r =? 30 then O else S r))%nat).
    { destruct (Nat.eqb_spec r 30).
      - symmetry. change O with (0 mod 31)%nat at 1. apply mod31_eq. exists (S q). right. lia.
      - rewrite <- (Nat.mod_small (S r) 31) by lia. apply mod31_eq. exists q. left. lia. }
    rewrite W1, W2. clear B B' W1 W2. destruct (Nat.leb_spec 31 (S r)).
    - cbn [fst snd tbl fp rp]. assert (r = 30)%nat by lia. subst r. cbn [Nat.eqb]. assert (r' = 27)%nat by lia. subst r'. repeat split; reflexivity.
    - cbn [fst snd tbl fp rp]. destruct (Nat.eqb_spec r 30); [lia|].
      destruct (Nat.eqb_spec r' 30) as [E|E].
      + subst r'. repeat split; reflexivity.
      + destruct (Nat.leb_spec 31 (S r')); [lia|]. auto. }
  destruct S1 as (E1 & E2 & E3 & E4). split; [exact E1|]. split; [rewrite E2, setz_len; exact L|].
  split; [exact E3|]. split; [exact E4|]. intros i I. rewrite E2, F.
  assert (B : ((3 + n) mod 31 < 31)%nat) by (apply Nat.mod_upper_bound; lia).
  destruct (Nat.eq_dec i 30) as [->|N].
  - replace ((3 + S n + 30) mod 31)%nat with ((3 + n) mod 31)%nat by (apply mod31_eq; exists 1%nat; right; lia).
    rewrite getz_same by lia. rewrite V. f_equal. lia.
  - rewrite getz_other.
    + replace (3 + S n + i)%nat with (3 + n + S i)%nat by lia. rewrite T by lia. f_equal. lia.
    + rewrite mod31_eq. intros (q & [H|H]); lia.
Qed.
Lemma mc_stream : forall y st, additive_sequence y -> reachedA y 0 st -> forall n,
  output mc_random st n = y (n + 31)%nat / 2.
Proof.
  intros y st Ay H n.
  assert (K : reachedA y n (after mc_random n st)).
  { induction n as [|m IH]; [exact H|]. rewrite after_S. apply mc_step; assumption. }
  unfold output. apply mc_step; assumption.
Qed.
Lemma mc_range : forall st, 0 <= fst (mc_random st) < 2 ^ 31.
Proof.
  intro st. assert (E : exists v, fst (mc_random st) = (v mod 2 ^ 32) / 2).
  { unfold mc_random. rewrite half_bits. destruct (deg <=? S (fp st))%nat; eexists; reflexivity. }
  destruct E as (v & ->). assert (B := Z.mod_pos_bound v (2 ^ 32) ltac:(lia)). split; [apply Z.div_pos; lia|].
  apply Z.div_lt_upper_bound; lia.
Qed.

Lemma schrage_mod : forall s, - 2147483648 <= s < 2147483648 -> schrage s = (16807 * s) mod 2147483647.
Proof.
  intros s H. unfold schrage. cbv zeta.
  assert (D := Z.quot_rem' s 127773). assert (B := Z.rem_bound_abs s 127773 ltac:(lia)).
  assert (SP : 0 <= s -> 0 <= Z.rem s 127773) by (intro; apply Z.rem_nonneg; lia).
  assert (SN : s <= 0 -> Z.rem s 127773 <= 0) by (intro; apply Z.rem_nonpos; lia).
  set (hi := Z.quot s 127773) in *. set (lo := Z.rem s 127773) in *. clearbody hi lo.
  assert (HL : -127773 < lo < 127773) by lia.
  assert (HH : -16808 < hi < 16808) by lia.
  assert (T : -2147483647 < 16807 * lo - 2836 * hi < 2147483647).
  { (* lo and hi have the same sign *)
    destruct (Z.le_ge_cases 0 s) as [P|P]; [assert (0 <= lo /\ 0 <= hi) by lia | assert (lo <= 0 /\ hi <= 0) by lia]; lia. }
  rewrite wrap32_id by (destruct (Z.ltb_spec (16807 * lo - 2836 * hi) 0); lia).
  destruct (Z.ltb_spec (16807 * lo - 2836 * hi) 0).
  - apply Z.mod_unique with (hi - 1); lia.
  - apply Z.mod_unique with hi; lia.
Qed.

(* A sequence for every table. *)
Definition shiftz (l : list Z) : list Z := tl l ++ [(nth 0 l 0 + nth 28 l 0) mod 2 ^ 32].
Fixpoint shiftsz (n : nat) (l : list Z) : list Z := match n with O => l | S n' => shiftsz n' (shiftz l) end.
Lemma shiftz_len : forall l, List.length l = 31%nat -> List.length (shiftz l) = 31%nat.
Proof. intros [|a l] L; [discriminate|]. unfold shiftz. rewrite app_length. cbn [tl List.length] in *. lia. Qed.
Lemma shiftsz_S : forall n l, shiftsz (S n) l = shiftz (shiftsz n l).
Proof. induction n as [|n IH]; intro l; [reflexivity|]. change (shiftsz (S (S n)) l) with (shiftsz (S n) (shiftz l)). rewrite IH. reflexivity. Qed.
Lemma shiftsz_len : forall n l, List.length l = 31%nat -> List.length (shiftsz n l) = 31%nat.
Proof. induction n as [|n IH]; intros l L; [exact L|]. cbn [shiftsz]. apply IH, shiftz_len, L. Qed.
Lemma shiftz_nth : forall l i, List.length l = 31%nat -> (S i < 31)%nat -> nth i (shiftz l) 0 = nth (S i) l 0.
Proof. intros [|a l] i L I; [discriminate|]. unfold shiftz. cbn [tl List.length] in *. rewrite app_nth1 by lia. reflexivity. Qed.
Lemma shiftsz_nth : forall i n l, List.length l = 31%nat -> (i < 31)%nat -> nth i (shiftsz n l) 0 = nth 0 (shiftsz (n + i) l) 0.
Proof.
  induction i as [|i IH]; intros n l L I; [rewrite Nat.add_0_r; reflexivity|].
  rewrite <- shiftz_nth by (auto using shiftsz_len). rewrite <- shiftsz_S, IH by (auto; lia).
  replace (S n + i)%nat with (n + S i)%nat by lia. reflexivity.
Qed.
Lemma additive_exists : forall t : list Z, List.length t = 31%nat ->
  exists y, additive_sequence y /\ forall i, (i < 31)%nat -> y i = unsigned (nth ((3 + i) mod 31) t 0).
Proof.
  intros t L. set (l := map (fun i => unsigned (nth ((3 + i) mod 31) t 0)) (seq 0 31)).
  assert (Ll : List.length l = 31%nat) by (unfold l; rewrite map_length, seq_length; reflexivity).
  exists (fun k => nth 0 (shiftsz k l) 0). split.
  - intro k. replace (k + 31)%nat with (S k + 30)%nat by lia. rewrite <- shiftsz_nth by (auto; lia).
    rewrite shiftsz_S. rewrite <- (shiftsz_nth 28 k l Ll) by lia.
    assert (Lk := shiftsz_len k l Ll). set (m := shiftsz k l) in *. clearbody m.
    unfold shiftz. set (v := (nth 0 m 0 + nth 28 m 0) mod 2 ^ 32). clearbody v.
    destruct m as [|a m]; [discriminate|]. cbn [tl List.length] in *. rewrite app_nth2 by lia.
    replace (30 - List.length m)%nat with O by lia. reflexivity.
  - intros i I. transitivity (nth i l 0); [symmetry; exact (shiftsz_nth i 0 l Ll I)|]. unfold l.
    rewrite nth_indep with (d' := unsigned (nth ((3 + 0) mod 31) t 0)) by (rewrite map_length, seq_length; exact I).
    rewrite (map_nth (fun i => unsigned (nth ((3 + i) mod 31) t 0))). rewrite seq_nth by exact I. reflexivity.
Qed.
