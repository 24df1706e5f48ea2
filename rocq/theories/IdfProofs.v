(** Fields of the sample data files: bytes, integers, words, texts. *)
From Coq Require Import Reals.
From Verif Require Import Base StorageModel StorageSpec StorageProofs IdfModel IdfSpec.
Open Scope Z_scope.

Lemma byte_mod z i : 0 <= i -> Z.land (Z.shiftr z (8 * i)) 255 = (z / 256 ^ i) mod 256.
Proof.
  intros. change 255 with (Z.ones 8). rewrite Z.land_ones by lia. rewrite Z.shiftr_div_pow2 by lia.
  replace (2 ^ (8 * i)) with (256 ^ i); [reflexivity|]. rewrite Z.pow_mul_r by lia. reflexivity.
Qed.
Lemma int_bytes_le n : le_bytes 4 n = int_bytes n.
Proof.
  unfold int_bytes. cbn [map]. rewrite !byte_mod by lia. cbn [le_bytes].
  rewrite !Z.div_div by lia. change (256 ^ 0) with 1. rewrite Z.div_1_r. change (256 * 256) with 65536. reflexivity.
Qed.
Lemma int_bytes_length n : List.length (int_bytes n) = 4%nat. Proof. reflexivity. Qed.
Lemma int_bytes_byte n : Forall byte (int_bytes n).
Proof. rewrite <- int_bytes_le. cbn [le_bytes]. repeat (apply Forall_cons; [unfold byte; apply Z.mod_pos_bound; lia|]). apply Forall_nil. Qed.
Lemma le_signed_int n : int32 n -> le_signed 4 (int_bytes n) = n.
Proof.
  intros H. unfold int32 in H. unfold le_signed. rewrite <- int_bytes_le. rewrite le_value_bytes.
  change (256 ^ Z.of_nat 4) with 4294967296. change (2 ^ (8 * Z.of_nat 4 - 1)) with 2147483648. change (2 ^ (8 * Z.of_nat 4)) with 4294967296.
  change (2 ^ 31) with 2147483648 in H.
  destruct (Z_lt_ge_dec n 0).
  - replace (n mod 4294967296) with (n + 4294967296). 2: { symmetry. rewrite <- (Z_mod_plus_full n 1). apply Z.mod_small. lia. }
    replace (2147483648 <=? n + 4294967296) with true by (symmetry; apply Z.leb_le; lia). lia.
  - rewrite Z.mod_small by lia. replace (2147483648 <=? n) with false by (symmetry; apply Z.leb_gt; lia). reflexivity.
Qed.
(** Any four bytes are those of one 32-bit integer. *)
Lemma le_value_mod_cons b l : byte b -> le_value (b :: l) mod 256 = b /\ le_value (b :: l) / 256 = le_value l.
Proof.
  intros H. unfold le_value. cbn [fold_right]. fold (le_value l). unfold byte in H. split.
  - replace (b + 256 * le_value l) with (b + le_value l * 256) by ring. rewrite Z_mod_plus_full. apply Z.mod_small. lia.
  - replace (b + 256 * le_value l) with (b + le_value l * 256) by ring. rewrite Z_div_plus_full by lia. rewrite Z.div_small by lia. lia.
Qed.
Lemma le_bytes_value l : Forall byte l -> le_bytes (List.length l) (le_value l) = l.
Proof.
  induction l as [|b l IH]; intros H; [reflexivity|]. inversion H; subst.
  cbn [List.length le_bytes]. destruct (le_value_mod_cons b l H2) as [-> ->]. f_equal. auto.
Qed.
Lemma le_value_range l : Forall byte l -> 0 <= le_value l < 256 ^ Z.of_nat (List.length l).
Proof.
  induction l as [|b l IH]; intros H; [cbn; lia|]. inversion H; subst. specialize (IH H3).
  cbn [List.length]. rewrite Nat2Z.inj_succ, Z.pow_succ_r by lia. unfold le_value. cbn [fold_right]. fold (le_value l). unfold byte in H2. lia.
Qed.
Lemma le_bytes_shift k z m : le_bytes k (z + m * 256 ^ Z.of_nat k) = le_bytes k z.
Proof.
  revert z m. induction k as [|k IH]; intros; [reflexivity|]. cbn [le_bytes].
  rewrite Nat2Z.inj_succ, Z.pow_succ_r by lia.
  replace (z + m * (256 * 256 ^ Z.of_nat k)) with (z + (m * 256 ^ Z.of_nat k) * 256) by ring.
  rewrite Z_mod_plus_full. rewrite Z_div_plus_full by lia. f_equal. apply IH.
Qed.
Lemma four_bytes b : List.length b = 4%nat -> Forall byte b -> int32 (le_signed 4 b) /\ b = int_bytes (le_signed 4 b).
Proof.
  intros L H. pose proof (le_value_range b H) as V. rewrite L in V. pose proof (le_bytes_value b H) as W. rewrite L in W.
  rewrite <- int_bytes_le. unfold le_signed, int32.
  change (256 ^ Z.of_nat 4) with 4294967296 in V. change (2 ^ (8 * Z.of_nat 4 - 1)) with 2147483648. change (2 ^ (8 * Z.of_nat 4)) with 4294967296.
  change (2 ^ 31) with 2147483648.
  destruct (2147483648 <=? le_value b) eqn:G; [apply Z.leb_le in G | apply Z.leb_gt in G]; (split; [lia|]).
  - replace (le_value b - 4294967296) with (le_value b + (- (1)) * 256 ^ Z.of_nat 4) by (change (256 ^ Z.of_nat 4) with 4294967296; lia).
    rewrite le_bytes_shift. auto.
  - auto.
Qed.

Lemma words_are ws : words_tostring ws = flat_map spec_word_bytes ws.
Proof. unfold words_tostring. induction ws; [reflexivity|]. cbn [flat_map]. rewrite le_bytes_spec, IHws. reflexivity. Qed.
Lemma words_length ws : Z.of_nat (List.length (flat_map spec_word_bytes ws)) = 8 * Z.of_nat (List.length ws).
Proof. rewrite flat_map_word_length. lia. Qed.
(** Any multiple of eight bytes are those of words. *)
Lemma bytes_words n : forall b, List.length b = (8 * n)%nat -> Forall byte b ->
  List.length (words_of b) = n /\ Forall wf_word (words_of b) /\ b = flat_map spec_word_bytes (words_of b).
Proof.
  induction n as [|n IH]; intros b L H.
  - destruct b; [|cbn in L; lia]. cbn. auto.
  - do 8 (destruct b as [|? b]; [cbn in L; lia|]). cbn [List.length] in L.
    repeat match goal with H : Forall _ (_ :: _) |- _ => inversion H; subst; clear H end.
    destruct (IH b ltac:(lia) ltac:(assumption)) as [A [B C]].
    assert (F : Forall byte [z; z0; z1; z2; z3; z4; z5; z6]) by (repeat constructor; auto; unfold byte in *; lia).
    cbn [words_of List.length]. split; [congruence|]. split.
    + constructor; auto. pose proof (le_value_range _ F) as V. cbn [List.length] in V. unfold wf_word. change (2 ^ 64) with (256 ^ Z.of_nat 8). lia.
    + cbn [flat_map]. rewrite <- le_bytes_spec. pose proof (le_bytes_value _ F) as W. cbn [List.length] in W. rewrite W. cbn [app]. rewrite <- C. reflexivity.
Qed.
Lemma words_back ws : Forall wf_word ws -> words_of (flat_map spec_word_bytes ws) = ws.
Proof. intros. rewrite <- (app_nil_r (flat_map _ ws)). rewrite words_of_words by auto. cbn. apply app_nil_r. Qed.

(** Texts. *)
Lemma strip_front_spec s : exists i, s = repeat 0 i ++ strip_front s /\ hd 1 (strip_front s) <> 0.
Proof.
  induction s as [|c s [i [A B]]]; [exists 0%nat; cbn; split; [reflexivity|lia]|]. cbn [strip_front].
  destruct (c =? 0) eqn:Z; [apply Z.eqb_eq in Z; subst c | apply Z.eqb_neq in Z].
  - exists (S i). cbn. split; [f_equal; auto|auto].
  - exists 0%nat. cbn. auto.
Qed.
Lemma rev_repeat (i : nat) (x : Z) : rev (repeat x i) = repeat x i.
Proof.
  induction i; [reflexivity|]. cbn. rewrite IHi. clear. induction i; [reflexivity|]. cbn. f_equal. auto.
Qed.
Lemma last_rev (l : list Z) d : last l d = hd d (rev l).
Proof. induction l as [|x l IH] using rev_ind; [reflexivity|]. rewrite last_last, rev_app_distr. reflexivity. Qed.
Lemma hd_app (a b : list Z) d : a <> [] -> hd d (a ++ b) = hd d a. Proof. destruct a; [congruence|reflexivity]. Qed.
Lemma strip_spec s : stripped s (strip0 s).
Proof.
  unfold strip0. destruct (strip_front_spec s) as [i [A B]]. destruct (strip_front_spec (rev (strip_front s))) as [j [C D]].
  set (u := strip_front s) in *. set (w := strip_front (rev u)) in *.
  assert (U : u = rev w ++ repeat 0 j). { rewrite <- (rev_involutive u), C, rev_app_distr, rev_repeat. reflexivity. }
  exists i, j. split; [rewrite A; f_equal; exact U|]. split.
  - destruct w as [|z w'] eqn:W; [cbn; lia|]. rewrite U in B. rewrite hd_app in B; [exact B|]. intros K. apply (f_equal (@List.length Z)) in K. rewrite rev_length in K. discriminate K.
  - rewrite last_rev, rev_involutive. exact D.
Qed.
Lemma strip_front_eq i t : hd 1 t <> 0 -> strip_front (repeat 0 i ++ t) = t.
Proof.
  induction i; intros; cbn; [|auto]. destruct t as [|c t]; [reflexivity|]. cbn in *. destruct (c =? 0) eqn:Z; [apply Z.eqb_eq in Z; lia|reflexivity].
Qed.
Lemma strip_unique s t : stripped s t -> strip0 s = t.
Proof.
  intros [i [j [-> [A B]]]]. unfold strip0. destruct t as [|c t].
  - cbn [app]. rewrite <- repeat_app. rewrite <- (app_nil_r (repeat 0 (i + j))). rewrite strip_front_eq by (cbn; lia). reflexivity.
  - rewrite strip_front_eq by (cbn in *; exact A). rewrite rev_app_distr, rev_repeat. rewrite strip_front_eq; [apply rev_involutive|].
    rewrite <- last_rev. exact B.
Qed.
Lemma ascii_b s : forallb (fun c => (0 <=? c) && (c <? 128)) s = true <-> ascii s.
Proof.
  unfold ascii. rewrite forallb_forall, Forall_forall. split; intros H x X; specialize (H x X).
  - apply andb_true_iff in H. rewrite Z.leb_le, Z.ltb_lt in H. lia.
  - apply andb_true_iff. rewrite Z.leb_le, Z.ltb_lt. lia.
Qed.
Lemma ascii_t s : ascii s -> forallb (fun c => (0 <=? c) && (c <? 128)) s = true. Proof. apply ascii_b. Qed.
Lemma ascii_f s : ~ ascii s -> forallb (fun c => (0 <=? c) && (c <? 128)) s = false.
Proof. intros H. destruct (forallb _ s) eqn:F; [|reflexivity]. apply (proj1 (ascii_b s)) in F. contradiction. Qed.
Lemma ascii_app a b : ascii (a ++ b) <-> ascii a /\ ascii b. Proof. apply Forall_app. Qed.
Lemma ascii_zeros n : ascii (repeat 0 n). Proof. unfold ascii. induction n; cbn; constructor; auto; lia. Qed.
Lemma ascii_strip s t : stripped s t -> (ascii s <-> ascii t).
Proof. intros [i [j [-> _]]]. rewrite !ascii_app. pose proof (ascii_zeros i). pose proof (ascii_zeros j). tauto. Qed.
Lemma ascii_firstn n s : ascii s -> ascii (firstn n s).
Proof. intros H. rewrite <- (firstn_skipn n s) in H. apply ascii_app in H. tauto. Qed.
Lemma pack_pad n s : pack_s n s = spec_pad n (firstn n s).
Proof.
  unfold pack_s, spec_pad. rewrite firstn_length. f_equal. f_equal. lia.
Qed.
Lemma pad_length n s : (List.length s <= n)%nat -> List.length (spec_pad n s) = n.
Proof. intros. unfold spec_pad. rewrite app_length, repeat_length. lia. Qed.
Lemma pad_strip n s t : stripped (spec_pad n s) t <-> stripped s t.
Proof.
  assert (K : strip0 (spec_pad n s) = strip0 s).
  { apply strip_unique. unfold spec_pad. destruct (strip_spec s) as [i [j [A B]]]. exists i, (j + (n - List.length s))%nat. split; [|exact B].
    rewrite A at 1. rewrite repeat_app. rewrite <- !app_assoc. rewrite !app_assoc. f_equal. }
  split; intros H; apply strip_unique in H.
  - rewrite <- H, K. apply strip_spec.
  - rewrite <- H, <- K. apply strip_spec.
Qed.

(** Slices of concatenated fields. *)
Lemma slice_app (i n : nat) (a b c : list Z) : List.length a = i -> List.length b = n -> slice i n (a ++ b ++ c) = b.
Proof.
  intros A B. unfold slice. rewrite skipn_app, skipn_all2 by lia. replace (i - List.length a)%nat with 0%nat by lia. cbn [app skipn].
  rewrite firstn_app, firstn_all2 by lia. replace (n - List.length b)%nat with 0%nat by lia. cbn [firstn]. apply app_nil_r.
Qed.
Lemma skipn_at (i : nat) (a b : list Z) : List.length a = i -> skipn i (a ++ b) = b.
Proof. intros A. rewrite skipn_app, skipn_all2 by lia. replace (i - List.length a)%nat with 0%nat by lia. reflexivity. Qed.
Lemma unpack_i_int n : int32 n -> unpack_i (int_bytes n) = Ok n.
Proof. intros. unfold unpack_i. rewrite int_bytes_length. cbn [Z.eqb]. rewrite le_signed_int by auto. reflexivity. Qed.
Lemma unpack_s_ok n b : List.length b = n -> unpack_s n b = Ok b.
Proof. intros. unfold unpack_s. rewrite H, Z.eqb_refl. reflexivity. Qed.
Lemma unpack_d_ok n ws : Forall wf_word ws -> n = Z.of_nat (List.length ws) -> unpack_d n (flat_map spec_word_bytes ws) = Ok ws.
Proof.
  intros W N. unfold unpack_d. replace (n <? 0) with false by (symmetry; apply Z.ltb_ge; lia).
  rewrite words_length, N, Z.eqb_refl, words_back by auto. reflexivity.
Qed.
Lemma unpack_d_bad n ws : n <> Z.of_nat (List.length ws) -> unpack_d n (flat_map spec_word_bytes ws) = Err StructError.
Proof.
  intros N. unfold unpack_d. destruct (n <? 0) eqn:S; [reflexivity|]. rewrite words_length.
  replace (8 * Z.of_nat (List.length ws) =? 8 * n) with false by (symmetry; apply Z.eqb_neq; lia). reflexivity.
Qed.
(** Slices of any list. *)
Lemma slice_length i n f : List.length (slice i n f) = Nat.min n (List.length f - i).
Proof. unfold slice. rewrite firstn_length, skipn_length. reflexivity. Qed.
Lemma slice_split i n (f : list Z) : skipn i f = slice i n f ++ skipn (i + n) f.
Proof. unfold slice. rewrite <- (firstn_skipn n (skipn i f)) at 1. f_equal. apply skipn_skipn'. Qed.
Lemma slice_byte i n f : Forall byte f -> Forall byte (slice i n f).
Proof.
  intros H. unfold slice. rewrite Forall_forall in *. intros x X. apply H.
  assert (In x (skipn i f)). { rewrite <- (firstn_skipn n (skipn i f)). apply in_or_app. auto. }
  rewrite <- (firstn_skipn i f). apply in_or_app. auto.
Qed.
Lemma skipn_byte i f : Forall byte f -> Forall byte (skipn i f).
Proof. intros H. rewrite <- (firstn_skipn i f) in H. apply Forall_app in H. tauto. Qed.
