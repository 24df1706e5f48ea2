(** Proofs for C63 and C64: texts, lines and words. *)
From Coq Require Import Ascii Reals DecimalString DecimalZ.
From Verif Require Import Base PyStr RotModel PeakModel LazModel LazSpec.
Open Scope Z_scope.

(** ** Characters *)
Lemma visible_char : forall c, visible c -> is_space c = false /\ is_break c = false.
Proof.
  unfold visible, is_space, is_break. intros c [A B]. set (n := nat_of_ascii c) in *.
  rewrite (proj2 (Nat.leb_gt n 13)), (proj2 (Nat.leb_gt n 32)), (proj2 (Nat.leb_gt n 30)), (proj2 (Nat.eqb_neq n 133)), (proj2 (Nat.eqb_neq n 160)) by lia.
  rewrite !andb_false_r. split; reflexivity.
Qed.
Lemma gap_is_space : forall c, gap_char c -> is_space c = true /\ is_break c = false.
Proof. intros c [->| ->]; split; reflexivity. Qed.
Lemma all_impl : forall (P Q : ascii -> Prop) s, (forall c, P c -> Q c) -> all_chars P s -> all_chars Q s.
Proof. induction s as [|c s IH]; cbn; [tauto|]. intros H [A B]. auto. Qed.
Lemma all_app : forall P a b, all_chars P (a ++ b)%string <-> all_chars P a /\ all_chars P b.
Proof. induction a as [|c a IH]; intros b; cbn; [tauto|]. rewrite IH. tauto. Qed.
Lemma layout_chars : forall l ws, layout l ws -> all_chars (fun c => visible c \/ gap_char c) l.
Proof.
  induction 1 as [g G|g w rest ws G [_ W] R H IH].
  - eapply all_impl; [|exact G]. tauto.
  - rewrite !all_app. split; [eapply all_impl; [|exact G]; tauto|]. split; [eapply all_impl; [|exact W]; tauto|exact IH].
Qed.
Lemma layout_nobreak : forall l ws, layout l ws -> all_chars (fun c => is_break c = false) l.
Proof. intros l ws H. eapply all_impl; [|eapply layout_chars; exact H]. intros c [V|G]; [now apply visible_char|now apply gap_is_space]. Qed.

(** ** Pieces *)
Lemma pieces_nonempty : forall sep s, pieces sep s <> [].
Proof. intros sep [|c s]; cbn; [discriminate|]. destruct (sep c); [discriminate|]. destruct (pieces sep s); discriminate. Qed.
Lemma pieces_none : forall sep s, all_chars (fun c => sep c = false) s -> pieces sep s = [s].
Proof. induction s as [|c s IH]; cbn; [reflexivity|]. intros [A B]. rewrite A, (IH B). reflexivity. Qed.
Lemma pieces_sep : forall sep s c t, all_chars (fun c => sep c = false) s -> sep c = true -> pieces sep (s ++ String c t)%string = s :: pieces sep t.
Proof. induction s as [|d s IH]; cbn; intros c t A B; [now rewrite B|]. destruct A as [A1 A2]. rewrite A1, (IH c t A2 B). reflexivity. Qed.
Lemma pieces_text : forall sep f, sep nl = true -> f <> [] -> Forall (fun l => all_chars (fun c => sep c = false) (fst l)) f -> pieces sep (text_of f) = map fst f.
Proof.
  intros sep f S. induction f as [|l f IH]; intros N H; [congruence|]. destruct f as [|l2 f].
  - cbn. apply pieces_none. exact (Forall_inv H).
  - change (text_of (l :: l2 :: f)) with (fst l ++ String nl (text_of (l2 :: f)))%string. rewrite pieces_sep; [|exact (Forall_inv H)|exact S].
    rewrite IH; [reflexivity|discriminate|exact (Forall_inv_tail H)].
Qed.
Lemma text_all : forall (P : ascii -> Prop) f, P nl -> Forall (fun l => all_chars P (fst l)) f -> all_chars P (text_of f).
Proof.
  intros P f N. induction f as [|l f IH]; intros H; cbn; [exact I|]. destruct f as [|l2 f]; [exact (Forall_inv H)|].
  rewrite all_app. split; [exact (Forall_inv H)|]. split; [exact N|]. apply IH. exact (Forall_inv_tail H).
Qed.
Lemma fold_none : forall s, all_chars (fun c => nat_of_ascii c <> 13%nat) s -> fold_crlf s = s.
Proof.
  induction s as [|c s IH]; intros H; [reflexivity|]. destruct H as [A B]. cbn [fold_crlf]. destruct s as [|d s]; [reflexivity|].
  rewrite (proj2 (Nat.eqb_neq _ 13) A). cbn [andb]. now rewrite (IH B).
Qed.
Lemma nobreak_cr : forall c, is_break c = false -> nat_of_ascii c <> 13%nat.
Proof. intros c H E. unfold is_break in H. rewrite E in H. discriminate H. Qed.
Lemma wf_nobreak : forall f, well_formed f -> Forall (fun l => all_chars (fun c => is_break c = false) (fst l)) f.
Proof. intros f H. eapply Forall_impl; [|exact H]. intros l [A _]. eapply layout_nobreak; exact A. Qed.
Lemma nl_break : is_break nl = true. Proof. reflexivity. Qed.
Lemma splitlines_text : forall f, well_formed f -> f <> [] -> splitlines (text_of f) = drop_last_empty (map fst f).
Proof.
  intros f W N. unfold splitlines. rewrite fold_none.
  - rewrite pieces_text; [reflexivity|reflexivity|exact N|now apply wf_nobreak].
  - apply text_all; [discriminate|]. eapply Forall_impl; [|apply wf_nobreak; exact W]. intros l. apply all_impl. exact nobreak_cr.
Qed.

(** ** Words *)
Lemma words_space : forall c s, is_space c = true -> words (String c s) = words s.
Proof. intros c s H. unfold words. cbn [pieces]. rewrite H. reflexivity. Qed.
Lemma words_gap : forall g s, all_chars (fun c => is_space c = true) g -> words (g ++ s)%string = words s.
Proof. induction g as [|c g IH]; intros s H; [reflexivity|]. destruct H as [A B]. cbn [append]. rewrite words_space by exact A. now apply IH. Qed.
Lemma words_one : forall w, w <> EmptyString -> all_chars (fun c => is_space c = false) w -> words w = [w].
Proof. intros w N H. unfold words. rewrite (pieces_none _ _ H). destruct w; [congruence|reflexivity]. Qed.
Lemma words_cons : forall w c t, w <> EmptyString -> all_chars (fun c => is_space c = false) w -> is_space c = true -> words (w ++ String c t)%string = w :: words t.
Proof. intros w c t N H C. unfold words. rewrite (pieces_sep _ _ _ _ H C). destruct w; [congruence|reflexivity]. Qed.
Lemma gap_spaces : forall g, gap g -> all_chars (fun c => is_space c = true) g.
Proof. intros g. apply all_impl. intros c H. now apply gap_is_space. Qed.
Lemma word_nospace : forall w, word w -> w <> EmptyString /\ all_chars (fun c => is_space c = false) w.
Proof. intros w [N W]. split; [exact N|]. eapply all_impl; [|exact W]. intros c H. now apply visible_char. Qed.
Lemma append_nil : forall s : string, (s ++ EmptyString)%string = s.
Proof. induction s as [|c s IH]; [reflexivity|]. cbn. now rewrite IH. Qed.
Lemma words_layout : forall l ws, layout l ws -> words l = ws.
Proof.
  induction 1 as [g G|g w rest ws G W R H IH].
  - rewrite <- (append_nil g), words_gap by now apply gap_spaces. reflexivity.
  - rewrite words_gap by now apply gap_spaces. destruct (word_nospace w W) as [N A]. destruct R as [->|(c & r & -> & C)].
    + rewrite append_nil. rewrite (words_one w N A). f_equal. rewrite <- IH. reflexivity.
    + rewrite (words_cons w c r N A) by now apply gap_is_space. f_equal. rewrite <- IH. rewrite words_space by now apply gap_is_space. reflexivity.
Qed.
Lemma words_lstrip : forall s, words (lstrip s) = words s.
Proof. induction s as [|c s IH]; [reflexivity|]. cbn [lstrip]. destruct (is_space c) eqn:E; [|reflexivity]. rewrite words_space by exact E. exact IH. Qed.
Lemma pieces_rstrip : forall s, exists n, pieces is_space s = pieces is_space (rstrip s) ++ repeat EmptyString n.
Proof.
  induction s as [|c s [n IH]]; [exists 0%nat; reflexivity|]. cbn [rstrip pieces]. destruct (is_space c) eqn:E; cbn [andb].
  - destruct (is_empty (rstrip s)) eqn:Q.
    + destruct (rstrip s); [|discriminate Q]. cbn in IH. rewrite IH. exists (S n). reflexivity.
    + cbn [pieces]. rewrite E, IH. exists n. reflexivity.
  - cbn [pieces]. rewrite E, IH. exists n. pose proof (pieces_nonempty is_space (rstrip s)). destruct (pieces is_space (rstrip s)); [congruence|reflexivity].
Qed.
Lemma filter_empties : forall n, filter (fun w => negb (is_empty w)) (repeat EmptyString n) = [].
Proof. induction n; [reflexivity|exact IHn]. Qed.
Lemma words_rstrip : forall s, words (rstrip s) = words s.
Proof. intros s. unfold words. destruct (pieces_rstrip s) as [n E]. rewrite E, filter_app, filter_empties, app_nil_r. reflexivity. Qed.
Lemma words_strip : forall s, words (strip s) = words s.
Proof. intros s. unfold strip. now rewrite words_rstrip, words_lstrip. Qed.
Lemma words_start : forall c s, is_space c = false -> words (String c s) <> [].
Proof. intros c s H. unfold words. cbn [pieces]. rewrite H. destruct (pieces is_space s); cbn; discriminate. Qed.
Lemma strip_empty : forall s, is_empty (strip s) = match words s with [] => true | _ => false end.
Proof.
  intros s. rewrite <- (words_lstrip s). unfold strip.
  assert (K : lstrip s = EmptyString \/ exists c t, lstrip s = String c t /\ is_space c = false).
  { induction s as [|c s IH]; [now left|]. cbn [lstrip]. destruct (is_space c) eqn:E; [exact IH|]. right. now exists c, s. }
  destruct K as [->|(c & t & -> & E)]; [reflexivity|]. pose proof (words_start c t E). destruct (words (String c t)); [congruence|].
  cbn [rstrip]. rewrite E. reflexivity.
Qed.
Lemma table_words : forall s, table s = filter (fun ws => match ws with [] => false | _ => true end) (map words (pieces (Ascii.eqb nl) (sub_comments false s))).
Proof.
  intros s. unfold table. induction (pieces (Ascii.eqb nl) (sub_comments false s)) as [|p ps IH]; [reflexivity|]. cbn [map filter]. rewrite strip_empty.
  destruct (words p) eqn:E; cbn [negb map]; rewrite ?words_strip, ?E, IH; reflexivity.
Qed.

(** ** Comments *)
Lemma sub_skip : forall s t, all_chars (fun c => Ascii.eqb c nl = false) s -> sub_comments true (s ++ String nl t)%string = sub_comments false t.
Proof. induction s as [|c s IH]; intros t H; [reflexivity|]. destruct H as [A B]. cbn [append sub_comments]. rewrite A. now apply IH. Qed.
Lemma sub_keep : forall s t, all_chars (fun c => c <> "#"%char) s -> sub_comments false (s ++ t)%string = (s ++ sub_comments false t)%string.
Proof.
  induction s as [|c s IH]; intros t H; [reflexivity|]. destruct H as [A B]. cbn [append sub_comments]. assert (E : Ascii.eqb c hash = false) by (apply Ascii.eqb_neq; exact A).
  rewrite E. cbn [andb]. now rewrite (IH t B).
Qed.
Lemma has_nl : forall s t, has_char nl (s ++ String nl t)%string = true.
Proof. induction s as [|c s IH]; intros t; [reflexivity|]. cbn. rewrite IH. apply orb_true_r. Qed.
Lemma nobreak_nl : forall c, is_break c = false -> Ascii.eqb c nl = false.
Proof. intros c H. apply Ascii.eqb_neq. intros ->. discriminate H. Qed.
Lemma nobreak_nl' : forall c, is_break c = false -> Ascii.eqb nl c = false.
Proof. intros c H. rewrite Ascii.eqb_sym. now apply nobreak_nl. Qed.
Definition hashed (l : line) : bool := match fst l with String c _ => Ascii.eqb c "#" | EmptyString => false end.
Lemma hashed_comment : forall l, hashed l = true <-> comment_line l.
Proof.
  intros [[|c s] ws]; unfold hashed, comment_line; cbn [fst]; split; intros H; try discriminate H.
  - destruct H as [t H]. discriminate H.
  - apply Ascii.eqb_eq in H. subst. now exists s.
  - destruct H as [t H]. injection H as -> _. reflexivity.
Qed.
Lemma hashed_data : forall l, data_line l -> hashed l = false.
Proof. intros [[|c s] ws]; unfold hashed, data_line; cbn [fst]; [reflexivity|]. intros [A _]. now apply Ascii.eqb_neq. Qed.
Lemma is_comment_hashed : forall l, is_comment (fst l) = hashed l.
Proof.
  intros [[|c s] ws]; unfold hashed, is_comment; cbn [fst]; [reflexivity|]. cbn [prefix]. destruct (ascii_dec "#" c) as [<-|N]; [destruct s; reflexivity|].
  symmetry. apply Ascii.eqb_neq. congruence.
Qed.
Lemma sub_text : forall f, well_formed f -> ended f -> pieces (Ascii.eqb nl) (sub_comments false (text_of f)) = map fst (filter (fun l => negb (hashed l)) f).
Proof.
  intros f W (f0 & l & -> & D). induction f0 as [|x f0 IH]; cbn [app] in *.
  - cbn [text_of map filter]. rewrite (hashed_data l D). cbn [negb map]. pose proof (sub_keep (fst l) EmptyString D) as K. rewrite (append_nil (fst l)) in K. cbn [sub_comments] in K. rewrite (append_nil (fst l)) in K. rewrite K.
    apply pieces_none. eapply all_impl; [|exact (Forall_inv (wf_nobreak _ W))]. exact nobreak_nl'.
  - specialize (IH (Forall_inv_tail W)). assert (E : text_of (x :: f0 ++ [l]) = (fst x ++ String nl (text_of (f0 ++ [l])))%string) by (destruct f0; reflexivity).
    rewrite E. cbn [filter]. pose proof (Forall_inv (wf_nobreak _ W)) as NB. cbv beta in NB. destruct (Forall_inv W) as [_ [C|DX]].
    + rewrite (proj2 (hashed_comment x) C). cbn [negb]. destruct C as [t Et]. rewrite Et in NB |- *. destruct NB as [_ NB]. cbn [append sub_comments]. change (Ascii.eqb "#" hash) with true. rewrite has_nl. cbn [andb].
      rewrite sub_skip by (eapply all_impl; [exact nobreak_nl|exact NB]). exact IH.
    + rewrite (hashed_data x DX). cbn [negb map]. rewrite sub_keep by exact DX. change (sub_comments false (String nl (text_of (f0 ++ [l])))) with (String nl (sub_comments false (text_of (f0 ++ [l])))).
      rewrite pieces_sep; [now rewrite IH| |reflexivity]. eapply all_impl; [|exact NB]. exact nobreak_nl'.
Qed.
Lemma table_rows : forall f, well_formed f -> ended f -> table (text_of f) = rows f.
Proof.
  intros f W E. rewrite table_words, (sub_text f W E). unfold rows. clear E. induction f as [|l f IH]; [reflexivity|]. cbn [filter]. fold (hashed l).
  specialize (IH (Forall_inv_tail W)). rewrite <- (words_layout _ _ (proj1 (Forall_inv W))) in *. destruct (hashed l); cbn [negb].
  - rewrite IH. destruct (words (fst l)); reflexivity.
  - cbn [map filter]. destruct (words (fst l)) eqn:Q; rewrite IH; [reflexivity|]. cbn [map]. f_equal. rewrite <- (words_layout _ _ (proj1 (Forall_inv W))). symmetry. exact Q.
Qed.

(** ** Numbers *)
Lemma digits_acc : forall d acc b, int_digits (NilEmpty.string_of_uint d) (Zpos acc) b = if match d with Decimal.Nil => b | _ => true end then Some (Zpos (Pos.of_uint_acc d acc)) else None.
Proof.
  induction d; intros acc b; cbn [NilEmpty.string_of_uint int_digits Pos.of_uint_acc]; [reflexivity|..];
    match goal with |- (if is_digit ?c then _ else _) = _ => change (is_digit c) with true end; cbv iota;
    match goal with |- context[Z.of_nat ?e] => let v := eval vm_compute in (Z.of_nat e) in change (Z.of_nat e) with v end;
    match goal with |- int_digits _ ?x _ = Some (Zpos (Pos.of_uint_acc _ ?y)) => replace x with (Zpos y) by lia; rewrite IHd; destruct d; reflexivity end.
Qed.
Lemma digits_uint : forall d b, int_digits (NilEmpty.string_of_uint d) 0 b = if match d with Decimal.Nil => b | _ => true end then Some (Z.of_uint d) else None.
Proof.
  induction d; intros b; [reflexivity|..]; cbn [NilEmpty.string_of_uint int_digits];
    match goal with |- (if is_digit ?c then _ else _) = _ => change (is_digit c) with true end; cbv iota.
  1:{ change (10 * 0 + Z.of_nat (nat_of_ascii "0" - 48)) with 0. rewrite IHd. destruct d; reflexivity. }
  all: match goal with |- int_digits _ ?x _ = _ => let y := eval vm_compute in x in change x with y end; rewrite digits_acc; destruct d; reflexivity.
Qed.
Lemma py_int_str : forall z, py_int (str_of_Z z) = Some z.
Proof.
  intros z. unfold str_of_Z. pose proof (of_to z) as E. destruct (Z.to_int z) as [d|d] eqn:Q; cbn [NilEmpty.string_of_int].
  - assert (N : d <> Decimal.Nil) by (intros ->; destruct z; cbn in Q; try discriminate Q; injection Q as Q; now apply DecimalPos.Unsigned.to_uint_nonnil in Q).
    assert (G : py_int (NilEmpty.string_of_uint d) = int_digits (NilEmpty.string_of_uint d) 0 false) by (destruct d; try reflexivity; congruence).
    rewrite G, digits_uint. destruct d; try congruence; f_equal; exact E.
  - assert (N : d <> Decimal.Nil) by (intros ->; destruct z; cbn in Q; try discriminate Q; injection Q as Q; now apply DecimalPos.Unsigned.to_uint_nonnil in Q).
    cbn [py_int]. change (Ascii.eqb "-" "-") with true. cbv iota. rewrite digits_uint. destruct d; try congruence; cbn [option_map]; f_equal; exact E.
Qed.
