(** The readers of the sample data files. *)
From Coq Require Import Reals.
From Verif Require Import Base StorageModel StorageSpec StorageProofs IdfModel IdfSpec IdfProofs.
Open Scope Z_scope.

Lemma slice_0 n f : slice 0 n f = firstn n f. Proof. reflexivity. Qed.
Lemma after_header_is : after_header = (64 + 4 + 1024)%nat. Proof. reflexivity. Qed.

(** Forward: the fields of a file with the layout. *)
Section Fields.
Variables (f t c counts ws : list Z) (v : Z).
Hypothesis L : layout f t v c counts ws.
Let pre := t ++ int_bytes v ++ c.
Lemma pre_length : List.length pre = after_header.
Proof using L. destruct L as [A [_ [B _]]]. unfold pre. rewrite !app_length, A, B, int_bytes_length, after_header_is. lia. Qed.
Lemma f_is : f = pre ++ flat_map int_bytes counts ++ flat_map spec_word_bytes ws.
Proof using L. destruct L as [_ [_ [_ [_ [_ E]]]]]. rewrite E. unfold pre. rewrite <- !app_assoc. reflexivity. Qed.
Lemma header_ok : read_header f = Ok (t, v, c).
Proof using L.
  destruct L as [A [V [B [_ [_ E]]]]]. unfold read_header.
  assert (E1 : slice 0 64 f = t). { rewrite E. rewrite <- (app_nil_l (t ++ _)). apply slice_app; auto. }
  assert (E2 : slice 64 4 f = int_bytes v). { rewrite E. apply slice_app; auto. }
  assert (E3 : slice 68 1024 f = c). { rewrite E. rewrite app_assoc. apply slice_app; auto. rewrite app_length, A. reflexivity. }
  rewrite E1, E2, E3. rewrite unpack_s_ok by auto. cbn [bind]. rewrite unpack_i_int by auto. cbn [bind]. rewrite unpack_s_ok by auto. reflexivity.
Qed.
Lemma ints_length (l : list Z) : List.length (flat_map int_bytes l) = (4 * List.length l)%nat.
Proof. induction l; [reflexivity|]. cbn [flat_map List.length]. rewrite app_length, int_bytes_length, IHl. lia. Qed.
Lemma count_ok i n l1 l2 : counts = l1 ++ n :: l2 -> i = (after_header + 4 * List.length l1)%nat -> unpack_i (slice i 4 f) = Ok n.
Proof using L.
  intros C I. destruct L as [_ [_ [_ [N _]]]]. rewrite f_is, C, flat_map_app. cbn [flat_map]. rewrite <- !app_assoc. rewrite app_assoc.
  rewrite slice_app; [|rewrite app_length, pre_length, ints_length; auto|reflexivity].
  apply unpack_i_int. rewrite C in N. apply Forall_app in N. destruct N as [_ N]. inversion N. auto.
Qed.
Lemma rest_ok i : i = (after_header + 4 * List.length counts)%nat -> skipn i f = flat_map spec_word_bytes ws.
Proof using L. intros I. rewrite f_is. rewrite app_assoc. apply skipn_at. rewrite app_length, pre_length, ints_length. auto. Qed.
End Fields.

(** Backward: from fields to the layout. *)
Section Back.
Variable f : list Z.
Hypothesis B : Forall byte f.
Lemma unpack_i_inv i n : unpack_i (slice i 4 f) = Ok n -> int32 n /\ skipn i f = int_bytes n ++ skipn (i + 4) f.
Proof using B.
  unfold unpack_i. destruct (Z.of_nat (List.length (slice i 4 f)) =? 4) eqn:E; [|discriminate]. apply Z.eqb_eq in E. intros H.
  assert (n = le_signed 4 (slice i 4 f)) by congruence. subst n.
  destruct (four_bytes (slice i 4 f) ltac:(lia) (slice_byte _ _ _ B)) as [X Y]. split; [exact X|]. rewrite <- Y. apply slice_split.
Qed.
Lemma unpack_s_inv i n t : unpack_s n (slice i n f) = Ok t -> List.length t = n /\ skipn i f = t ++ skipn (i + n) f.
Proof using.
  unfold unpack_s. destruct (Z.of_nat (List.length (slice i n f)) =? Z.of_nat n) eqn:E; [|discriminate]. apply Z.eqb_eq in E. intros H.
  assert (t = slice i n f) by congruence. subst t. split; [lia|apply slice_split].
Qed.
Lemma unpack_d_inv n i ws : unpack_d n (skipn i f) = Ok ws -> Z.of_nat (List.length ws) = n /\ Forall wf_word ws /\ skipn i f = flat_map spec_word_bytes ws.
Proof using B.
  unfold unpack_d. destruct (n <? 0) eqn:N; [discriminate|]. apply Z.ltb_ge in N.
  destruct (Z.of_nat (List.length (skipn i f)) =? 8 * n) eqn:E; [|discriminate]. apply Z.eqb_eq in E. intros H.
  assert (ws = words_of (skipn i f)) by congruence. subst ws.
  destruct (bytes_words (Z.to_nat n) (skipn i f) ltac:(lia) (skipn_byte _ _ B)) as [P [Q W]]. split; [lia|]. split; auto.
Qed.
Lemma header_inv t v c : read_header f = Ok (t, v, c) ->
  List.length t = 64%nat /\ int32 v /\ List.length c = 1024%nat /\ f = t ++ int_bytes v ++ c ++ skipn after_header f.
Proof using B.
  unfold read_header. destruct (unpack_s 64 (slice 0 64 f)) as [t'|] eqn:T; [|discriminate]. cbn [bind].
  destruct (unpack_i (slice 64 4 f)) as [v'|] eqn:V; [|discriminate]. cbn [bind].
  destruct (unpack_s 1024 (slice 68 1024 f)) as [c'|] eqn:C; [|discriminate]. cbn [bind]. intros H.
  assert (t' = t) by congruence. assert (v' = v) by congruence. assert (c' = c) by congruence. subst.
  apply unpack_s_inv in T. apply unpack_i_inv in V. apply unpack_s_inv in C. destruct T as [T1 T2], V as [V1 V2], C as [C1 C2].
  split; [auto|]. split; [auto|]. split; [auto|].
  change (skipn 0 f) with f in T2. etransitivity; [exact T2|]. f_equal. change (0 + 64)%nat with 64%nat. rewrite V2. f_equal. change (64 + 4)%nat with 68%nat. exact C2.
Qed.
Lemma make_info_inv t v c i : make_info t v c = Ok i <-> i_ver i = v /\ stripped t (i_type i) /\ stripped c (i_text i) /\ ascii (i_type i) /\ ascii (i_text i).
Proof using.
  unfold make_info, decode_bytes. pose proof (strip_spec t) as T. pose proof (strip_spec c) as C. split.
  - destruct (forallb _ (strip0 t)) eqn:A; [|discriminate]. cbn [bind]. destruct (forallb _ (strip0 c)) eqn:A2; [|discriminate]. cbn [bind].
    apply ascii_b in A. apply ascii_b in A2. intros H. assert (i = mkInfo (strip0 t) v (strip0 c)) by congruence. subst i. cbn. auto.
  - intros [V [T2 [C2 [A A2]]]]. apply strip_unique in T2. apply strip_unique in C2. destruct i as [it iv ix]. cbn in *. subst.
    rewrite (ascii_t _ A). cbn [bind]. rewrite (ascii_t _ A2). reflexivity.
Qed.
End Back.
Lemma set_shape_inv sh ws a : set_shape sh ws = Ok a <-> Forall (fun n => 0 <= n) sh /\ a = mkArr sh ws.
Proof.
  unfold set_shape. destruct (forallb _ sh) eqn:F.
  - rewrite forallb_forall in F. split.
    + intros H. split; [|congruence]. rewrite Forall_forall. intros x X. apply Z.leb_le. auto.
    + intros [_ ->]. reflexivity.
  - split; [discriminate|]. intros [H _]. rewrite Forall_forall in H. exfalso. assert (forallb (fun n => 0 <=? n) sh = true); [|congruence].
    rewrite forallb_forall. intros x X. apply Z.leb_le. auto.
Qed.

Lemma E_read_iff f name v text shape ws : Forall byte f ->
  (E_read f = Ok (mkInfo name v text, mkArr shape ws) <-> exists n, shape = [n] /\ holds f name v text [n] [n] ws).
Proof.
  intros B. unfold E_read. split.
  - destruct (read_header f) as [[[t v'] c]|] eqn:H; [|discriminate]. cbn [bind].
    destruct (unpack_i _) as [n|] eqn:N; [|discriminate]. cbn [bind]. destruct (unpack_d _ _) as [w|] eqn:W; [|discriminate]. cbn [bind].
    destruct (make_info _ _ _) as [i|] eqn:I; [|discriminate]. cbn [bind]. intros E.
    assert (i = mkInfo name v text) by congruence. assert (shape = [n]) by congruence. assert (w = ws) by congruence. subst. clear E.
    apply (header_inv f B) in H. apply (unpack_i_inv f B) in N. apply (unpack_d_inv f B) in W. apply (proj1 (make_info_inv t _ c _)) in I.
    destruct H as [H1 [H2 [H3 H4]]], N as [N1 N2], W as [W1 [W2 W3]], I as [I1 [I2 [I3 [I4 I5]]]]. cbn in I1, I2, I3, I4, I5. subst v'.
    exists n. split; [auto|]. exists t, c. split; [|split; [auto|split; [auto|split; [auto|split; [auto|]]]]].
    + split; [auto|]. split; [auto|]. split; [auto|]. split; [repeat constructor; auto; apply N1|]. split; [auto|].
      rewrite H4, N2, W3. cbn [flat_map]. rewrite app_nil_r. reflexivity.
    + split; [|split; [auto|]]. { apply Forall_cons; [lia|apply Forall_nil]. } unfold count. cbn [fold_right]. lia.
  - intros [n [-> [t [c [L [T [C [A1 [A2 [P [W K]]]]]]]]]]].
    rewrite (header_ok f t c [n] ws v L). cbn [bind]. rewrite (count_ok f t c [n] ws v L after_header n [] []) by reflexivity. cbn [bind].
    rewrite (rest_ok f t c [n] ws v L) by reflexivity. rewrite unpack_d_ok; [|auto|unfold count in K; cbn [fold_right] in K; lia]. cbn [bind].
    rewrite (proj2 (make_info_inv t v c (mkInfo name v text))) by (cbn; auto). reflexivity.
Qed.
Lemma Q_read_iff f name v text shape ws : Forall byte f ->
  (Q_read f = Ok (mkInfo name v text, mkArr shape ws) <-> exists n d, shape = [n; d] /\ holds f name v text [d; n] [n; d] ws).
Proof.
  intros B. unfold Q_read. split.
  - destruct (read_header f) as [[[t v'] c]|] eqn:H; [|discriminate]. cbn [bind].
    destruct (unpack_i (slice after_header 4 f)) as [d|] eqn:D; [|discriminate]. cbn [bind].
    destruct (unpack_i (slice (after_header + 4) 4 f)) as [n|] eqn:N; [|discriminate]. cbn [bind]. destruct (unpack_d (n * d) (skipn (after_header + 8) f)) as [w|] eqn:W; [|discriminate]. cbn [bind].
    destruct (set_shape [n; d] w) as [a|] eqn:S; [|discriminate]. cbn [bind].
    destruct (make_info t v' c) as [i|] eqn:I; [|discriminate]. cbn [bind]. intros E.
    apply set_shape_inv in S. destruct S as [S1 S2]. subst a.
    assert (i = mkInfo name v text) by congruence. assert (shape = [n; d]) by congruence. assert (w = ws) by congruence. subst. clear E.
    apply (header_inv f B) in H. apply (unpack_i_inv f B) in D. apply (unpack_i_inv f B) in N. apply (unpack_d_inv f B) in W. apply (proj1 (make_info_inv t _ c _)) in I.
    destruct H as [H1 [H2 [H3 H4]]], D as [D1 D2], N as [N1 N2], W as [W1 [W2 W3]], I as [I1 [I2 [I3 [I4 I5]]]]. cbn in I1, I2, I3, I4, I5. subst v'.
    exists n, d. split; [auto|]. exists t, c. split; [|split; [auto|split; [auto|split; [auto|split; [auto|]]]]].
    + split; [auto|]. split; [auto|]. split; [auto|]. split; [apply Forall_cons; [auto|apply Forall_cons; auto]|]. split; [auto|].
      rewrite H4, D2, N2. replace (after_header + 4 + 4)%nat with (after_header + 8)%nat by lia. rewrite W3. cbn [flat_map]. rewrite app_nil_r, <- app_assoc. reflexivity.
    + split; [auto|split; [auto|]]. unfold count. cbn [fold_right]. lia.
  - intros [n [d [-> [t [c [L [T [C [A1 [A2 [P [W K]]]]]]]]]]]].
    rewrite (header_ok f t c [d; n] ws v L). cbn [bind]. rewrite (count_ok f t c [d; n] ws v L after_header d [] [n]) by reflexivity. cbn [bind].
    rewrite (count_ok f t c [d; n] ws v L (after_header + 4) n [d] []) by reflexivity. cbn [bind].
    rewrite (rest_ok f t c [d; n] ws v L) by reflexivity. rewrite unpack_d_ok; [|auto|unfold count in K; cbn [fold_right] in K; lia]. cbn [bind].
    rewrite (proj2 (set_shape_inv [n; d] ws (mkArr [n; d] ws))) by auto. cbn [bind].
    rewrite (proj2 (make_info_inv t v c (mkInfo name v text))) by (cbn; auto). reflexivity.
Qed.
Lemma Sqe_read_iff f name v text shape ws : Forall byte f ->
  (Sqe_read f = Ok (mkInfo name v text, mkArr shape ws) <-> exists n d, shape = [n; d] /\ holds f name v text [n; d] [n; d] ws).
Proof.
  intros B. unfold Sqe_read. split.
  - destruct (read_header f) as [[[t v'] c]|] eqn:H; [|discriminate]. cbn [bind].
    destruct (unpack_i (slice after_header 4 f)) as [d|] eqn:D; [|discriminate]. cbn [bind].
    destruct (unpack_i (slice (after_header + 4) 4 f)) as [n|] eqn:N; [|discriminate]. cbn [bind]. destruct (unpack_d (d * n) (skipn (after_header + 8) f)) as [w|] eqn:W; [|discriminate]. cbn [bind].
    destruct (set_shape [d; n] w) as [a|] eqn:S; [|discriminate]. cbn [bind].
    destruct (make_info t v' c) as [i|] eqn:I; [|discriminate]. cbn [bind]. intros E.
    apply set_shape_inv in S. destruct S as [S1 S2]. subst a.
    assert (i = mkInfo name v text) by congruence. assert (shape = [d; n]) by congruence. assert (w = ws) by congruence. subst. clear E.
    apply (header_inv f B) in H. apply (unpack_i_inv f B) in D. apply (unpack_i_inv f B) in N. apply (unpack_d_inv f B) in W. apply (proj1 (make_info_inv t _ c _)) in I.
    destruct H as [H1 [H2 [H3 H4]]], D as [D1 D2], N as [N1 N2], W as [W1 [W2 W3]], I as [I1 [I2 [I3 [I4 I5]]]]. cbn in I1, I2, I3, I4, I5. subst v'.
    exists d, n. split; [auto|]. exists t, c. split; [|split; [auto|split; [auto|split; [auto|split; [auto|]]]]].
    + split; [auto|]. split; [auto|]. split; [auto|]. split; [apply Forall_cons; [auto|apply Forall_cons; auto]|]. split; [auto|].
      rewrite H4, D2, N2. replace (after_header + 4 + 4)%nat with (after_header + 8)%nat by lia. rewrite W3. cbn [flat_map]. rewrite app_nil_r, <- app_assoc. reflexivity.
    + split; [auto|split; [auto|]]. unfold count. cbn [fold_right]. lia.
  - intros [d [n [-> [t [c [L [T [C [A1 [A2 [P [W K]]]]]]]]]]]].
    rewrite (header_ok f t c [d; n] ws v L). cbn [bind]. rewrite (count_ok f t c [d; n] ws v L after_header d [] [n]) by reflexivity. cbn [bind].
    rewrite (count_ok f t c [d; n] ws v L (after_header + 4) n [d] []) by reflexivity. cbn [bind].
    rewrite (rest_ok f t c [d; n] ws v L) by reflexivity. rewrite unpack_d_ok; [|auto|unfold count in K; cbn [fold_right] in K; lia]. cbn [bind].
    rewrite (proj2 (set_shape_inv [d; n] ws (mkArr [d; n] ws))) by auto. cbn [bind].
    rewrite (proj2 (make_info_inv t v c (mkInfo name v text))) by (cbn; auto). reflexivity.
Qed.
Lemma text_eqb_iff a b : text_eqb a b = true <-> a = b.
Proof. unfold text_eqb. destruct (list_eq_dec Z.eq_dec a b); split; congruence. Qed.
Lemma Omega2_read_iff f name v text shape ws : Forall byte f ->
  (Omega2_read f = Ok (mkInfo name v text, mkArr shape ws) <->
   name = name_Omega2 /\ exists q b D, shape = [q; b * D] /\ holds f name v text [D; b; q] [q; b * D] ws).
Proof.
  intros B. unfold Omega2_read. split.
  - destruct (read_header f) as [[[t v'] c]|] eqn:H; [|discriminate]. cbn [bind].
    destruct (unpack_i (slice after_header 4 f)) as [d|] eqn:D; [|discriminate]. cbn [bind].
    destruct (unpack_i (slice (after_header + 4) 4 f)) as [n|] eqn:N; [|discriminate]. cbn [bind].
    destruct (unpack_i (slice (after_header + 8) 4 f)) as [q|] eqn:Q; [|discriminate]. cbn [bind].
    destruct (unpack_d (q * n * d) (skipn (after_header + 12) f)) as [w|] eqn:W; [|discriminate]. cbn [bind].
    destruct (set_shape [q; n * d] w) as [a|] eqn:S; [|discriminate]. cbn [bind].
    destruct (decode_bytes (strip0 t)) as [ft|] eqn:F; [|discriminate]. cbn [bind].
    destruct (text_eqb ft nOmega2) eqn:TE; [|discriminate]. apply (proj1 (text_eqb_iff _ _)) in TE.
    destruct (make_info t v' c) as [i|] eqn:I; [|discriminate]. cbn [bind]. intros E.
    apply set_shape_inv in S. destruct S as [S1 S2]. subst a.
    assert (i = mkInfo name v text) by congruence. assert (shape = [q; n * d]) by congruence. assert (w = ws) by congruence. subst. clear E.
    apply (header_inv f B) in H. apply (unpack_i_inv f B) in D. apply (unpack_i_inv f B) in N. apply (unpack_i_inv f B) in Q. apply (unpack_d_inv f B) in W.
    apply (proj1 (make_info_inv t _ c _)) in I.
    destruct H as [H1 [H2 [H3 H4]]], D as [D1 D2], N as [N1 N2], Q as [Q1 Q2], W as [W1 [W2 W3]], I as [I1 [I2 [I3 [I4 I5]]]]. cbn in I1, I2, I3, I4, I5. subst v'.
    assert (NM : name = name_Omega2).
    { unfold decode_bytes in F. destruct (forallb _ _); [|discriminate]. rewrite (strip_unique _ _ I2) in F. unfold nOmega2 in F. unfold name_Omega2. congruence. }
    split; [exact NM|].
    exists q, n, d. split; [auto|]. exists t, c. split; [|split; [auto|split; [auto|split; [auto|split; [auto|]]]]].
    + split; [auto|]. split; [auto|]. split; [auto|]. split; [apply Forall_cons; [auto|apply Forall_cons; [auto|apply Forall_cons; auto]]|]. split; [auto|].
      rewrite H4, D2, N2. replace (after_header + 4 + 4)%nat with (after_header + 8)%nat by lia. rewrite Q2.
      replace (after_header + 8 + 4)%nat with (after_header + 12)%nat by lia. rewrite W3. cbn [flat_map]. rewrite app_nil_r, <- !app_assoc. reflexivity.
    + split; [auto|split; [auto|]]. unfold count. cbn [fold_right]. lia.
  - intros [NM [q [n [d [-> [t [c [L [T [C [A1 [A2 [P [W K]]]]]]]]]]]]]].
    rewrite (header_ok f t c [d; n; q] ws v L). cbn [bind]. rewrite (count_ok f t c [d; n; q] ws v L after_header d [] [n; q]) by reflexivity. cbn [bind].
    rewrite (count_ok f t c [d; n; q] ws v L (after_header + 4) n [d] [q]) by reflexivity. cbn [bind].
    rewrite (count_ok f t c [d; n; q] ws v L (after_header + 8) q [d; n] []) by reflexivity. cbn [bind].
    rewrite (rest_ok f t c [d; n; q] ws v L) by reflexivity. rewrite unpack_d_ok; [|auto|unfold count in K; cbn [fold_right] in K; lia]. cbn [bind].
    rewrite (proj2 (set_shape_inv [q; n * d] ws (mkArr [q; n * d] ws))) by auto. cbn [bind].
    unfold decode_bytes at 1. rewrite (strip_unique _ _ T). rewrite (ascii_t _ A1). cbn [bind].
    rewrite (proj2 (text_eqb_iff name nOmega2)) by exact NM.
    rewrite (proj2 (make_info_inv t v c (mkInfo name v text))) by (cbn; auto). reflexivity.
Qed.
Lemma Pol_read_iff f name v text shape ws : Forall byte f ->
  (Pol_read f = Ok (mkInfo name v text, mkArr shape ws) <->
   exists q b D, shape = [q; b * D; b; D; 2] /\ holds f name v text [D; b; q] [q; b * D; b; D; 2] ws).
Proof.
  intros B. unfold Pol_read. split.
  - destruct (read_header f) as [[[t v'] c]|] eqn:H; [|discriminate]. cbn [bind].
    destruct (unpack_i (slice after_header 4 f)) as [d|] eqn:D; [|discriminate]. cbn [bind].
    destruct (unpack_i (slice (after_header + 4) 4 f)) as [n|] eqn:N; [|discriminate]. cbn [bind].
    destruct (unpack_i (slice (after_header + 8) 4 f)) as [q|] eqn:Q; [|discriminate]. cbn [bind].
    destruct (unpack_d (q * n * d * n * d * 2) (skipn (after_header + 12) f)) as [w|] eqn:W; [|discriminate]. cbn [bind].
    destruct (set_shape [q; n * d; n; d; 2] w) as [a|] eqn:S; [|discriminate]. cbn [bind].
    destruct (make_info t v' c) as [i|] eqn:I; [|discriminate]. cbn [bind]. intros E.
    apply set_shape_inv in S. destruct S as [S1 S2]. subst a.
    assert (i = mkInfo name v text) by congruence. assert (shape = [q; n * d; n; d; 2]) by congruence. assert (w = ws) by congruence. subst. clear E.
    apply (header_inv f B) in H. apply (unpack_i_inv f B) in D. apply (unpack_i_inv f B) in N. apply (unpack_i_inv f B) in Q. apply (unpack_d_inv f B) in W.
    apply (proj1 (make_info_inv t _ c _)) in I.
    destruct H as [H1 [H2 [H3 H4]]], D as [D1 D2], N as [N1 N2], Q as [Q1 Q2], W as [W1 [W2 W3]], I as [I1 [I2 [I3 [I4 I5]]]]. cbn in I1, I2, I3, I4, I5. subst v'.
    exists q, n, d. split; [auto|]. exists t, c. split; [|split; [auto|split; [auto|split; [auto|split; [auto|]]]]].
    + split; [auto|]. split; [auto|]. split; [auto|]. split; [apply Forall_cons; [auto|apply Forall_cons; [auto|apply Forall_cons; auto]]|]. split; [auto|].
      rewrite H4, D2, N2. replace (after_header + 4 + 4)%nat with (after_header + 8)%nat by lia. rewrite Q2.
      replace (after_header + 8 + 4)%nat with (after_header + 12)%nat by lia. rewrite W3. cbn [flat_map]. rewrite app_nil_r, <- !app_assoc. reflexivity.
    + split; [auto|split; [auto|]]. unfold count. cbn [fold_right]. rewrite W1. ring.
  - intros [q [n [d [-> [t [c [L [T [C [A1 [A2 [P [W K]]]]]]]]]]]]].
    rewrite (header_ok f t c [d; n; q] ws v L). cbn [bind]. rewrite (count_ok f t c [d; n; q] ws v L after_header d [] [n; q]) by reflexivity. cbn [bind].
    rewrite (count_ok f t c [d; n; q] ws v L (after_header + 4) n [d] [q]) by reflexivity. cbn [bind].
    rewrite (count_ok f t c [d; n; q] ws v L (after_header + 8) q [d; n] []) by reflexivity. cbn [bind].
    rewrite (rest_ok f t c [d; n; q] ws v L) by reflexivity. rewrite unpack_d_ok; [|auto|unfold count in K; cbn [fold_right] in K; rewrite K; ring]. cbn [bind].
    rewrite (proj2 (set_shape_inv [q; n * d; n; d; 2] ws (mkArr [q; n * d; n; d; 2] ws))) by auto. cbn [bind].
    rewrite (proj2 (make_info_inv t v c (mkInfo name v text))) by (cbn; auto). reflexivity.
Qed.
