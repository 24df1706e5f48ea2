(** The writers of the sample data files. *)
From Coq Require Import Reals.
From Verif Require Import Base StorageModel StorageSpec StorageProofs IdfModel IdfSpec IdfProofs IdfProofs2.
Open Scope Z_scope.

Lemma pack_i_ok n : int32 n -> pack_i n = Ok (int_bytes n).
Proof. intros [A B]. unfold pack_i. rewrite (proj2 (Z.leb_le _ _) A), (proj2 (Z.ltb_lt _ _) B), int_bytes_le. reflexivity. Qed.
Lemma pack_i_inv n b : pack_i n = Ok b -> int32 n /\ b = int_bytes n.
Proof.
  unfold pack_i. destruct ((- 2 ^ 31 <=? n) && (n <? 2 ^ 31)) eqn:E; [|discriminate]. apply andb_true_iff in E. rewrite Z.leb_le, Z.ltb_lt in E.
  intros H. split; [exact E|]. rewrite <- int_bytes_le. congruence.
Qed.
Lemma pack_i_err n e : pack_i n = Err e -> ~ int32 n.
Proof. intros H I. rewrite pack_i_ok in H by auto. discriminate H. Qed.
Definition head_bytes (nm c : list Z) : list Z := spec_pad 64 nm ++ [1; 0; 0; 0] ++ spec_pad 1024 (firstn 1024 c).
Lemma header_written nm c rest : (List.length nm <= 64)%nat -> ascii c -> written (header nm c ++ rest) = (head_bytes nm c ++ fst (written rest), snd (written rest)).
Proof.
  intros N A. unfold header. cbn [app written pack_name]. unfold pack_name, pack_comment, encode_ascii. rewrite (ascii_t _ A). cbn [bind].
  change (pack_i 1) with (Ok (A := list Z) (le_bytes 4 1)). cbn [written]. destruct (written rest) as [fb e]. cbn [fst snd].
  rewrite !pack_pad. rewrite (firstn_all2 nm) by auto. unfold head_bytes. rewrite <- !app_assoc. reflexivity.
Qed.
Lemma header_refused nm c rest : (List.length nm <= 64)%nat -> ~ ascii c -> written (header nm c ++ rest) = (spec_pad 64 nm ++ [1; 0; 0; 0], Some UnicodeError).
Proof.
  intros N A. unfold header. cbn [app written pack_name]. unfold pack_name, pack_comment, encode_ascii. rewrite (ascii_f _ A). cbn [bind].
  change (pack_i 1) with (Ok (A := list Z) (le_bytes 4 1)). cbn [written]. rewrite pack_pad, (firstn_all2 nm) by auto. rewrite app_nil_r. reflexivity.
Qed.
Lemma head_length nm c : (List.length nm <= 64)%nat -> List.length (head_bytes nm c) = after_header.
Proof.
  intros. unfold head_bytes. rewrite !app_length, !pad_length; [reflexivity| |auto].
  rewrite firstn_length. apply Nat.le_min_l.
Qed.
Lemma data_file_is nm c counts ws : data_file nm c counts ws = head_bytes nm c ++ flat_map int_bytes counts ++ flat_map spec_word_bytes ws.
Proof. unfold data_file, head_bytes. rewrite <- !app_assoc. reflexivity. Qed.
Lemma ascii_dec s : ascii s \/ ~ ascii s.
Proof. destruct (forallb (fun c => (0 <=? c) && (c <? 128)) s) eqn:F; [left; apply ascii_b; auto|right; intros A; apply ascii_b in A; congruence]. Qed.

(** Files made by the writers have the layout. *)
Lemma pad_byte n s : Forall byte s -> Forall byte (spec_pad n s).
Proof. intros. apply Forall_app. split; auto. induction (n - List.length s)%nat; cbn; constructor; auto. unfold byte. lia. Qed.
Lemma ascii_bytes s : ascii s -> Forall byte s.
Proof. unfold ascii. apply Forall_impl. unfold byte. intros. lia. Qed.
Lemma word_bytes_byte w : Forall byte (spec_word_bytes w).
Proof. rewrite <- le_bytes_spec. cbn [le_bytes]. repeat (apply Forall_cons; [unfold byte; apply Z.mod_pos_bound; lia|]). apply Forall_nil. Qed.
Lemma flat_byte (g : Z -> list Z) l : (forall x, Forall byte (g x)) -> Forall byte (flat_map g l).
Proof. intros H. induction l; cbn; [constructor|]. apply Forall_app. auto. Qed.
Lemma data_file_byte nm c counts ws : ascii nm -> ascii c -> Forall byte (data_file nm c counts ws).
Proof.
  intros N A. unfold data_file. apply Forall_app. split; [apply pad_byte, ascii_bytes; auto|].
  apply Forall_app. split. { repeat (apply Forall_cons; [unfold byte; lia|]). apply Forall_nil. }
  apply Forall_app. split; [apply pad_byte, ascii_bytes, ascii_firstn; auto|].
  apply Forall_app. split; apply flat_byte; [apply int_bytes_byte|apply word_bytes_byte].
Qed.
Lemma data_file_layout nm c counts ws : (List.length nm <= 64)%nat -> Forall int32 counts -> Forall wf_word ws ->
  layout (data_file nm c counts ws) (spec_pad 64 nm) 1 (spec_pad 1024 (firstn 1024 c)) counts ws.
Proof.
  intros N C W. split; [apply pad_length; auto|]. split; [unfold int32; lia|]. split; [apply pad_length; rewrite firstn_length; apply Nat.le_min_l|].
  split; [auto|]. split; [auto|]. reflexivity.
Qed.
Lemma data_file_holds nm c counts shape ws text : (List.length nm <= 64)%nat -> ascii nm -> hd 1 nm <> 0 -> last nm 1 <> 0 -> ascii c -> stripped (firstn 1024 c) text ->
  Forall int32 counts -> array shape ws -> holds (data_file nm c counts ws) nm 1 text counts shape ws.
Proof.
  intros N AN H0 H1 A T C K. exists (spec_pad 64 nm), (spec_pad 1024 (firstn 1024 c)). split; [apply data_file_layout; auto; apply K|].
  split. { apply pad_strip. exists 0%nat, 0%nat. cbn [repeat app]. rewrite app_nil_r. auto. }
  split; [apply pad_strip; auto|]. split; [auto|]. split; [|auto].
  apply (ascii_strip _ _ T). apply ascii_firstn. auto.
Qed.

Lemma size_count sh : size_of sh = count sh. Proof. reflexivity. Qed.
Lemma int32_lt n : int32 n -> n < 2 ^ 31. Proof. unfold int32. lia. Qed.
Lemma lt_int32 n : 0 <= n -> n < 2 ^ 31 -> int32 n. Proof. unfold int32. lia. Qed.

(** E *)
Lemma E_write_iff shape ws comment f : array shape ws ->
  (E_write (mkArr shape ws) comment = (f, None) <->
   ascii comment /\ exists n rest, shape = n :: rest /\ n < 2 ^ 31 /\ (n = 0 \/ count rest = 1) /\ f = data_file name_E comment [n] ws).
Proof.
  intros K. unfold E_write. destruct (ascii_dec comment) as [A|A].
  2: { rewrite header_refused by (auto; cbn; lia). split; [discriminate|tauto]. }
  rewrite header_written by (auto; cbn; lia). destruct shape as [|n rest].
  - cbn. split; [discriminate|]. intros [_ [n [r [H _]]]]. discriminate H.
  - unfold shape_at. cbn [a_shape nth_error bind]. assert (P : 0 <= n) by (destruct K as [K _]; inversion K; auto).
    cbn [written]. destruct (pack_i n) as [b|e] eqn:PI.
    2: { apply pack_i_err in PI. cbn [written fst snd]. split; [discriminate|]. intros [_ [m [r [H [H2 _]]]]]. assert (m = n) by congruence. subst. exfalso. apply PI. apply lt_int32; [assumption|tauto]. }
    apply pack_i_inv in PI. destruct PI as [PI ->]. cbn [written]. unfold pack_rows. cbn [a_shape a_data]. rewrite size_count.
    destruct ((n =? 0) || (count rest =? 1)) eqn:C.
    + unfold pack_d. cbn [fst snd]. rewrite app_nil_r, words_are. apply orb_true_iff in C. rewrite !Z.eqb_eq in C.
      split.
      * intros H. assert (F : f = head_bytes nE comment ++ int_bytes n ++ flat_map spec_word_bytes ws) by congruence. split; [auto|]. exists n, rest.
        split; [auto|]. split; [apply int32_lt; assumption|]. split; [auto|]. rewrite F, data_file_is. cbn [flat_map]. rewrite app_nil_r. reflexivity.
      * intros [_ [m [r [H [_ [_ ->]]]]]]. assert (m = n) by congruence. subst m. rewrite data_file_is. cbn [flat_map]. rewrite app_nil_r. reflexivity.
    + cbn [fst snd]. apply orb_false_iff in C. rewrite !Z.eqb_neq in C. split; [discriminate|].
      intros [_ [m [r [H [_ [D _]]]]]]. assert (m = n) by congruence. assert (r = rest) by congruence. subst. tauto.
Qed.
(** Q *)
Lemma Q_write_iff shape ws comment f : array shape ws ->
  (Q_write (mkArr shape ws) comment = (f, None) <->
   ascii comment /\ exists n d rest, shape = n :: d :: rest /\ n < 2 ^ 31 /\ d < 2 ^ 31 /\ f = data_file name_Q comment [d; n] ws).
Proof.
  intros K. unfold Q_write. destruct (ascii_dec comment) as [A|A].
  2: { rewrite header_refused by (auto; cbn; lia). split; [discriminate|tauto]. }
  rewrite header_written by (auto; cbn; lia). unfold shape_at. cbn [a_shape a_data].
  destruct shape as [|n [|d rest]].
  - cbn. split; [discriminate|]. intros [_ [n [d [r [H _]]]]]. discriminate H.
  - cbn. split; [discriminate|]. intros [_ [m [d [r [H _]]]]]. discriminate H.
  - cbn [nth_error bind]. assert (P : 0 <= n /\ 0 <= d) by (destruct K as [K _]; inversion K as [|? ? ? K2]; inversion K2; auto).
    cbn [written]. destruct (pack_i d) as [b|e] eqn:PD.
    2: { apply pack_i_err in PD. cbn [written fst snd]. split; [discriminate|]. intros [_ [m [d' [r [H [_ [H2 _]]]]]]]. assert (d' = d) by congruence. subst. exfalso. apply PD. apply lt_int32; tauto. }
    apply pack_i_inv in PD. destruct PD as [PD ->]. cbn [written]. destruct (pack_i n) as [b|e] eqn:PN.
    2: { apply pack_i_err in PN. cbn [written fst snd]. split; [discriminate|]. intros [_ [m [d' [r [H [H2 _]]]]]]. assert (m = n) by congruence. subst. exfalso. apply PN. apply lt_int32; tauto. }
    apply pack_i_inv in PN. destruct PN as [PN ->]. unfold pack_d. cbn [written fst snd]. rewrite app_nil_r, words_are. split.
    + intros H. assert (F : f = head_bytes nQ comment ++ int_bytes d ++ int_bytes n ++ flat_map spec_word_bytes ws) by congruence. split; [auto|]. exists n, d, rest.
      split; [auto|]. split; [apply int32_lt; assumption|]. split; [apply int32_lt; assumption|]. rewrite F, data_file_is. cbn [flat_map]. rewrite app_nil_r, <- app_assoc. reflexivity.
    + intros [_ [m [d' [r [H [_ [_ ->]]]]]]]. assert (m = n) by congruence. assert (d' = d) by congruence. subst m d'. rewrite data_file_is. cbn [flat_map]. rewrite app_nil_r, <- app_assoc. reflexivity.
Qed.
(** Sqe *)
Lemma Sqe_write_iff shape ws comment f : array shape ws ->
  (Sqe_write (mkArr shape ws) comment = (f, None) <->
   ascii comment /\ exists n d rest, shape = n :: d :: rest /\ n < 2 ^ 31 /\ d < 2 ^ 31 /\ f = data_file name_Sqe comment [n; d] ws).
Proof.
  intros K. unfold Sqe_write. destruct (ascii_dec comment) as [A|A].
  2: { rewrite header_refused by (auto; cbn; lia). split; [discriminate|tauto]. }
  rewrite header_written by (auto; cbn; lia). unfold shape_at. cbn [a_shape a_data].
  destruct shape as [|n [|d rest]].
  - cbn. split; [discriminate|]. intros [_ [n [d [r [H _]]]]]. discriminate H.
  - cbn [nth_error bind written]. split; [|intros [_ [m [d [r [H _]]]]]; discriminate H]. destruct (pack_i n); cbn [written fst snd]; discriminate.
  - cbn [nth_error bind]. assert (P : 0 <= n /\ 0 <= d) by (destruct K as [K _]; inversion K as [|? ? ? K2]; inversion K2; auto).
    cbn [written]. destruct (pack_i n) as [b|e] eqn:PN.
    2: { apply pack_i_err in PN. cbn [written fst snd]. split; [discriminate|]. intros [_ [m [d' [r [H [H2 _]]]]]]. assert (m = n) by congruence. subst. exfalso. apply PN. apply lt_int32; tauto. }
    apply pack_i_inv in PN. destruct PN as [PN ->]. cbn [written]. destruct (pack_i d) as [b|e] eqn:PD.
    2: { apply pack_i_err in PD. cbn [written fst snd]. split; [discriminate|]. intros [_ [m [d' [r [H [_ [H2 _]]]]]]]. assert (d' = d) by congruence. subst. exfalso. apply PD. apply lt_int32; tauto. }
    apply pack_i_inv in PD. destruct PD as [PD ->]. unfold pack_d. cbn [written fst snd]. rewrite app_nil_r, words_are. split.
    + intros H. assert (F : f = head_bytes nSqe comment ++ int_bytes n ++ int_bytes d ++ flat_map spec_word_bytes ws) by congruence. split; [auto|]. exists n, d, rest.
      split; [auto|]. split; [apply int32_lt; assumption|]. split; [apply int32_lt; assumption|]. rewrite F, data_file_is. cbn [flat_map]. rewrite app_nil_r, <- app_assoc. reflexivity.
    + intros [_ [m [d' [r [H [_ [_ ->]]]]]]]. assert (m = n) by congruence. assert (d' = d) by congruence. subst m d'. rewrite data_file_is. cbn [flat_map]. rewrite app_nil_r, <- app_assoc. reflexivity.
Qed.
(** Omega2 *)
Lemma Omega2_write_iff shape ws comment D f : array shape ws ->
  (Omega2_write (mkArr shape ws) comment D = (f, None) <->
   ascii comment /\ exists n s rest, shape = n :: s :: rest /\ n < 2 ^ 31 /\ int32 D /\ D <> 0 /\ int32 (s / D) /\ f = data_file name_Omega2 comment [D; s / D; n] ws).
Proof.
  intros K. unfold Omega2_write. destruct (ascii_dec comment) as [A|A].
  2: { rewrite header_refused by (auto; cbn; lia). split; [discriminate|tauto]. }
  rewrite header_written by (auto; cbn; lia). unfold shape_at. cbn [a_shape a_data written].
  destruct (pack_i D) as [b|e] eqn:PD.
  2: { apply pack_i_err in PD. cbn [fst snd]. split; [discriminate|]. intros [_ [m [s [r [H [_ [H2 _]]]]]]]. contradiction. }
  apply pack_i_inv in PD. destruct PD as [PD ->]. cbn [written].
  destruct shape as [|n [|s rest]].
  - cbn. split; [discriminate|]. intros [_ [n [d [r [H _]]]]]. discriminate H.
  - cbn. split; [discriminate|]. intros [_ [m [d [r [H _]]]]]. discriminate H.
  - cbn [nth_error bind]. assert (P : 0 <= n) by (destruct K as [K _]; inversion K; auto).
    unfold py_div. destruct (D =? 0) eqn:D0; [apply Z.eqb_eq in D0 | apply Z.eqb_neq in D0].
    { cbn. split; [discriminate|]. intros [_ [m [d [r [_ [_ [_ [H _]]]]]]]]. contradiction. }
    cbn [bind]. destruct (pack_i (s / D)) as [b|e] eqn:PB.
    2: { apply pack_i_err in PB. cbn [written fst snd]. split; [discriminate|]. intros [_ [m [s' [r [H [_ [_ [_ [H2 _]]]]]]]]]. assert (s' = s) by congruence. subst. contradiction. }
    apply pack_i_inv in PB. destruct PB as [PB ->]. cbn [written]. destruct (pack_i n) as [b|e] eqn:PN.
    2: { apply pack_i_err in PN. cbn [written fst snd]. split; [discriminate|]. intros [_ [m [d' [r [H [H2 _]]]]]]. assert (m = n) by congruence. subst. exfalso. apply PN. apply lt_int32; tauto. }
    apply pack_i_inv in PN. destruct PN as [PN ->]. unfold pack_d. cbn [written fst snd]. rewrite app_nil_r, words_are. split.
    + intros H. assert (F : f = head_bytes nOmega2 comment ++ int_bytes D ++ int_bytes (s / D) ++ int_bytes n ++ flat_map spec_word_bytes ws) by congruence. split; [auto|]. exists n, s, rest.
      split; [auto|]. split; [apply int32_lt; assumption|]. split; [auto|]. split; [auto|]. split; [auto|].
      rewrite F, data_file_is. cbn [flat_map]. rewrite app_nil_r, <- !app_assoc. reflexivity.
    + intros [_ [m [s' [r [H [_ [_ [_ [_ ->]]]]]]]]]. assert (m = n) by congruence. assert (s' = s) by congruence. subst m s'. rewrite data_file_is. cbn [flat_map]. rewrite app_nil_r, <- !app_assoc. reflexivity.
Qed.
(** Polarizations, four axes *)
Lemma Pol_write_iff q m b d zs comment f : 0 <= q -> 0 <= b -> 0 <= d ->
  (Pol_write (mkC [q; m; b; d] zs) comment = (f, None) <->
   ascii comment /\ q < 2 ^ 31 /\ b < 2 ^ 31 /\ d < 2 ^ 31 /\ f = data_file name_Polarizations comment [d; b; q] (reim zs)).
Proof.
  intros Hq Hb Hd. unfold Pol_write. destruct (ascii_dec comment) as [A|A].
  2: { rewrite header_refused by (auto; cbn; lia). split; [discriminate|tauto]. }
  rewrite header_written by (auto; cbn; lia). unfold split_complex, shape_at. cbn [c_shape c_data bind a_shape a_data nth_error].
  cbn [written]. destruct (pack_i d) as [x|e] eqn:PD.
  2: { apply pack_i_err in PD. cbn [written fst snd]. split; [discriminate|]. intros [_ [_ [_ [H _]]]]. exfalso. apply PD. apply lt_int32; [assumption|tauto]. }
  apply pack_i_inv in PD. destruct PD as [PD ->]. cbn [written]. destruct (pack_i b) as [x|e] eqn:PB.
  2: { apply pack_i_err in PB. cbn [written fst snd]. split; [discriminate|]. intros [_ [_ [H _]]]. exfalso. apply PB. apply lt_int32; [assumption|tauto]. }
  apply pack_i_inv in PB. destruct PB as [PB ->]. cbn [written]. destruct (pack_i q) as [x|e] eqn:PQ.
  2: { apply pack_i_err in PQ. cbn [written fst snd]. split; [discriminate|]. intros [_ [H _]]. exfalso. apply PQ. apply lt_int32; [assumption|tauto]. }
  apply pack_i_inv in PQ. destruct PQ as [PQ ->]. unfold pack_d. cbn [written fst snd app]. rewrite app_nil_r, words_are. fold (reim zs). rewrite data_file_is. cbn [flat_map].
  rewrite app_nil_r, <- !app_assoc. split.
  - intros H. split; [auto|]. split; [apply int32_lt; assumption|]. split; [apply int32_lt; assumption|]. split; [apply int32_lt; assumption|]. change name_Polarizations with nPol. congruence.
  - intros [_ [_ [_ [_ ->]]]]. reflexivity.
Qed.
