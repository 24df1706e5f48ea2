(** Files of another kind, polarizations written again, densities of states, scattering functions, dispersions. *)
From Coq Require Import Reals Lra.
From Verif Require Import Base StorageModel StorageSpec StorageProofs ChanModel ChanProofs IdfModel IdfSpec IdfProofs IdfProofs2 IdfProofs3 IdfProofs4.
Open Scope Z_scope.

(** A file of wave vectors is a file of a scattering function, with the axes exchanged. *)
Lemma mixup n d ws comment f text : array [n; d] ws -> stripped (firstn 1024 comment) text -> Q_write (mkArr [n; d] ws) comment = (f, None) ->
  Sqe_read f = Ok (mkInfo name_Q 1 text, mkArr [d; n] ws).
Proof.
  intros K T W. apply (proj1 (Q_write_iff _ _ _ _ K)) in W. destruct W as [A [n' [d' [r [S [N [D ->]]]]]]].
  assert (n' = n) by congruence. assert (d' = d) by congruence. subst n' d'. clear S r.
  destruct (array_sizes2 _ _ _ _ K) as [P1 [P2 P3]]. change (count []) with 1 in P3.
  apply Sqe_read_iff; [apply data_file_byte; auto; repeat constructor; lia|]. exists d, n. split; [auto|].
  apply data_file_holds; auto; try (cbn; lia); try (repeat constructor; lia).
  destruct K as [_ [K2 _]]. split; [constructor; [auto|constructor; auto]|]. split; [auto|]. unfold count. cbn [fold_right]. lia.
Qed.

(** Polarizations as they were read, a real array with a fifth axis, written again. *)
Lemma pairs_length {A} n : forall (l : list A), List.length l = (2 * n)%nat -> List.length (pairs l) = n.
Proof.
  induction n as [|n IH]; intros l L; [destruct l; [reflexivity|cbn in L; lia]|]. destruct l as [|x [|y l]]; [cbn in L; lia|cbn in L; lia|].
  cbn [pairs List.length] in *. rewrite IH; lia.
Qed.
Lemma quads_length {A B} (g : A -> list B) l : (forall x, List.length (g x) = 4%nat) -> List.length (flat_map g l) = (4 * List.length l)%nat.
Proof. intros H. induction l; [reflexivity|]. cbn [flat_map List.length]. rewrite app_length, H, IHl. lia. Qed.
Lemma pairs_words ws : Forall wf_word ws ->
  Forall wf_word (flat_map (fun p : (Z * Z) * (Z * Z) => [fst (fst p); fst (snd p); snd (fst p); snd (snd p)]) (pairs (as_real ws))).
Proof.
  assert (Z0 : wf_word 0) by (unfold wf_word; lia).
  assert (H : forall n l, (List.length l <= n)%nat -> Forall wf_word l -> Forall wf_word (flat_map (fun p : (Z * Z) * (Z * Z) => [fst (fst p); fst (snd p); snd (fst p); snd (snd p)]) (pairs (as_real l)))).
  { induction n as [|n IH]; intros l L F; [destruct l; [constructor|cbn in L; lia]|]. destruct l as [|x [|y l]]; [constructor|constructor|].
    cbn. inversion F as [|? ? F1 F2]; subst. inversion F2 as [|? ? F3 F4]; subst. repeat (constructor; [assumption|]). apply IH; [cbn in L; lia|auto]. }
  intros F. apply (H (List.length ws)); auto.
Qed.
Lemma rewritten f i q m b d ws comment : Forall byte f -> Pol_read f = Ok (i, mkArr [q; m; b; d; 2] ws) -> ascii comment ->
  exists f', Pol_write (mkC [q; m; b; d; 2] (as_real ws)) comment = (f', None) /\ (ws <> [] -> Pol_read f' = Err StructError).
Proof.
  intros B R A. destruct i as [nm v text]. apply (proj1 (Pol_read_iff _ _ _ _ _ _ B)) in R. destruct R as [q' [b' [d' [S H]]]].
  assert (q' = q) by congruence. assert (b' = b) by congruence. assert (d' = d) by congruence. assert (m = b * d) by congruence. subst q' b' d' m. clear S.
  destruct H as [t [c [L [_ [_ [_ [_ [_ [W K]]]]]]]]]. destruct L as [_ [_ [_ [I _]]]].
  inversion I as [|? ? Id I2]; subst. inversion I2 as [|? ? Ib I3]; subst. inversion I3 as [|? ? Iq _]; subst.
  set (dat := flat_map (fun p : (Z * Z) * (Z * Z) => [fst (fst p); fst (snd p); snd (fst p); snd (snd p)]) (pairs (as_real ws))).
  assert (LN : Z.of_nat (List.length dat) = 2 * Z.of_nat (List.length ws)).
  { unfold dat. rewrite quads_length by reflexivity.
    assert (E : exists n, List.length ws = (2 * n)%nat).
    { exists (Z.to_nat (q * (b * d * (b * d)))). unfold count in K. cbn [fold_right] in K. apply Nat2Z.inj. rewrite K. rewrite Nat2Z.inj_mul.
      destruct (Z_lt_ge_dec (q * (b * d * (b * d))) 0); [exfalso; lia|]. rewrite Z2Nat.id by lia. lia. }
    destruct E as [n E]. rewrite (pairs_length n) by (unfold as_real; rewrite map_length; exact E). lia. }
  exists (data_file name_Polarizations comment [d; b; q] dat). split.
  - unfold Pol_write. rewrite header_written by (auto; cbn; lia). unfold split_complex, shape_at. cbn [c_shape c_data].
    change (2 <? 2) with false. change (2 =? 2) with true. cbn [bind a_shape a_data nth_error]. fold dat.
    rewrite !pack_i_ok by assumption. unfold pack_d. cbn [written fst snd app]. rewrite app_nil_r, words_are, data_file_is. cbn [flat_map]. rewrite app_nil_r, <- !app_assoc. reflexivity.
  - intros NE. unfold Pol_read.
    pose proof (data_file_layout name_Polarizations comment [d; b; q] dat ltac:(cbn; lia) I (pairs_words _ W)) as L.
    rewrite (header_ok _ _ _ _ _ _ L). cbn [bind]. rewrite (count_ok _ _ _ _ _ _ L after_header d [] [b; q]) by reflexivity. cbn [bind].
    rewrite (count_ok _ _ _ _ _ _ L (after_header + 4) b [d] [q]) by reflexivity. cbn [bind].
    rewrite (count_ok _ _ _ _ _ _ L (after_header + 8) q [d; b] []) by reflexivity. cbn [bind].
    rewrite (rest_ok _ _ _ _ _ _ L) by reflexivity. rewrite unpack_d_bad; [reflexivity|]. rewrite LN. unfold count in K. cbn [fold_right] in K.
    destruct ws; [congruence|]. cbn [List.length] in *. intros E. lia.
Qed.

(** Densities of states. *)
Lemma up_bins N : up (- (IZR N - 1 / 10)) = (1 - N)%Z.
Proof.
  symmetry. apply tech_up; rewrite minus_IZR; lra.
Qed.
Lemma arange_ok N dE : (dE <> 0)%R -> arange_bins N dE = Ok (map (fun i => (INR i * dE)%R) (seq 0 (Z.to_nat N))).
Proof.
  intros D. unfold arange_bins. destruct (Req_EM_T dE 0); [contradiction|]. cbv zeta.
  replace (- ((IZR N - 1 / 10) * dE / dE))%R with (- (IZR N - 1 / 10))%R by (field; auto). rewrite up_bins. replace (1 - (1 - N)) with N by lia. reflexivity.
Qed.
Lemma evenly_seq dE n : evenly dE (map (fun i => (INR i * dE)%R) (seq 0 n)).
Proof.
  intros i e H. rewrite nth_error_map in H. destruct (nth_error (seq 0 n) i) as [k|] eqn:K; [|discriminate H]. cbn in H.
  assert (k = i). { assert (i < n)%nat by (rewrite <- (seq_length n 0); apply nth_error_Some; congruence). apply (nth_error_nth _ _ 0%nat) in K. rewrite seq_nth in K by auto. lia. }
  subst k. congruence.
Qed.
Lemma list_ext {A} (l : list A) : forall m, (forall i, nth_error l i = nth_error m i) -> l = m.
Proof.
  induction l as [|x l IH]; intros [|y m] H; [reflexivity|specialize (H 0%nat); discriminate H|specialize (H 0%nat); discriminate H|].
  pose proof (H 0%nat) as H0. cbn in H0. f_equal; [congruence|]. apply IH. intros i. exact (H (Datatypes.S i)).
Qed.
Lemma evenly_is dE E : evenly dE E <-> E = map (fun i => (INR i * dE)%R) (seq 0 (List.length E)).
Proof.
  split; [|intros ->; apply evenly_seq].
  intros H. apply list_ext. intros i. rewrite nth_error_map. destruct (nth_error E i) as [e|] eqn:N.
  - assert (L : (i < List.length E)%nat) by (apply nth_error_Some; congruence). rewrite (nth_error_nth' (seq 0 (List.length E)) 0%nat) by (rewrite seq_length; auto).
    rewrite seq_nth by auto. cbn. f_equal. apply H. exact N.
  - apply nth_error_None in N. rewrite (proj2 (nth_error_None (seq 0 (List.length E)) i)) by (rewrite seq_length; auto). reflexivity.
Qed.

(** The spacing that is written. *)
Definition spacing (h2m : R) (u : eunit) (e0 e1 : R) : R := match u with TeraHz => (e1 - e0)%R | _ => (e1 / h2m / 10 ^ 12 / 2 / PI - e0 / h2m / 10 ^ 12 / 2 / PI)%R end.
Lemma DOS_write_iff enc h2m E DOS comment u f :
  DOS_write enc h2m E DOS comment u = Ok (f, None) <->
  u <> OtherUnit /\ ascii comment /\ Z.of_nat (List.length DOS) < 2 ^ 31 /\
  exists e0 e1 r, E = e0 :: e1 :: r /\ f = data_file name_DOS comment [Z.of_nat (List.length DOS)] (enc (spacing h2m u e0 e1) :: map enc DOS).
Proof.
  unfold DOS_write. split.
  - destruct (to_terahertz h2m u E) as [E'|] eqn:T; [|discriminate]. cbn [bind]. intros H. assert (W : written (header nDOS comment ++ [pack_i (Z.of_nat (List.length DOS)); (match E' with e0 :: e1 :: _ => pack_d [enc (e1 - e0)%R] | _ => Err IndexError end); pack_d (map enc DOS)]) = (f, None)) by congruence. clear H.
    destruct (ascii_dec comment) as [A|A]. 2: { rewrite header_refused in W by (auto; cbn; lia). discriminate W. }
    rewrite header_written in W by (auto; cbn; lia). cbn [written] in W. destruct (pack_i _) as [b|] eqn:P; [|cbn in W; discriminate W].
    apply pack_i_inv in P. destruct P as [P ->].
    assert (U : u <> OtherUnit) by (intros ->; discriminate T).
    split; [exact U|]. split; [exact A|]. split; [apply int32_lt; exact P|].
    destruct E as [|e0 [|e1 r]].
    + destruct u; try contradiction; unfold to_terahertz in T; cbn [map] in T; assert (E' = []) by congruence; subst E'; cbn [written fst snd] in W; discriminate W.
    + destruct u; try contradiction; unfold to_terahertz in T; cbn [map] in T; [assert (E' = [e0]) by congruence|assert (E' = [(e0 / h2m / 10 ^ 12 / 2 / PI)%R]) by congruence]; subst E'; cbn [written fst snd] in W; discriminate W.
    + exists e0, e1, r. split; [reflexivity|]. rewrite data_file_is. cbn [flat_map]. rewrite app_nil_r, <- words_are.
      destruct u; try contradiction.
      * cbn in T. assert (E' = e0 :: e1 :: r) by congruence. subst E'. unfold pack_d in W. cbn [written fst snd] in W. unfold spacing. rewrite !app_nil_r in W.
        unfold words_tostring in W at 1. cbn [flat_map] in W. rewrite app_nil_r in W. rewrite <- le_bytes_spec. change name_DOS with nDOS. congruence.
      * unfold to_terahertz in T. cbn [map] in T. assert (E' = (e0 / h2m / 10 ^ 12 / 2 / PI)%R :: (e1 / h2m / 10 ^ 12 / 2 / PI)%R :: map (fun e => (e / h2m / 10 ^ 12 / 2 / PI)%R) r) by congruence. subst E'.
        unfold pack_d in W. cbn [written fst snd] in W. unfold spacing. rewrite !app_nil_r in W.
        unfold words_tostring in W at 1. cbn [flat_map] in W. rewrite app_nil_r in W. rewrite <- le_bytes_spec. change name_DOS with nDOS. congruence.
  - intros [U [A [N [e0 [e1 [r [-> ->]]]]]]].
    assert (I : int32 (Z.of_nat (List.length DOS))) by (apply lt_int32; lia).
    destruct u; try contradiction; unfold to_terahertz; cbn [bind map]; rewrite header_written by (auto; cbn; lia); rewrite pack_i_ok by auto; unfold pack_d;
      cbn [written fst snd]; rewrite data_file_is; cbn [flat_map]; rewrite !app_nil_r, <- words_are, <- le_bytes_spec; unfold words_tostring at 1; cbn [flat_map]; rewrite app_nil_r; reflexivity.
Qed.
Lemma unpack_1 w rest : wf_word w -> unpack_d 1 (firstn 8 (spec_word_bytes w ++ rest)) = Ok [w].
Proof.
  intros W. rewrite firstn_app, spec_word_bytes_length. rewrite firstn_all2 by (rewrite spec_word_bytes_length; lia). cbn [firstn Nat.sub]. rewrite app_nil_r.
  rewrite <- (app_nil_r (spec_word_bytes w)). change (spec_word_bytes w ++ []) with (flat_map spec_word_bytes [w]). apply unpack_d_ok; [constructor; auto|reflexivity].
Qed.
Lemma DOS_layout dec f t v c n w ws i : layout f t v c [n] (w :: ws) -> make_info t v c = Ok i ->
  DOS_read dec f = if n =? Z.of_nat (List.length ws) then (if Req_EM_T (dec w) 0 then Err ValueError else Ok (i, map (fun k => (INR k * dec w)%R) (seq 0 (List.length ws)), map dec ws)) else Err StructError.
Proof.
  intros L M. unfold DOS_read. rewrite (header_ok _ _ _ _ _ _ L). cbn [bind]. rewrite (count_ok _ _ _ _ _ _ L after_header n [] []) by reflexivity. cbn [bind].
  assert (W : Forall wf_word (w :: ws)) by apply L. inversion W as [|? ? W1 W2]; subst.
  pose proof (rest_ok _ _ _ _ _ _ L (after_header + 4)%nat eq_refl) as R. unfold slice at 1. rewrite R. cbn [flat_map]. rewrite unpack_1 by auto. cbn [bind hd].
  assert (R2 : skipn (after_header + 12) f = flat_map spec_word_bytes ws).
  { replace (after_header + 12)%nat with (after_header + 4 + 8)%nat by lia. rewrite <- skipn_skipn', R. cbn [flat_map]. apply skipn_at. apply spec_word_bytes_length. }
  rewrite R2. destruct (n =? Z.of_nat (List.length ws)) eqn:N; [apply Z.eqb_eq in N | apply Z.eqb_neq in N].
  - rewrite unpack_d_ok by auto. cbn [bind]. destruct (Req_EM_T (dec w) 0) as [Z|Z].
    + unfold arange_bins. destruct (Req_EM_T (dec w) 0); [reflexivity|contradiction].
    + rewrite arange_ok by auto. cbn [bind]. rewrite M. cbn [bind]. subst n. rewrite Nat2Z.id. reflexivity.
  - rewrite unpack_d_bad by auto. reflexivity.
Qed.
Lemma DOS_read_iff dec f name v text E DOS : Forall byte f ->
  (DOS_read dec f = Ok (mkInfo name v text, E, DOS) <->
   exists n w ws, holds f name v text [n] [n + 1] (w :: ws) /\ (dec w <> 0)%R /\ DOS = map dec ws /\ List.length E = List.length ws /\ evenly (dec w) E).
Proof.
  intros B. split.
  - intros R. pose proof R as R0. unfold DOS_read in R. destruct (read_header f) as [[[t v'] c]|] eqn:H; [|discriminate R]. cbn [bind] in R.
    destruct (unpack_i (slice after_header 4 f)) as [n|] eqn:N; [|discriminate R]. cbn [bind] in R.
    destruct (unpack_d 1 (slice (after_header + 4) 8 f)) as [dl|] eqn:D; [|discriminate R]. cbn [bind] in R.
    destruct (unpack_d n (skipn (after_header + 12) f)) as [ws|] eqn:W; [|discriminate R]. cbn [bind] in R.
    destruct (arange_bins n (dec (hd 0 dl))) as [E'|] eqn:AR; [|discriminate R]. cbn [bind] in R.
    destruct (make_info t v' c) as [i|] eqn:I; [|discriminate R]. cbn [bind] in R.
    apply (header_inv f B) in H. apply (unpack_i_inv f B) in N. apply (unpack_d_inv f B) in W.
    assert (D' : exists w, dl = [w] /\ wf_word w /\ skipn (after_header + 4) f = spec_word_bytes w ++ skipn (after_header + 12) f).
    { unfold unpack_d in D. change (1 <? 0) with false in D. cbv iota in D. destruct (Z.of_nat (List.length (slice (after_header + 4) 8 f)) =? 8 * 1) eqn:L8; [|discriminate D]. apply Z.eqb_eq in L8.
      destruct (bytes_words 1 (slice (after_header + 4) 8 f) ltac:(lia) (slice_byte _ _ _ B)) as [P [Q S]].
      destruct (words_of (slice (after_header + 4) 8 f)) as [|w [|]]; try discriminate P. exists w. split; [congruence|]. inversion Q; subst. split; [auto|].
      rewrite (slice_split (after_header + 4) 8 f). cbn [flat_map] in S. rewrite app_nil_r in S. rewrite S. f_equal. }
    destruct D' as [w [-> [Ww Sk]]]. destruct H as [H1 [H2 [H3 H4]]], N as [N1 N2], W as [W1 [W2 W3]].
    assert (LY : layout f t v' c [n] (w :: ws)).
    { split; [auto|]. split; [auto|]. split; [auto|]. split; [constructor; [auto|constructor]|]. split; [constructor; auto|].
      etransitivity; [exact H4|]. rewrite N2, Sk, W3. cbn [flat_map]. rewrite app_nil_r. reflexivity. }
    rewrite (DOS_layout dec f t v' c n w ws i LY I) in R0. rewrite <- W1, Z.eqb_refl in R0. destruct (Req_EM_T (dec w) 0) as [Z|Z]; [discriminate R0|].
    assert (i = mkInfo name v text) by congruence. assert (E = map (fun k => (INR k * dec w)%R) (seq 0 (List.length ws))) by congruence. assert (DOS = map dec ws) by congruence. subst i.
    apply (proj1 (make_info_inv t _ c _)) in I. destruct I as [I1 [I2 [I3 [I4 I5]]]]. cbn in I1, I2, I3, I4, I5. subst v'.
    exists n, w, ws. split.
    + exists t, c. split; [auto|]. split; [auto|]. split; [auto|]. split; [auto|]. split; [auto|]. split; [constructor; [lia|constructor]|]. split; [constructor; auto|].
      unfold count. cbn [fold_right List.length]. lia.
    + split; [auto|]. split; [auto|]. subst E. split; [rewrite map_length, seq_length; auto|apply evenly_seq].
  - intros [n [w [ws [[t [c [L [T [C [A1 [A2 [P [W K]]]]]]]]] [Z [-> [LE EV]]]]]]].
    rewrite (DOS_layout dec f t v c n w ws (mkInfo name v text) L). 2: { apply make_info_inv. cbn. auto. }
    unfold count in K. cbn [fold_right List.length] in K. replace (n =? Z.of_nat (List.length ws)) with true by (symmetry; apply Z.eqb_eq; lia).
    destruct (Req_EM_T (dec w) 0); [contradiction|]. apply (proj1 (evenly_is _ _)) in EV. rewrite LE in EV. rewrite EV at 1. reflexivity.
Qed.
Lemma DOS_short dec f : (List.length f < after_header + 12)%nat -> DOS_read dec f = Err StructError.
Proof.
  intros H. unfold DOS_read. destruct (header_cases f) as [[[[t v] c] ->] | ->]; [|reflexivity]. cbn [bind].
  destruct (unpack_i_cases after_header f) as [[n ->] | ->]; [|reflexivity]. cbn [bind]. unfold unpack_d at 1. change (1 <? 0) with false. cbv iota. rewrite slice_length.
  replace (Z.of_nat (Nat.min 8 (List.length f - (after_header + 4))) =? 8 * 1) with false by (symmetry; apply Z.eqb_neq; lia). reflexivity.
Qed.
Lemma DOS_interrupted enc dec h2m E DOS comment u f e : DOS_write enc h2m E DOS comment u = Ok (f, Some e) -> DOS_read dec f = Err StructError.
Proof.
  unfold DOS_write. destruct (to_terahertz h2m u E) as [E'|]; [|discriminate]. cbn [bind]. destruct (ascii_dec comment) as [A|A].
  2: { rewrite header_refused by (auto; cbn; lia). intros H. assert (F : f = spec_pad 64 nDOS ++ [1; 0; 0; 0]) by congruence. subst f. apply DOS_short. rewrite refused_length by (cbn; lia). rewrite after_header_is. lia. }
  rewrite header_written by (auto; cbn; lia). cbn [written]. destruct (pack_i (Z.of_nat (List.length DOS))) as [b|x] eqn:P.
  2: { cbn [fst snd]. intros H. assert (F : f = head_bytes nDOS comment ++ []) by congruence. subst f. apply DOS_short. rewrite app_nil_r, head_length by (cbn; lia). lia. }
  apply pack_i_inv in P. destruct P as [P ->]. cbn [written].
  destruct E' as [|e0 [|e1 r]].
  - cbn [fst snd]. intros H. assert (F : f = head_bytes nDOS comment ++ int_bytes (Z.of_nat (List.length DOS)) ++ []) by congruence. subst f. apply DOS_short. rewrite app_nil_r, app_length, head_length, int_bytes_length by (cbn; lia). lia.
  - cbn [fst snd]. intros H. assert (F : f = head_bytes nDOS comment ++ int_bytes (Z.of_nat (List.length DOS)) ++ []) by congruence. subst f. apply DOS_short. rewrite app_nil_r, app_length, head_length, int_bytes_length by (cbn; lia). lia.
  - unfold pack_d. cbn [written fst snd]. discriminate.
Qed.
