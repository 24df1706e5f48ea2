(** What comes back of what was written; interrupted writes. *)
From Coq Require Import Reals.
From Verif Require Import Base StorageModel StorageSpec StorageProofs IdfModel IdfSpec IdfProofs IdfProofs2 IdfProofs3.
Open Scope Z_scope.

(** Files that are too short. *)
Lemma unpack_i_short i f : (List.length f < i + 4)%nat -> unpack_i (slice i 4 f) = Err StructError.
Proof. intros H. unfold unpack_i. rewrite slice_length. replace (Z.of_nat (Nat.min 4 (List.length f - i)) =? 4) with false; [reflexivity|]. symmetry. apply Z.eqb_neq. lia. Qed.
Lemma unpack_s_short i n f : (0 < n)%nat -> (List.length f < i + n)%nat -> unpack_s n (slice i n f) = Err StructError.
Proof. intros N H. unfold unpack_s. rewrite slice_length. replace (Z.of_nat (Nat.min n (List.length f - i)) =? Z.of_nat n) with false; [reflexivity|]. symmetry. apply Z.eqb_neq. lia. Qed.
Lemma unpack_s_cases i n f : unpack_s n (slice i n f) = Ok (slice i n f) \/ unpack_s n (slice i n f) = Err StructError.
Proof. unfold unpack_s. destruct (_ =? _); auto. Qed.
Lemma unpack_i_cases i f : (exists n, unpack_i (slice i 4 f) = Ok n) \/ unpack_i (slice i 4 f) = Err StructError.
Proof. unfold unpack_i. destruct (_ =? _); [left; eexists; reflexivity|auto]. Qed.
Lemma header_cases f : (exists h, read_header f = Ok h) \/ read_header f = Err StructError.
Proof.
  unfold read_header. destruct (unpack_s_cases 0 64 f) as [-> | ->]; [|auto]. cbn [bind].
  destruct (unpack_i_cases 64 f) as [[v ->] | ->]; [|auto]. cbn [bind]. destruct (unpack_s_cases 68 1024 f) as [-> | ->]; [|auto]. cbn [bind]. left. eexists. reflexivity.
Qed.
Lemma header_short f : (List.length f < after_header)%nat -> read_header f = Err StructError.
Proof.
  intros H. rewrite after_header_is in H. unfold read_header. destruct (unpack_s_cases 0 64 f) as [-> | ->]; [|auto]. cbn [bind].
  destruct (unpack_i_cases 64 f) as [[v ->] | ->]; [|auto]. cbn [bind]. rewrite unpack_s_short by lia. reflexivity.
Qed.
Lemma E_short f : (List.length f < after_header + 4)%nat -> E_read f = Err StructError.
Proof.
  intros H. unfold E_read. destruct (header_cases f) as [[[[t v] c] ->] | ->]; [|reflexivity]. cbn [bind]. rewrite unpack_i_short by lia. reflexivity.
Qed.
Lemma Q_short f : (List.length f < after_header + 8)%nat -> Q_read f = Err StructError.
Proof.
  intros H. unfold Q_read. destruct (header_cases f) as [[[[t v] c] ->] | ->]; [|reflexivity]. cbn [bind].
  destruct (unpack_i_cases after_header f) as [[n ->] | ->]; [|reflexivity]. cbn [bind]. rewrite unpack_i_short by lia. reflexivity.
Qed.
Lemma Sqe_short f : (List.length f < after_header + 8)%nat -> Sqe_read f = Err StructError.
Proof.
  intros H. unfold Sqe_read. destruct (header_cases f) as [[[[t v] c] ->] | ->]; [|reflexivity]. cbn [bind].
  destruct (unpack_i_cases after_header f) as [[n ->] | ->]; [|reflexivity]. cbn [bind]. rewrite unpack_i_short by lia. reflexivity.
Qed.
Lemma Omega2_short f : (List.length f < after_header + 12)%nat -> Omega2_read f = Err StructError.
Proof.
  intros H. unfold Omega2_read. destruct (header_cases f) as [[[[t v] c] ->] | ->]; [|reflexivity]. cbn [bind].
  destruct (unpack_i_cases after_header f) as [[n ->] | ->]; [|reflexivity]. cbn [bind].
  destruct (unpack_i_cases (after_header + 4) f) as [[b ->] | ->]; [|reflexivity]. cbn [bind]. rewrite unpack_i_short by lia. reflexivity.
Qed.
Lemma Pol_short f : (List.length f < after_header + 12)%nat -> Pol_read f = Err StructError.
Proof.
  intros H. unfold Pol_read. destruct (header_cases f) as [[[[t v] c] ->] | ->]; [|reflexivity]. cbn [bind].
  destruct (unpack_i_cases after_header f) as [[n ->] | ->]; [|reflexivity]. cbn [bind].
  destruct (unpack_i_cases (after_header + 4) f) as [[b ->] | ->]; [|reflexivity]. cbn [bind]. rewrite unpack_i_short by lia. reflexivity.
Qed.

(** Interrupted writes. *)
Lemma refused_length nm : (List.length nm <= 64)%nat -> List.length (spec_pad 64 nm ++ [1; 0; 0; 0]) = 68%nat.
Proof. intros. rewrite app_length, pad_length by auto. reflexivity. Qed.
(** Of the integers, those before the first that is refused are in the file. *)
Lemma ints_written l ws e f : (forall c, In c l -> exists r, c = (let! n := r in pack_i n)) -> written (l ++ [pack_d ws]) = (f, Some e) -> (List.length f < 4 * List.length l)%nat.
Proof.
  revert f. induction l as [|c l IH]; intros f H E; [cbn in E; discriminate E|].
  destruct (H c (or_introl eq_refl)) as [r R]. cbn [app written] in E. destruct c as [b|x].
  - destruct (written (l ++ [pack_d ws])) as [g e'] eqn:G. assert (e' = Some e) by congruence. subst e'.
    assert (f = b ++ g) by congruence. subst f. specialize (IH g ltac:(intros; apply H; right; auto) eq_refl).
    destruct r as [n|]; [|discriminate R]. cbn [bind] in R. symmetry in R. apply pack_i_inv in R. destruct R as [_ ->]. rewrite app_length, int_bytes_length. cbn [List.length]. lia.
  - assert (f = []) by congruence. subst f. cbn. lia.
Qed.
Lemma E_interrupted a comment f e : E_write a comment = (f, Some e) -> E_read f = Err StructError.
Proof.
  unfold E_write. destruct (ascii_dec comment) as [A|A].
  2: { rewrite header_refused by (auto; cbn; lia). intros H. assert (F : f = spec_pad 64 nE ++ [1; 0; 0; 0]) by congruence. subst f. apply E_short. rewrite refused_length by (cbn; lia). rewrite after_header_is. lia. }
  rewrite header_written by (auto; cbn; lia). unfold shape_at. destruct (nth_error (a_shape a) 0) as [n|] eqn:S.
  2: { cbn [bind written fst snd]. intros H. assert (F : f = head_bytes nE comment ++ []) by congruence. subst f. apply E_short. rewrite app_nil_r, head_length by (cbn; lia). lia. }
  cbn [bind written]. destruct (pack_i n) as [b|x] eqn:P.
  2: { cbn [written fst snd]. intros H. assert (F : f = head_bytes nE comment ++ []) by congruence. subst f. apply E_short. rewrite app_nil_r, head_length by (cbn; lia). lia. }
  apply pack_i_inv in P. destruct P as [P ->]. cbn [written]. unfold pack_rows. destruct (a_shape a) as [|n' rest]; [discriminate S|].
  cbn in S. assert (n' = n) by congruence. subst n'. destruct ((n =? 0) || (size_of rest =? 1)) eqn:C.
  { unfold pack_d. cbn [fst snd]. discriminate. }
  apply orb_false_iff in C. destruct C as [C _]. apply Z.eqb_neq in C.
  cbn [fst snd]. intros H. assert (F : f = data_file nE comment [n] []). { rewrite data_file_is. cbn [flat_map]. rewrite !app_nil_r in *. congruence. } subst f.
  unfold E_read.
  pose proof (data_file_layout nE comment [n] [] ltac:(cbn; lia) ltac:(constructor; auto) ltac:(constructor)) as L.
  rewrite (header_ok _ _ _ _ _ _ L). cbn [bind]. rewrite (count_ok _ _ _ _ _ _ L after_header n [] []) by reflexivity. cbn [bind].
  rewrite (rest_ok _ _ _ _ _ _ L) by reflexivity. rewrite unpack_d_bad by (cbn; auto). reflexivity.
Qed.
Ltac is_int := let c := fresh in let H := fresh in intros c H; cbn [In] in H;
  repeat match goal with H : _ \/ _ |- _ => destruct H as [H|H] end; [..|contradiction]; subst c.
Lemma Q_interrupted a comment f e : Q_write a comment = (f, Some e) -> Q_read f = Err StructError.
Proof.
  unfold Q_write. destruct (ascii_dec comment) as [A|A].
  2: { rewrite header_refused by (auto; cbn; lia). intros H. assert (F : f = spec_pad 64 nQ ++ [1; 0; 0; 0]) by congruence. subst f. apply Q_short. rewrite refused_length by (cbn; lia). rewrite after_header_is. lia. }
  rewrite header_written by (auto; cbn; lia).
  change (?x :: ?y :: [?z]) with ([x; y] ++ [z]).
  destruct (written _) as [g e'] eqn:W. cbn [fst snd]. intros H. assert (e' = Some e) by congruence. subst e'. apply ints_written in W.
  - assert (F : f = head_bytes nQ comment ++ g) by congruence. subst f. apply Q_short. rewrite app_length, head_length by (cbn; lia). cbn [List.length] in W. lia.
  - is_int; eexists; reflexivity.
Qed.
Lemma Sqe_interrupted a comment f e : Sqe_write a comment = (f, Some e) -> Sqe_read f = Err StructError.
Proof.
  unfold Sqe_write. destruct (ascii_dec comment) as [A|A].
  2: { rewrite header_refused by (auto; cbn; lia). intros H. assert (F : f = spec_pad 64 nSqe ++ [1; 0; 0; 0]) by congruence. subst f. apply Sqe_short. rewrite refused_length by (cbn; lia). rewrite after_header_is. lia. }
  rewrite header_written by (auto; cbn; lia).
  change (?x :: ?y :: [?z]) with ([x; y] ++ [z]).
  destruct (written _) as [g e'] eqn:W. cbn [fst snd]. intros H. assert (e' = Some e) by congruence. subst e'. apply ints_written in W.
  - assert (F : f = head_bytes nSqe comment ++ g) by congruence. subst f. apply Sqe_short. rewrite app_length, head_length by (cbn; lia). cbn [List.length] in W. lia.
  - is_int; eexists; reflexivity.
Qed.
Lemma bind_assoc {A B C} (x : result A) (g : A -> result B) (h : B -> result C) : (let! b := (let! a := x in g a) in h b) = (let! a := x in let! b := g a in h b).
Proof. destruct x; reflexivity. Qed.
Lemma Omega2_interrupted a comment D f e : Omega2_write a comment D = (f, Some e) -> Omega2_read f = Err StructError.
Proof.
  unfold Omega2_write. destruct (ascii_dec comment) as [A|A].
  2: { rewrite header_refused by (auto; cbn; lia). intros H. assert (F : f = spec_pad 64 nOmega2 ++ [1; 0; 0; 0]) by congruence. subst f. apply Omega2_short. rewrite refused_length by (cbn; lia). rewrite after_header_is. lia. }
  rewrite header_written by (auto; cbn; lia).
  change (?x :: ?y :: ?u :: [?z]) with ([x; y; u] ++ [z]).
  destruct (written _) as [g e'] eqn:W. cbn [fst snd]. intros H. assert (e' = Some e) by congruence. subst e'. apply ints_written in W.
  - assert (F : f = head_bytes nOmega2 comment ++ g) by congruence. subst f. apply Omega2_short. rewrite app_length, head_length by (cbn; lia). cbn [List.length] in W. lia.
  - is_int.
    + exists (Ok D). reflexivity.
    + exists (let! n := shape_at a 1 in py_div n D). rewrite bind_assoc. reflexivity.
    + eexists. reflexivity.
Qed.
Lemma Pol_interrupted a comment f e : Pol_write a comment = (f, Some e) -> Pol_read f = Err StructError.
Proof.
  unfold Pol_write. destruct (ascii_dec comment) as [A|A].
  2: { rewrite header_refused by (auto; cbn; lia). intros H. assert (F : f = spec_pad 64 nPol ++ [1; 0; 0; 0]) by congruence. subst f. apply Pol_short. rewrite refused_length by (cbn; lia). rewrite after_header_is. lia. }
  rewrite header_written by (auto; cbn; lia).
  destruct (split_complex a) as [r|x].
  2: { cbn [bind written fst snd]. intros H. assert (F : f = head_bytes nPol comment ++ []) by congruence. subst f. apply Pol_short. rewrite app_nil_r, head_length by (cbn; lia). lia. }
  cbn [bind]. change (written (Ok [] :: ?l)) with (let '(g, e) := written l in ([] ++ g, e)).
  change (?x :: ?y :: ?u :: [?z]) with ([x; y; u] ++ [z]).
  destruct (written _) as [g e'] eqn:W. cbn [fst snd app]. intros H. assert (e' = Some e) by congruence. subst e'. apply ints_written in W.
  - assert (F : f = head_bytes nPol comment ++ g) by congruence. subst f. apply Pol_short. rewrite app_length, head_length by (cbn; lia). cbn [List.length] in W. lia.
  - is_int; eexists; reflexivity.
Qed.

(** What comes back. *)
Lemma count_cons n l : count (n :: l) = n * count l. Proof. reflexivity. Qed.
Lemma array_sizes n rest ws : array (n :: rest) ws -> 0 <= n. Proof. intros [H _]. inversion H. auto. Qed.
Lemma array_sizes2 n d rest ws : array (n :: d :: rest) ws -> 0 <= n /\ 0 <= d /\ Z.of_nat (List.length ws) = n * d * count rest.
Proof. intros [H [_ K]]. inversion H as [|? ? P H2]; subst. inversion H2; subst. rewrite !count_cons in K. split; [auto|]. split; [auto|]. lia. Qed.
Lemma E_back n rest ws comment f text : array (n :: rest) ws -> stripped (firstn 1024 comment) text -> E_write (mkArr (n :: rest) ws) comment = (f, None) ->
  E_read f = Ok (mkInfo name_E 1 text, mkArr [n] ws).
Proof.
  intros K T W. apply (proj1 (E_write_iff _ _ _ _ K)) in W. destruct W as [A [n' [r [S [N [C ->]]]]]]. assert (n' = n) by congruence. assert (r = rest) by congruence. subst n' r.
  apply E_read_iff; [apply data_file_byte; auto; repeat constructor; lia|]. exists n. split; [auto|]. pose proof (array_sizes _ _ _ K).
  apply data_file_holds; auto; try (cbn; lia); try (repeat constructor; lia).
  destruct K as [_ [K2 K3]]. split; [constructor; auto|]. split; [auto|]. rewrite count_cons in K3. unfold count. cbn [fold_right]. destruct C as [-> | C]; [lia|]. rewrite C in K3. lia.
Qed.
Lemma Q_back n d rest ws comment f text : array (n :: d :: rest) ws -> stripped (firstn 1024 comment) text -> Q_write (mkArr (n :: d :: rest) ws) comment = (f, None) ->
  Q_read f = if (count rest =? 1) || (n * d =? 0) then Ok (mkInfo name_Q 1 text, mkArr [n; d] ws) else Err StructError.
Proof.
  intros K T W. apply (proj1 (Q_write_iff _ _ _ _ K)) in W. destruct W as [A [n' [d' [r [S [N [D ->]]]]]]].
  assert (n' = n) by congruence. assert (d' = d) by congruence. assert (r = rest) by congruence. subst n' d' r. clear S.
  destruct (array_sizes2 _ _ _ _ K) as [P1 [P2 P3]].
  assert (I : Forall int32 [d; n]) by (constructor; [apply lt_int32; auto|constructor; [apply lt_int32; auto|constructor]]).
  destruct ((count rest =? 1) || (n * d =? 0)) eqn:C.
  - apply orb_true_iff in C. rewrite !Z.eqb_eq in C. apply Q_read_iff; [apply data_file_byte; auto; repeat constructor; lia|]. exists n, d. split; [auto|].
    apply data_file_holds; auto; try (cbn; lia); try (repeat constructor; lia).
    destruct K as [_ [K2 _]]. split; [constructor; [auto|constructor; auto]|]. split; [auto|]. rewrite !count_cons. unfold count. cbn [fold_right]. destruct C as [C|C]; rewrite C in P3; lia.
  - apply orb_false_iff in C. rewrite !Z.eqb_neq in C. unfold Q_read.
    pose proof (data_file_layout name_Q comment [d; n] ws ltac:(cbn; lia) I (proj1 (proj2 K))) as L.
    rewrite (header_ok _ _ _ _ _ _ L). cbn [bind]. rewrite (count_ok _ _ _ _ _ _ L after_header d [] [n]) by reflexivity. cbn [bind].
    rewrite (count_ok _ _ _ _ _ _ L (after_header + 4) n [d] []) by reflexivity. cbn [bind].
    rewrite (rest_ok _ _ _ _ _ _ L) by reflexivity. rewrite unpack_d_bad; [reflexivity|]. rewrite P3. nia.
Qed.
Lemma Sqe_back n d rest ws comment f text : array (n :: d :: rest) ws -> stripped (firstn 1024 comment) text -> Sqe_write (mkArr (n :: d :: rest) ws) comment = (f, None) ->
  Sqe_read f = if (count rest =? 1) || (n * d =? 0) then Ok (mkInfo name_Sqe 1 text, mkArr [n; d] ws) else Err StructError.
Proof.
  intros K T W. apply (proj1 (Sqe_write_iff _ _ _ _ K)) in W. destruct W as [A [n' [d' [r [S [N [D ->]]]]]]].
  assert (n' = n) by congruence. assert (d' = d) by congruence. assert (r = rest) by congruence. subst n' d' r. clear S.
  destruct (array_sizes2 _ _ _ _ K) as [P1 [P2 P3]].
  assert (I : Forall int32 [n; d]) by (constructor; [apply lt_int32; auto|constructor; [apply lt_int32; auto|constructor]]).
  destruct ((count rest =? 1) || (n * d =? 0)) eqn:C.
  - apply orb_true_iff in C. rewrite !Z.eqb_eq in C. apply Sqe_read_iff; [apply data_file_byte; auto; repeat constructor; lia|]. exists n, d. split; [auto|].
    apply data_file_holds; auto; try (cbn; lia); try (repeat constructor; lia).
    destruct K as [_ [K2 _]]. split; [constructor; [auto|constructor; auto]|]. split; [auto|]. rewrite !count_cons. unfold count. cbn [fold_right]. destruct C as [C|C]; rewrite C in P3; lia.
  - apply orb_false_iff in C. rewrite !Z.eqb_neq in C. unfold Sqe_read.
    pose proof (data_file_layout name_Sqe comment [n; d] ws ltac:(cbn; lia) I (proj1 (proj2 K))) as L.
    rewrite (header_ok _ _ _ _ _ _ L). cbn [bind]. rewrite (count_ok _ _ _ _ _ _ L after_header n [] [d]) by reflexivity. cbn [bind].
    rewrite (count_ok _ _ _ _ _ _ L (after_header + 4) d [n] []) by reflexivity. cbn [bind].
    rewrite (rest_ok _ _ _ _ _ _ L) by reflexivity. rewrite unpack_d_bad; [reflexivity|]. rewrite P3. nia.
Qed.
Lemma div_mul_nonneg s D : 0 <= s -> D <> 0 -> 0 <= s / D * D.
Proof.
  intros S D0. destruct (Z_lt_ge_dec 0 D) as [P|P].
  - pose proof (Z.div_pos s D S P). nia.
  - pose proof (Z_mod_neg s D ltac:(lia)). pose proof (Z_div_mod_eq_full s D). lia.
Qed.
Lemma Omega2_back n s ws comment D f text : array [n; s] ws -> stripped (firstn 1024 comment) text -> Omega2_write (mkArr [n; s] ws) comment D = (f, None) ->
  Omega2_read f = if (s / D * D =? s) || (n =? 0) then Ok (mkInfo name_Omega2 1 text, mkArr [n; s / D * D] ws) else Err StructError.
Proof.
  intros K T W. apply (proj1 (Omega2_write_iff _ _ _ _ _ K)) in W. destruct W as [A [n' [s' [r [S [N [D1 [D0 [B ->]]]]]]]]].
  assert (n' = n) by congruence. assert (s' = s) by congruence. subst n' s'. clear S.
  destruct (array_sizes2 _ _ _ _ K) as [P1 [P2 P3]]. change (count []) with 1 in P3.
  assert (I : Forall int32 [D; s / D; n]) by (constructor; [auto|constructor; [auto|constructor; [apply lt_int32; auto|constructor]]]).
  destruct ((s / D * D =? s) || (n =? 0)) eqn:C.
  - apply orb_true_iff in C. rewrite !Z.eqb_eq in C. apply Omega2_read_iff; [apply data_file_byte; auto; repeat constructor; lia|]. split; [reflexivity|]. exists n, (s / D), D. split; [auto|].
    apply data_file_holds; auto; try (cbn; lia); try (repeat constructor; lia).
    destruct K as [_ [K2 _]]. split. { constructor; [auto|constructor; [apply div_mul_nonneg; auto|constructor]]. } split; [auto|]. rewrite !count_cons. unfold count. cbn [fold_right]. destruct C as [C|C]; [rewrite C; lia|rewrite C; rewrite C in P3; lia].
  - apply orb_false_iff in C. rewrite !Z.eqb_neq in C. unfold Omega2_read.
    pose proof (data_file_layout name_Omega2 comment [D; s / D; n] ws ltac:(cbn; lia) I (proj1 (proj2 K))) as L.
    rewrite (header_ok _ _ _ _ _ _ L). cbn [bind]. rewrite (count_ok _ _ _ _ _ _ L after_header D [] [s / D; n]) by reflexivity. cbn [bind].
    rewrite (count_ok _ _ _ _ _ _ L (after_header + 4) (s / D) [D] [n]) by reflexivity. cbn [bind].
    rewrite (count_ok _ _ _ _ _ _ L (after_header + 8) n [D; s / D] []) by reflexivity. cbn [bind].
    rewrite (rest_ok _ _ _ _ _ _ L) by reflexivity. rewrite unpack_d_bad; [reflexivity|]. rewrite P3. nia.
Qed.
Lemma reim_length zs : List.length (reim zs) = (2 * List.length zs)%nat.
Proof. induction zs; [reflexivity|]. unfold reim in *. cbn [flat_map List.length]. rewrite app_length, IHzs. cbn. lia. Qed.
Lemma reim_words zs : Forall wf_complex zs -> Forall wf_word (reim zs).
Proof. intros H. induction H as [|z zs [A B] _ IH]; [constructor|]. unfold reim. cbn. constructor; [auto|]. constructor; auto. Qed.
Lemma Pol_back q m b d zs comment f text : 0 <= q -> 0 <= m -> 0 <= b -> 0 <= d -> Forall wf_complex zs -> Z.of_nat (List.length zs) = count [q; m; b; d] ->
  stripped (firstn 1024 comment) text -> Pol_write (mkC [q; m; b; d] zs) comment = (f, None) ->
  Pol_read f = if (m =? b * d) || (q * b * d =? 0) then Ok (mkInfo name_Polarizations 1 text, mkArr [q; b * d; b; d; 2] (reim zs)) else Err StructError.
Proof.
  intros P1 P2 P3 P4 Z K T W. apply (proj1 (Pol_write_iff _ _ _ _ _ _ _ P1 P3 P4)) in W. destruct W as [A [Q [B [D ->]]]].
  assert (I : Forall int32 [d; b; q]) by (constructor; [apply lt_int32; auto|constructor; [apply lt_int32; auto|constructor; [apply lt_int32; auto|constructor]]]).
  pose proof (reim_words _ Z) as ZW. unfold count in K. cbn [fold_right] in K.
  destruct ((m =? b * d) || (q * b * d =? 0)) eqn:C.
  - apply orb_true_iff in C. rewrite !Z.eqb_eq in C. apply Pol_read_iff; [apply data_file_byte; auto; repeat constructor; lia|]. exists q, b, d. split; [auto|].
    apply data_file_holds; auto; try (cbn; lia); try (repeat constructor; lia).
    split. { constructor; [auto|constructor; [nia|constructor; [auto|constructor; [auto|constructor; [lia|constructor]]]]]. } split; [auto|].
    rewrite reim_length. unfold count. cbn [fold_right]. destruct C as [C|C].
    + rewrite C in K. nia.
    + replace (q * (m * (b * (d * 1)))) with (q * b * d * m) in K by ring. replace (q * (b * d * (b * (d * (2 * 1))))) with (q * b * d * (2 * b * d)) by ring. rewrite C in *. lia.
  - apply orb_false_iff in C. rewrite !Z.eqb_neq in C. unfold Pol_read.
    pose proof (data_file_layout name_Polarizations comment [d; b; q] (reim zs) ltac:(cbn; lia) I ZW) as L.
    rewrite (header_ok _ _ _ _ _ _ L). cbn [bind]. rewrite (count_ok _ _ _ _ _ _ L after_header d [] [b; q]) by reflexivity. cbn [bind].
    rewrite (count_ok _ _ _ _ _ _ L (after_header + 4) b [d] [q]) by reflexivity. cbn [bind].
    rewrite (count_ok _ _ _ _ _ _ L (after_header + 8) q [d; b] []) by reflexivity. cbn [bind].
    rewrite (rest_ok _ _ _ _ _ _ L) by reflexivity. rewrite unpack_d_bad; [reflexivity|]. rewrite reim_length.
    intros H. assert (H2 : q * b * d * (b * d) = q * b * d * m) by nia. apply Z.mul_reg_l in H2; [|tauto]. destruct C; congruence.
Qed.
