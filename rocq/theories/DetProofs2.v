(** Proofs for C31: merging event files. *)
From Verif Require Import Base StorageModel StorageSpec StorageProofs StorageToolsModel StorageToolsSpec StorageToolsProofs CliModel DetModel DetSpec DetProofs.
From Coq Require Import QArith Ascii ZifyBool ZifyNat.
Open Scope Z_scope.

(** ** text *)
Lemma text_bytes s : text_of_bytes (bytes_of_text s) = s.
Proof.
  unfold text_of_bytes, bytes_of_text. rewrite map_map. rewrite <- (map_id s) at 2. apply map_ext. intros a.
  rewrite Nat2Z.id. apply ascii_nat_embedding.
Qed.

Lemma lines_line : forall s cur rest, ~ In newline s -> lines_go cur (s ++ newline :: rest) = (cur ++ s) :: lines_go [] rest.
Proof.
  induction s as [|a s IH]; intros cur rest N.
  - rewrite app_nil_r. cbn [app lines_go]. rewrite Ascii.eqb_refl. reflexivity.
  - cbn [app lines_go]. destruct (Ascii.eqb a newline) eqn:E.
    + apply Ascii.eqb_eq in E. exfalso. apply N. left. assumption.
    + rewrite IH; [rewrite <- app_assoc; reflexivity|]. intros K. apply N. right. assumption.
Qed.

Lemma items_of_list files : Forall no_newline files -> xargs_items (list_content files) = files.
Proof.
  intros F. unfold xargs_items, list_content. rewrite text_bytes.
  induction F as [|f fs N F IH]; [reflexivity|].
  cbn [flat_map]. rewrite <- app_assoc. cbn [app]. rewrite lines_line by exact N. cbn [app map].
  rewrite string_of_list_ascii_of_string, IH. reflexivity.
Qed.

Lemma words_plain : forall s cur, forallb (fun a => negb (is_blank a)) s = true -> cur ++ s <> [] ->
  words_go cur s = [cur ++ s].
Proof.
  induction s as [|a s IH]; intros cur F N; cbn in *.
  - rewrite app_nil_r in *. destruct cur; [congruence|reflexivity].
  - apply andb_true_iff in F. destruct F as [Fa F]. destruct (is_blank a); [discriminate|].
    rewrite IH; [rewrite <- app_assoc; reflexivity|assumption|]. destruct cur; discriminate.
Qed.

Lemma plain_not_blank a : plain_char a = true -> negb (is_blank a) = true.
Proof. destruct a as [[] [] [] [] [] [] [] []]; intros H; vm_compute in H |- *; congruence. Qed.

Lemma forallb_impl {A} (f g : A -> bool) l : (forall x, f x = true -> g x = true) -> forallb f l = true -> forallb g l = true.
Proof. intros I. rewrite !forallb_forall. auto. Qed.

Lemma shell_words_plain s : plain s -> s <> EmptyString -> shell_words s = [s].
Proof.
  intros P N. unfold shell_words. rewrite words_plain.
  - cbn [app map]. rewrite string_of_list_ascii_of_string. reflexivity.
  - exact (forallb_impl _ _ _ plain_not_blank P).
  - cbn [app]. destruct s; [congruence|discriminate].
Qed.

(** ** the name of the scratch file *)
Lemma list_ascii_app a b : list_ascii_of_string (a ++ b)%string = list_ascii_of_string a ++ list_ascii_of_string b.
Proof. induction a as [|c a IH]; [reflexivity|]. cbn. rewrite IH. reflexivity. Qed.

Lemma drop_while_all f l r : forallb f l = true -> drop_while f (l ++ r) = drop_while f r.
Proof. induction l as [|a l IH]; [reflexivity|]. cbn. destruct (f a); [assumption|discriminate]. Qed.

Lemma string_app_inj a b : list_ascii_of_string a = list_ascii_of_string b -> a = b.
Proof. intros H. rewrite <- (string_of_list_ascii_of_string a), H. apply string_of_list_ascii_of_string. Qed.

Lemma dirname_slash dir name : no_slash name -> dir <> EmptyString -> (forall t, dir <> (t ++ "/")%string) ->
  text_dirname (list_ascii_of_string (slash dir name)) = list_ascii_of_string dir.
Proof.
  intros N D T. unfold slash. rewrite !list_ascii_app.
  set (l := list_ascii_of_string dir). set (m := list_ascii_of_string name).
  change (list_ascii_of_string "/") with ["/"%char].
  unfold text_dirname.
  assert (E : drop_while (fun a => negb (is_slash a)) (rev (l ++ ["/"%char] ++ m)) = "/"%char :: rev l).
  { rewrite !rev_app_distr. rewrite <- app_assoc. rewrite drop_while_all; [reflexivity|].
    apply forallb_forall. intros a Ha. apply in_rev in Ha. unfold is_slash.
    destruct (Ascii.eqb a "/") eqn:E; [|reflexivity]. apply Ascii.eqb_eq in E. subst a. exfalso. apply N. exact Ha. }
  rewrite E. cbn [rev]. rewrite rev_involutive.
  assert (Ls : exists l' c, l = l' ++ [c] /\ is_slash c = false).
  { destruct (rev l) as [|c r] eqn:R.
    - exfalso. apply D. apply string_app_inj. change (l = []). rewrite <- (rev_involutive l), R. reflexivity.
    - exists (rev r), c. split; [rewrite <- (rev_involutive l), R; reflexivity|].
      destruct (is_slash c) eqn:S; [|reflexivity]. exfalso.
      unfold is_slash in S. apply Ascii.eqb_eq in S. subst c.
      apply (T (string_of_list_ascii (rev r))). apply string_app_inj. rewrite list_ascii_app.
      rewrite list_ascii_of_string_of_list_ascii. change (l = rev r ++ ["/"%char]).
      rewrite <- (rev_involutive l), R. reflexivity. }
  destruct Ls as (l' & c & El & Sc).
  replace (forallb is_slash (l ++ ["/"%char])) with false.
  - rewrite rev_app_distr. cbn [rev app drop_while]. change (is_slash "/") with true. cbn [rev app].
    rewrite El at 1. rewrite rev_app_distr. cbn [rev app drop_while]. rewrite Sc.
    change (c :: rev l') with (rev [c] ++ rev l'). rewrite <- rev_app_distr, rev_involutive. congruence.
  - symmetry. rewrite forallb_app, El, forallb_app. cbn. rewrite Sc. rewrite andb_false_r. reflexivity.
Qed.

Lemma filelist_slash dir name : no_slash name -> dir <> EmptyString -> (forall t, dir <> (t ++ "/")%string) ->
  filelist_of (slash dir name) = scratch dir.
Proof.
  intros N D NT. unfold filelist_of. rewrite dirname_slash by assumption.
  apply string_app_inj. rewrite list_ascii_of_string_of_list_ascii.
  unfold scratch, slash. rewrite !list_ascii_app. change (list_ascii_of_string "/") with ["/"%char].
  unfold text_join. change (T "eventfiles-to-merge.list") with (list_ascii_of_string "eventfiles-to-merge.list").
  set (f := list_ascii_of_string "eventfiles-to-merge.list").
  assert (Ef : f = "e"%char :: tl f) by reflexivity.
  rewrite Ef at 1.
  destruct (rev (list_ascii_of_string dir)) as [|c r] eqn:R.
  - exfalso. apply D. apply string_app_inj. rewrite <- (rev_involutive (list_ascii_of_string dir)), R. reflexivity.
  - destruct (is_slash c) eqn:S; [|reflexivity]. exfalso.
    unfold is_slash in S. apply Ascii.eqb_eq in S. subst c.
    apply (NT (string_of_list_ascii (rev r))). apply string_app_inj. rewrite list_ascii_app.
    rewrite list_ascii_of_string_of_list_ascii. change (list_ascii_of_string "/") with ["/"%char].
    rewrite <- (rev_involutive (list_ascii_of_string dir)), R. reflexivity.
Qed.

Lemma scratch_plain dir : plain dir -> plain (scratch dir) /\ scratch dir <> EmptyString.
Proof.
  intros P. split.
  - unfold plain, scratch, slash in *. rewrite !list_ascii_app, !forallb_app, P. reflexivity.
  - intros E. apply (f_equal String.length) in E. revert E. unfold scratch, slash. clear.
    induction dir; cbn; [discriminate|]. intros E. discriminate.
Qed.

Lemma slash_inj dir a b : slash dir a = slash dir b -> a = b.
Proof. unfold slash. induction dir as [|c d IH]; cbn; intros E; injection E; auto. Qed.

(** ** merge *)
Lemma fs_set_same d p e : fs_set d p e p = e.
Proof. unfold fs_set. rewrite String.eqb_refl. reflexivity. Qed.

Lemma write_file_ok p b d : d p <> Some Dir -> p_write_file p b d = ([(d, p)], fs_set d p (Some (File b)), Ok tt).
Proof. intros N. unfold p_write_file, touching. destruct (d p) as [[]|]; [congruence|reflexivity|reflexivity]. Qed.

Lemma cat_event_files d dir out paths ess d2 : event_files d dir out paths ess ->
  (forall p, p <> out -> p <> scratch dir -> d2 p = d p) ->
  cat_files d2 paths = (flat_map spec_event_bytes (List.concat ess), true).
Proof.
  intros F Fr. unfold cat_files. induction F as [|p es ps ess (N1 & N2 & _ & _ & b & Ed & Wb & Eb) F IH]; [reflexivity|].
  injection IH as I1 I2. cbn [flat_map forallb List.concat]. rewrite I1, I2.
  rewrite Fr, Ed by assumption. rewrite flat_map_app, Eb. reflexivity.
Qed.

Lemma event_files_wf d dir out paths ess : event_files d dir out paths ess -> Forall wf_event (List.concat ess).
Proof.
  induction 1 as [|p es ps ess (_ & _ & _ & _ & b & _ & Wb & _) F IH]; [constructor|].
  cbn. apply Forall_app. split; assumption.
Qed.
Lemma event_files_newline d dir out paths ess : event_files d dir out paths ess -> Forall no_newline paths.
Proof. induction 1 as [|p es ps ess (_ & _ & N & _) F IH]; constructor; assumption. Qed.

Lemma merge_events_ok d dir name paths ess : plain_dir dir -> no_slash name -> name <> "eventfiles-to-merge.list"%string ->
  event_files d dir (slash dir name) paths ess ->
  d (slash dir name) <> Some Dir -> d (scratch dir) <> Some Dir ->
  exists ws d', mergeEventFiles paths (slash dir name) d = (ws, d', Ok tt) /\
    d' (slash dir name) = Some (File (flat_map spec_event_bytes (List.concat ess))) /\
    (forall q, q <> slash dir name -> q <> scratch dir -> d' q = d q) /\
    Forall (fun w => (snd w = slash dir name \/ snd w = scratch dir) /\
                     forall q, q <> slash dir name -> q <> scratch dir -> fst w q = d q) ws.
Proof.
  intros (P & ND & NE & NT) NS NN F Do Ds. pose proof (filelist_slash dir name NS NE NT) as FL.
  set (out := slash dir name) in *.
  assert (NX : out <> scratch dir) by (intros E; apply slash_inj in E; congruence).
  unfold mergeEventFiles. rewrite FL.
  set (s1 := fs_set d (scratch dir) (Some (File (list_content paths)))).
  assert (S1o : s1 out = d out) by (apply fs_set_frame; assumption).
  set (s2 := fs_set s1 out (Some (File []))).
  assert (Fr : forall q, q <> out -> q <> scratch dir -> s2 q = d q).
  { intros q A B. unfold s2, s1. rewrite !fs_set_frame by assumption. reflexivity. }
  assert (Es2 : s2 (scratch dir) = Some (File (list_content paths))).
  { unfold s2. rewrite fs_set_frame by congruence. apply fs_set_same. }
  assert (Esh : shell_cat (scratch dir) out s1 = ([(s1, out); (s2, out)], fs_set s2 out (Some (File (flat_map spec_event_bytes (List.concat ess)))), Ok true)).
  { unfold shell_cat, pbind. rewrite write_file_ok by congruence. fold s2.
    destruct (scratch_plain dir P) as [Ps Pe]. rewrite shell_words_plain by assumption.
    assert (Ec : fst (cat_files s2 [scratch dir]) = list_content paths).
    { unfold cat_files. cbn [flat_map fst]. rewrite Es2. apply app_nil_r. }
    rewrite Ec, items_of_list by (eapply event_files_newline; exact F).
    rewrite (cat_event_files d dir out paths ess s2 F Fr). reflexivity. }
  eexists _, _. split; [|split; [|split]].
  - unfold pbind. rewrite write_file_ok by assumption. fold s1. rewrite Esh. cbn. reflexivity.
  - apply fs_set_same.
  - intros q A B. rewrite fs_set_frame by assumption. apply Fr; assumption.
  - repeat (apply Forall_app; split) || idtac. cbn [app].
    repeat (apply Forall_cons; [cbn [fst snd]; split; [auto|]|]); try apply Forall_nil.
    + reflexivity.
    + intros q A B. apply fs_set_frame. assumption.
    + assumption.
Qed.

Lemma scale_event_wf scale es : (forall w, wf_word w -> wf_word (scale w)) -> Forall wf_event es ->
  Forall wf_event (map (scale_event scale) es).
Proof.
  intros H. induction 1 as [|e es (A & B & C) F IH]; cbn; constructor; [|assumption].
  split; [assumption|]. split; [assumption|]. apply H. assumption.
Qed.

Lemma normalize_events_ok scale path d es : (forall w, wf_word w -> wf_word (scale w)) ->
  Forall wf_event es -> d path = Some (File (flat_map spec_event_bytes es)) ->
  normalizeEventFile scale path d =
    ([(d, path)], fs_set d path (Some (File (flat_map spec_event_bytes (map (scale_event scale) es)))), Ok tt).
Proof.
  intros Hs W E. unfold normalizeEventFile, pbind, p_readEvents. rewrite E.
  rewrite <- flat_event_bytes by assumption.
  rewrite <- (app_nil_r (flat_map event_bytes es)), events_of_all by assumption. cbn [events_of]. rewrite !app_nil_r.
  rewrite write_file_ok by congruence. rewrite flat_event_bytes by (apply scale_event_wf; assumption). reflexivity.
Qed.

Lemma man_events_ok dbl_div d dir name paths ess mcs overwrite :
  (forall f w, wf_word w -> wf_word (dbl_div f w)) ->
  plain_dir dir -> no_slash name -> name <> "eventfiles-to-merge.list"%string ->
  event_files d dir (slash dir name) paths ess -> paths <> [] -> List.length paths = List.length mcs ->
  d (slash dir name) <> Some Dir -> d (scratch dir) <> Some Dir ->
  exists ws d', merge_and_normalize_events dbl_div paths mcs (slash dir name) overwrite d = (ws, d', Ok tt) /\
    d' (slash dir name) = Some (File (flat_map spec_event_bytes (map (scale_event (dbl_div (mcs_sum mcs))) (List.concat ess)))) /\
    (forall q, q <> slash dir name -> q <> scratch dir -> d' q = d q) /\
    Forall (fun w => (snd w = slash dir name \/ snd w = scratch dir) /\
                     forall q, q <> slash dir name -> q <> scratch dir -> fst w q = d q) ws.
Proof.
  intros Hs PD NS NN F NE L Do Ds. set (out := slash dir name) in *.
  assert (NX : out <> scratch dir) by (intros E; apply slash_inj in E; congruence).
  unfold merge_and_normalize_events. rewrite L, Nat.eqb_refl. cbn [negb].
  destruct paths as [|p0 ps]; [congruence|]. set (paths := p0 :: ps) in *.
  set (d1 := if overwrite && fs_exists d out then fs_set d out None else d).
  assert (Fr1 : forall q, q <> out -> d1 q = d q).
  { intros q Hq. unfold d1. destruct (overwrite && fs_exists d out)%bool; [apply fs_set_frame; assumption|reflexivity]. }
  assert (Er : exists ws1, (if overwrite && fs_exists d out then p_remove out else ret tt)%bool d = (ws1, d1, Ok tt) /\
     Forall (fun w => (snd w = out \/ snd w = scratch dir) /\ forall q, q <> out -> q <> scratch dir -> fst w q = d q) ws1).
  { unfold d1. destruct (overwrite && fs_exists d out)%bool eqn:B.
    - apply andb_true_iff in B. destruct B as [_ B]. unfold fs_exists in B.
      unfold p_remove, touching. destruct (d out) as [[]|]; try congruence; try discriminate.
      eexists. split; [reflexivity|]. constructor; [|constructor]. cbn. auto.
    - exists []. split; [reflexivity|constructor]. }
  destruct Er as (ws1 & Er & Fw1).
  assert (F1 : event_files d1 dir out paths ess).
  { unfold event_files in *. eapply Forall2_impl'; [|exact F]. intros p es (A & B & C & D & b & E & W).
    split; [assumption|]. split; [assumption|]. split; [assumption|]. split; [assumption|]. exists b. rewrite Fr1 by assumption. auto. }
  destruct (merge_events_ok d1 dir name paths ess PD NS NN F1) as (ws2 & d2 & E2 & O2 & Fr2 & Fw2).
  { fold out. unfold d1. destruct (overwrite && fs_exists d out)%bool; [rewrite fs_set_same; discriminate|assumption]. }
  { rewrite Fr1 by congruence. assumption. }
  fold out in E2, O2, Fr2, Fw2.
  pose proof (event_files_wf _ _ _ _ _ F) as W.
  pose proof (normalize_events_ok (dbl_div (mcs_sum mcs)) out d2 (List.concat ess) (Hs _) W O2) as E3.
  eexists _, _. split; [|split; [|split]].
  - unfold pbind at 1. cbn [p_exists]. unfold pbind at 1. rewrite Er. unfold pbind at 1. rewrite E2. rewrite E3. reflexivity.
  - apply fs_set_same.
  - intros q A B. rewrite fs_set_frame by assumption. rewrite Fr2 by assumption. apply Fr1. assumption.
  - cbn [app]. apply Forall_app. split; [assumption|]. apply Forall_app. split; [|constructor; [|constructor]].
    + eapply Forall_impl; [|exact Fw2]. cbn. intros w [A B]. split; [assumption|].
      intros q Q1 Q2. rewrite B by assumption. apply Fr1. assumption.
    + cbn. split; [auto|]. intros q Q1 Q2. rewrite Fr2 by assumption. apply Fr1. assumption.
Qed.

(** everything is lost when the shell takes the name of the list apart *)
Lemma merge_events_blank d paths out :
  out <> filelist_of out -> d out <> Some Dir -> d (filelist_of out) <> Some Dir ->
  (forall w, In w (shell_words (filelist_of out)) -> w <> out -> w <> filelist_of out /\ d w = None) ->
  exists ws d', mergeEventFiles paths out d = (ws, d', Ok tt) /\ d' out = Some (File []).
Proof.
  intros N Do Ds H. unfold mergeEventFiles. set (fl := filelist_of out) in *.
  set (s1 := fs_set d fl (Some (File (list_content paths)))).
  set (s2 := fs_set s1 out (Some (File []))).
  assert (Ec : fst (cat_files s2 (shell_words fl)) = []).
  { unfold cat_files. cbn [fst]. induction (shell_words fl) as [|w ws IH]; [reflexivity|]. cbn [flat_map].
    rewrite IH by (intros; apply H; [right|]; assumption). rewrite app_nil_r.
    destruct (string_dec w out) as [->|Nw]; [unfold s2; rewrite fs_set_same; reflexivity|].
    destruct (H w (or_introl eq_refl) Nw) as [A B].
    unfold s2, s1. rewrite !fs_set_frame by assumption. rewrite B. reflexivity. }
  eexists _, _. split.
  - unfold pbind at 1. rewrite write_file_ok by assumption. fold s1.
    unfold pbind, shell_cat, pbind.
    rewrite write_file_ok by (unfold s1; rewrite fs_set_frame by assumption; assumption). fold s2.
    rewrite Ec. cbn. reflexivity.
  - apply fs_set_same.
Qed.

Lemma total_events_div val f c es : (forall w, val (f w) == val w / c)%Q ->
  (total_event_weight val (map (scale_event f) es) == total_event_weight val es / c)%Q.
Proof.
  intros H. unfold total_event_weight. induction es as [|e es IH]; cbn [map fold_right].
  - unfold Qdiv. ring.
  - rewrite IH. cbn [scale_event ev_n]. rewrite H. unfold Qdiv. ring.
Qed.

Lemma map_event_reweighted f es : Forall2 (event_reweighted f) es (map (scale_event f) es).
Proof. induction es; constructor; [repeat split|assumption]. Qed.
