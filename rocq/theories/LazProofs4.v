(** Proofs for C63 and C64: the file that create_lau writes; laz files. *)
From Coq Require Import Ascii DecimalString Reals Sorting.Sorted Sorting.Permutation.
From Verif Require Import Base PyStr RotModel PeakModel LazModel LazSpec LazProofs LazProofs2 LazProofs3.
Open Scope Z_scope.

(** ** Any line of visible characters and gaps has words *)
Lemma layout_gap : forall c s ws, gap_char c -> layout s ws -> layout (String c s) ws.
Proof.
  intros c s ws C H. destruct H as [g G|g w rest ws G W R H].
  - apply layout_nil. now split.
  - change (String c (g ++ w ++ rest)) with ((String c g) ++ w ++ rest)%string. apply layout_cons; try assumption. now split.
Qed.
Lemma layout_visible : forall c s ws, visible c -> layout s ws -> exists ws', layout (String c s) ws'.
Proof.
  intros c s ws C H. assert (W1 : word (String c EmptyString)) by (split; [discriminate|split; [exact C|exact I]]). destruct H as [g G|g w rest ws G W R H].
  - exists [String c EmptyString]. change (String c g) with (EmptyString ++ String c EmptyString ++ g)%string. apply layout_cons; [exact I|exact W1| |now apply layout_nil].
    destruct g as [|d g]; [now left|right]. exists d, g. split; [reflexivity|exact (proj1 G)].
  - destruct g as [|d g].
    + exists (String c w :: ws). change (String c (EmptyString ++ w ++ rest)) with (EmptyString ++ String c w ++ rest)%string. apply layout_cons; try assumption. split; [discriminate|split; [exact C|exact (proj2 W)]].
    + exists (String c EmptyString :: w :: ws). change (String c (String d g ++ w ++ rest)) with (EmptyString ++ String c EmptyString ++ (String d g ++ w ++ rest))%string.
      apply layout_cons; [exact I|exact W1| |now apply layout_cons]. right. exists d, (g ++ w ++ rest)%string. split; [reflexivity|exact (proj1 G)].
Qed.
Lemma layout_of : forall s, all_chars (fun c => visible c \/ gap_char c) s -> layout s (words s).
Proof.
  intros s H. assert (E : exists ws, layout s ws).
  { induction s as [|c s IH]; [exists []; apply layout_nil; exact I|]. destruct H as [A B]. destruct (IH B) as (ws & Hw). destruct A as [A|A]; [now apply (layout_visible c s ws)|exists ws; now apply layout_gap]. }
  destruct E as (ws & Hw). now rewrite (words_layout s ws Hw).
Qed.
Lemma all_cat : forall P a b, all_chars P a -> all_chars P b -> all_chars P (a ++ b).
Proof. induction a as [|c a IH]; intros b A B; [exact B|]. destruct A as [A1 A2]. split; [exact A1|now apply IH]. Qed.
Lemma words_sp : forall w r, word w -> words (w ++ " " ++ r) = w :: words r.
Proof. intros w r W. destruct (word_nospace w W) as [N A]. exact (words_cons w " "%char r N A eq_refl). Qed.
Lemma word_line : forall w, word w -> all_chars (fun c => visible c \/ gap_char c) w.
Proof. intros w [_ A]. revert A. apply all_impl. now left. Qed.
Lemma str_chars : forall (P : ascii -> Prop) z, Forall P ["-"; "0"; "1"; "2"; "3"; "4"; "5"; "6"; "7"; "8"; "9"]%char -> all_chars P (str_of_Z z).
Proof.
  intros P z H. rewrite Forall_forall in H. assert (U : forall d, all_chars P (NilEmpty.string_of_uint d)) by (induction d; cbn [NilEmpty.string_of_uint all_chars]; try exact I; (split; [apply H; cbn; tauto|assumption])).
  unfold str_of_Z. destruct (Z.to_int z) as [d|d]; cbn [NilEmpty.string_of_int]; [apply U|]. split; [apply H; now left|apply U].
Qed.
Lemma str_word : forall z, word (str_of_Z z).
Proof. intros z. split; [apply str_of_Z_nonempty|]. apply str_chars. repeat (constructor; [unfold visible; vm_compute; lia|]). constructor. Qed.
Lemma str_nohash : forall z, all_chars (fun c => c <> "#"%char) (str_of_Z z).
Proof. intros z. apply str_chars. repeat (constructor; [discriminate|]). constructor. Qed.
Lemma concat_head : forall sep a b l, String.concat sep ((a ++ b)%string :: l) = (a ++ String.concat sep (b :: l))%string.
Proof. intros sep a b [|c l]; cbn [String.concat]; [reflexivity|]. rewrite append_assoc. reflexivity. Qed.
Lemma distinct_of : forall f, NoDup (map fst (keyed f)) -> distinct_names f.
Proof. intros f H f1 l1 f2 l2 f3 k E C1 C2 N1 N2. apply (same_keys f); [|exact H]. now exists f1, l1, f2, l2, f3, k. Qed.
Lemma text_nl : forall l f, f <> [] -> text_of (l :: f) = (fst l ++ String (ascii_of_nat 10) (text_of f))%string.
Proof. intros l [|l2 f] H; [congruence|reflexivity]. Qed.

Section roundtrip.
Context (fmt : R -> string) (FW : forall x, word (fmt x) /\ all_chars (fun c => c <> "#"%char) (fmt x)).
Definition cell_text (a b c al be ga : R) : string := ("# CELL " ++ fmt a ++ " " ++ fmt b ++ " " ++ fmt c ++ " " ++ fmt al ++ " " ++ fmt be ++ " " ++ fmt ga)%string.
Definition with_words (s : string) : line := (s, words s).
Definition head_lines : list line :=
  map with_words ["# column_j  4 multiplicity 'j'"; "# column_d  5 d-spacing 'd' in [Angs]"; "# column_F2 6 norm of scattering factor |F|^2 in [fm^2]"; "# column_h  1"; "# column_k  2"; "# column_l  3"; "# h   k   l Mult. d-space  F-squared"; ""]%string.
Definition lau_lines (a b c al be ga : R) (pks : list reflection) : list line :=
  with_words (cell_text a b c al be ga) :: head_lines ++ map (fun pk => with_words (lau_line fmt pk)) pks.
Lemma text_data : forall pks, text_of (with_words "" :: map (fun pk => with_words (lau_line fmt pk)) pks) = String.concat (String nl EmptyString) (EmptyString :: map (lau_line fmt) pks).
Proof.
  assert (G : forall s pks, text_of (with_words s :: map (fun pk => with_words (lau_line fmt pk)) pks) = String.concat (String nl EmptyString) (s :: map (lau_line fmt) pks)).
  { intros s pks. revert s. induction pks as [|pk pks IH]; intros s; [reflexivity|]. cbn [map]. rewrite text_nl by discriminate. rewrite IH. reflexivity. }
  intros pks. apply G.
Qed.
Lemma lau_text : forall a b c al be ga pks, text_of (lau_lines a b c al be ga pks) = create_lau fmt a b c al be ga pks.
Proof.
  intros a b c al be ga pks. unfold create_lau. rewrite <- (append_nil (header fmt a b c al be ga)), concat_head, <- text_data. unfold lau_lines, head_lines.
  rewrite text_nl by discriminate. cbn [map app]. rewrite !text_nl by discriminate. set (T := text_of (with_words "" :: _)). unfold header, cell_text, with_words. cbn [fst].
  repeat first [rewrite append_assoc | progress cbn [append]]. reflexivity.
Qed.
Ltac chars := repeat first [apply all_cat | apply word_line; first [apply FW | apply str_word]]; cbn [all_chars]; repeat split; first [left; unfold visible; vm_compute; lia | right; left; reflexivity].
Lemma lau_line_words : forall pk, words (lau_line fmt pk) = [str_of_Z (f_h pk); str_of_Z (f_k pk); str_of_Z (f_l pk); str_of_Z (f_mult pk); fmt (f_d pk); fmt (f_F2 pk * 100)%R].
Proof using FW.
  intros pk. unfold lau_line. rewrite !words_sp by first [apply FW | apply str_word]. destruct (word_nospace _ (proj1 (FW (f_F2 pk * 100)%R))) as [N A]. now rewrite (words_one _ N A).
Qed.
Lemma lau_line_ok : forall pk, layout (lau_line fmt pk) (words (lau_line fmt pk)) /\ data_line (with_words (lau_line fmt pk)).
Proof using FW.
  intros pk. split.
  - apply layout_of. unfold lau_line. chars.
  - unfold data_line, with_words, lau_line. cbn [fst]. repeat first [apply all_cat | apply FW | apply str_nohash]; (split; [discriminate|exact I]).
Qed.
Lemma cell_words : forall a b c al be ga, words (cell_text a b c al be ga) = ["#"%string; "CELL"%string; fmt a; fmt b; fmt c; fmt al; fmt be; fmt ga].
Proof using FW.
  intros a b c al be ga. unfold cell_text. change ("# CELL " ++ ?x)%string with ("#" ++ " " ++ "CELL" ++ " " ++ x)%string.
  assert (W1 : word "#") by (split; [discriminate|split; [unfold visible; vm_compute; lia|exact I]]).
  assert (W2 : word "CELL") by (split; [discriminate|repeat split; unfold visible; vm_compute; lia]).
  rewrite !words_sp by first [apply FW | assumption]. destruct (word_nospace _ (proj1 (FW ga))) as [N A]. now rewrite (words_one _ N A).
Qed.
Lemma lau_wf : forall a b c al be ga pks, well_formed (lau_lines a b c al be ga pks).
Proof using FW.
  intros a b c al be ga pks. constructor; [split|].
  - apply layout_of. unfold with_words, cell_text. cbn [fst]. chars.
  - left. now eexists.
  - apply Forall_app. split.
    + unfold head_lines. cbn [map]. repeat (apply Forall_cons; [split; [apply layout_of; unfold with_words; cbn [fst]; chars|first [left; eexists; reflexivity | right; exact I]]|]). constructor.
    + rewrite Forall_forall. intros l Hl. apply in_map_iff in Hl. destruct Hl as (pk & <- & _). destruct (lau_line_ok pk) as [A B]. split; [exact A|now right].
Qed.
Lemma lau_ended : forall a b c al be ga pks, ended (lau_lines a b c al be ga pks).
Proof using FW.
  intros a b c al be ga pks. unfold lau_lines. destruct (exists_last (l := head_lines ++ map (fun pk => with_words (lau_line fmt pk)) pks)) as (f0 & l & E); [discriminate|].
  exists (with_words (cell_text a b c al be ga) :: f0), l. rewrite E. split; [reflexivity|]. destruct pks as [|pk pks].
  - cbn [map] in E. rewrite app_nil_r in E. unfold head_lines in E. cbn [map] in E.
    change (?a1 :: ?a2 :: ?a3 :: ?a4 :: ?a5 :: ?a6 :: ?a7 :: ?a8 :: []) with ([a1; a2; a3; a4; a5; a6; a7] ++ [a8]) in E. apply app_inj_tail in E. destruct E as [_ <-]. exact I.
  - destruct (exists_last (l := pk :: pks)) as (p0 & p & Ep); [discriminate|]. rewrite Ep, map_app, app_assoc in E. apply app_inj_tail in E. destruct E as [_ <-]. apply lau_line_ok.
Qed.
Lemma rows_data : forall pks, filter (fun l : line => match snd l with [] => false | _ => negb (match fst l with String c _ => Ascii.eqb c "#" | EmptyString => false end) end) (map (fun pk => with_words (lau_line fmt pk)) pks) = map (fun pk => with_words (lau_line fmt pk)) pks.
Proof using FW.
  induction pks as [|pk pks IH]; [reflexivity|]. cbn [map filter]. rewrite IH. pose proof (hashed_data _ (proj2 (lau_line_ok pk))) as H. unfold hashed in H. rewrite H.
  unfold with_words at 1. cbn [snd]. now rewrite lau_line_words.
Qed.
Lemma lau_rows : forall a b c al be ga pks, rows (lau_lines a b c al be ga pks) = map (fun pk => [str_of_Z (f_h pk); str_of_Z (f_k pk); str_of_Z (f_l pk); str_of_Z (f_mult pk); fmt (f_d pk); fmt (f_F2 pk * 100)%R]) pks.
Proof using FW.
  intros a b c al be ga pks. unfold rows, lau_lines. cbn [filter]. unfold with_words at 1 2. cbn [fst snd]. rewrite cell_words. cbn [cell_text append]. change (Ascii.eqb "#" "#") with true. cbn [negb].
  rewrite filter_app, rows_data. change (filter _ head_lines) with (@nil line). cbn [app]. rewrite map_map. apply map_ext. intros pk. apply lau_line_words.
Qed.
Lemma remarks_data : forall pks, filter (fun l : line => match fst l with String c _ => Ascii.eqb c "#" | EmptyString => false end) (map (fun pk => with_words (lau_line fmt pk)) pks) = [].
Proof using FW.
  induction pks as [|pk pks IH]; [reflexivity|]. cbn [map filter]. rewrite IH. pose proof (hashed_data _ (proj2 (lau_line_ok pk))) as H. unfold hashed in H. now rewrite H.
Qed.
Definition lau_remarks (a b c al be ga : R) : list (list string) :=
  [["#"; "CELL"; fmt a; fmt b; fmt c; fmt al; fmt be; fmt ga]; ["#"; "column_j"; "4"; "multiplicity"; "'j'"]; ["#"; "column_d"; "5"; "d-spacing"; "'d'"; "in"; "[Angs]"];
   ["#"; "column_F2"; "6"; "norm"; "of"; "scattering"; "factor"; "|F|^2"; "in"; "[fm^2]"]; ["#"; "column_h"; "1"]; ["#"; "column_k"; "2"]; ["#"; "column_l"; "3"]; ["#"; "h"; "k"; "l"; "Mult."; "d-space"; "F-squared"]]%string.
Lemma lau_remarks_ok : forall a b c al be ga pks, remarks (lau_lines a b c al be ga pks) = lau_remarks a b c al be ga.
Proof using FW.
  intros a b c al be ga pks. unfold lau_lines.
  assert (E : forall y, remarks (with_words (cell_text a b c al be ga) :: y) = words (cell_text a b c al be ga) :: remarks y) by reflexivity.
  rewrite E, cell_words. unfold remarks. rewrite filter_app, remarks_data, app_nil_r. reflexivity.
Qed.
Lemma keyed_data : forall pks, keyed (map (fun pk => with_words (lau_line fmt pk)) pks) = [].
Proof using FW.
  intros pks. destruct (keyed (map (fun pk => with_words (lau_line fmt pk)) pks)) as [|[k s] t] eqn:E; [reflexivity|].
  assert (I1 : In (k, s) (keyed (map (fun pk => with_words (lau_line fmt pk)) pks))) by (rewrite E; now left). apply keyed_in in I1. destruct I1 as (l & I1 & C & _). apply in_map_iff in I1. destruct I1 as (pk & <- & _).
  apply hashed_comment in C. rewrite (hashed_data _ (proj2 (lau_line_ok pk))) in C. discriminate C.
Qed.
Lemma plain_named : forall w k ws, ~ atom_word k -> named (w :: k :: ws) k. Proof. intros. now constructor. Qed.
Lemma lau_keys : forall a b c al be ga pks, map fst (keyed (lau_lines a b c al be ga pks)) = ["CELL"; "column_j"; "column_d"; "column_F2"; "column_h"; "column_k"; "column_l"; "h"]%string.
Proof using FW.
  intros a b c al be ga pks. unfold lau_lines. change (?x :: ?y ++ ?z) with ([x] ++ y ++ z). rewrite !keyed_app, keyed_data, app_nil_r.
  rewrite (keyed_one _ "CELL"%string); [reflexivity|now eexists|]. unfold with_words. cbn [snd]. rewrite cell_words. constructor. now apply not_atom.
Qed.
Lemma lau_nameable : forall a b c al be ga pks, nameable (lau_lines a b c al be ga pks).
Proof using FW.
  intros a b c al be ga pks ws H. right. rewrite lau_remarks_ok in H. cbn [lau_remarks In] in H. repeat (destruct H as [<-|H]; [eexists; apply named_plain; first [now apply not_atom | intros (x & t & o & m & r & E & [->| ->] & _); discriminate E]|]). contradiction H.
Qed.
Lemma lau_columns_ok : forall a b c al be ga pks, columns_ok (lau_lines a b c al be ga pks).
Proof using FW.
  intros a b c al be ga pks w k ws H. rewrite lau_remarks_ok in H. cbn [lau_remarks In] in H.
  repeat (destruct H as [H|H]; [first [discriminate H | injection H as _ _ <-; first [now exists 1, [] | now exists 2, [] | now exists 3, [] | eexists 4, _; reflexivity | eexists 5, _; reflexivity | eexists 6, _; reflexivity]]|]). contradiction H.
Qed.
Context (py_float : string -> option R) (L : Type) (Lattice : R -> R -> R -> R -> R -> R -> result L).
Lemma roundtrip : forall a b c al be ga pks lat, Forall (fun x => py_float (fmt x) = Some x) [a; b; c; al; be; ga] ->
  Forall (fun pk => py_float (fmt (f_F2 pk * 100)%R) = Some (f_F2 pk * 100)%R /\ Forall (fun n => py_float (str_of_Z n) = Some (IZR n)) [f_h pk; f_k pk; f_l pk]) pks -> Lattice a b c al be ga = Ok lat ->
  lau_parse py_float L Lattice (create_lau fmt a b c al be ga pks) = Ok (lat, map (fun pk => mkHKL (IZR (f_h pk)) (IZR (f_k pk)) (IZR (f_l pk)) (f_F2 pk * 100)%R) pks).
Proof using FW.
  intros a b c al be ga pks lat PF PK EL. rewrite <- lau_text. rewrite Forall_forall in PF.
  destruct (lau_main py_float L Lattice (lau_lines a b c al be ga pks) lat (fmt a) (fmt b) (fmt c) (fmt al) (fmt be) (fmt ga) a b c al be ga 1 2 3 6) as (hkls & E & F); try (apply PF; cbn; tauto); try exact EL.
  - apply lau_wf.
  - apply lau_ended.
  - apply lau_nameable.
  - apply distinct_of. rewrite lau_keys. repeat constructor; cbn [In]; intuition discriminate.
  - apply lau_columns_ok.
  - exists []. rewrite lau_remarks_ok. split; [now left|]. repeat constructor; apply FW.
  - exists "#"%string, []. rewrite lau_remarks_ok. split; [do 4 right; now left|lia].
  - exists "#"%string, []. rewrite lau_remarks_ok. split; [do 5 right; now left|lia].
  - exists "#"%string, []. rewrite lau_remarks_ok. split; [do 6 right; now left|lia].
  - exists "#"%string, ["norm"; "of"; "scattering"; "factor"; "|F|^2"; "in"; "[fm^2]"]%string. rewrite lau_remarks_ok. split; [do 3 right; now left|lia].
  - rewrite lau_rows, Forall_forall. intros row Hr. apply in_map_iff in Hr. destruct Hr as (pk & <- & Ip). rewrite Forall_forall in PK. destruct (PK pk Ip) as [PF2 PZ]. rewrite Forall_forall in PZ. exists (mkHKL (IZR (f_h pk)) (IZR (f_k pk)) (IZR (f_l pk)) (f_F2 pk * 100)%R).
    repeat split; cbn [x_h x_k x_l x_F2]; eexists; (split; [split; [lia|reflexivity]|first [exact PF2|apply PZ; cbn; tauto]]).
  - rewrite E. f_equal. f_equal. rewrite lau_rows in F. clear E. revert hkls F. induction PK as [|pk pks [PF2 PZ] PK IH]; intros hkls F; inversion F as [|? x ? hk S F' E1 E2]; subst; [reflexivity|]. cbn [map]. rewrite <- (IH _ F'). f_equal. rewrite Forall_forall in PZ.
    destruct S as ((w1 & [_ E1] & P1) & (w2 & [_ E2] & P2) & (w3 & [_ E3] & P3) & (w4 & [_ E4] & P4)). cbn in E1, E2, E3, E4. injection E1 as <-. injection E2 as <-. injection E3 as <-. injection E4 as <-.
    rewrite (PZ (f_h pk)) in P1 by (cbn; tauto). rewrite (PZ (f_k pk)) in P2 by (cbn; tauto). rewrite (PZ (f_l pk)) in P3 by (cbn; tauto). rewrite PF2 in P4. destruct x. cbn in *. congruence.
Qed.
End roundtrip.
