(** C63, C64: files of reflections (lau, laz). *)
From Coq Require Import Ascii Reals Lra Sorting.Sorted Sorting.Permutation.
From Verif Require Import Base PyStr RotModel PeakModel LazModel LazSpec LazProofs LazProofs2 LazProofs3 LazProofs4 LazProofs5.
Open Scope Z_scope.

(** ** Lau files *)

(** A lau file gives the lattice of its CELL line, and for every row of the table, in order, the numbers in the columns that the comments name. *)
Theorem C63_lau : forall py_float L (Lattice : R -> R -> R -> R -> R -> R -> result L) f lat wa wb wc wal wbe wga a b c al be ga nh nk nn nf,
  well_formed f -> ended f -> nameable f -> distinct_names f -> columns_ok f -> says_cell f wa wb wc wal wbe wga ->
  py_float wa = Some a -> py_float wb = Some b -> py_float wc = Some c -> py_float wal = Some al -> py_float wbe = Some be -> py_float wga = Some ga ->
  Lattice a b c al be ga = Ok lat ->
  column f "column_h" nh -> column f "column_k" nk -> column f "column_l" nn -> column f "column_F2" nf ->
  Forall (fun row => exists h k l F2, reads py_float row nh h /\ reads py_float row nk k /\ reads py_float row nn l /\ reads py_float row nf F2) (rows f) ->
  exists hkls, lau_parse py_float L Lattice (text_of f) = Ok (lat, hkls) /\
    Forall2 (fun row x => reads py_float row nh (x_h x) /\ reads py_float row nk (x_k x) /\ reads py_float row nn (x_l x) /\ reads py_float row nf (x_F2 x)) (rows f) hkls.
Proof.
  intros py_float L Lattice f lat wa wb wc wal wbe wga a b c al be ga nh nk nn nf W E N D CO SC Ea Eb Ec Eal Ebe Ega EL Ch Ck Cl Cf RW.
  apply (lau_main py_float L Lattice f lat wa wb wc wal wbe wga a b c al be ga nh nk nn nf); try assumption.
  revert RW. apply Forall_impl. intros row (h & k & l & F2 & H). now exists (mkHKL h k l F2).
Qed.
Print Assumptions C63_lau.

(** The numbers of the examples: float() of a word that is an integer; the lattice is the triple of the edges. *)
Definition ex_float (s : string) : option R := option_map IZR (py_int s).
Definition ex_lattice (a b c al be ga : R) : result (R * R * R) := Ok (a, b, c).
Definition ex_lau : list line :=
  map with_words ["# CELL 3 4 5 90 90 120"; "# source made by hand"; "#"; "# column_F2 5 structure factor"; "# column_l 3"; "# column_k 2"; "# column_h 1"; "1 0 0 6 25"; ""; "  0 2 -1	4   7"; "# ATOM Fe 2"; ""]%string.
Ltac lay := apply layout_of; cbn [fst with_words all_chars]; repeat split; first [left; unfold visible; vm_compute; lia | right; first [left; reflexivity | right; reflexivity]].
Lemma ex_lau_wf : well_formed ex_lau.
Proof.
  unfold ex_lau, well_formed. cbn [map]. repeat (apply Forall_cons; [split; [lay|first [left; eexists; reflexivity | right; cbn [data_line with_words fst all_chars]; unfold data_line; cbn [with_words fst all_chars]; repeat split; discriminate]]|]). constructor.
Qed.
Lemma ex_lau_ended : ended ex_lau.
Proof. exists (firstn 11 ex_lau), (with_words ""). split; [reflexivity|exact I]. Qed.
Lemma ex_lau_remarks : remarks ex_lau = [["#"; "CELL"; "3"; "4"; "5"; "90"; "90"; "120"]; ["#"; "source"; "made"; "by"; "hand"]; ["#"]; ["#"; "column_F2"; "5"; "structure"; "factor"]; ["#"; "column_l"; "3"]; ["#"; "column_k"; "2"]; ["#"; "column_h"; "1"]; ["#"; "ATOM"; "Fe"; "2"]]%string.
Proof. reflexivity. Qed.
Ltac name_it := first [left; cbn; lia | right; eexists; apply named_plain; first [now apply not_atom | intros (x & t & o & m & r & E & [->| ->] & _); discriminate E]
  | right; eexists; apply named_atom; do 5 eexists; split; [reflexivity|]; repeat split; first [now left | now right]].
Lemma ex_lau_nameable : nameable ex_lau.
Proof. intros ws H. rewrite ex_lau_remarks in H. cbn [In] in H. repeat (destruct H as [<-|H]; [name_it|]). contradiction H. Qed.
Lemma ex_lau_distinct : distinct_names ex_lau.
Proof. apply distinct_of. change (map fst (keyed ex_lau)) with ["CELL"; "source"; "column_F2"; "column_l"; "column_k"; "column_h"; "ATOM_Fe"]%string. repeat constructor; cbn [In]; intuition discriminate. Qed.
Lemma ex_lau_columns : columns_ok ex_lau.
Proof.
  intros w k ws H. rewrite ex_lau_remarks in H. cbn [In] in H.
  repeat (destruct H as [H|H]; [first [discriminate H | injection H as _ _ <-; first [now exists 1, [] | now exists 2, [] | now exists 3, [] | eexists 5, _; reflexivity]]|]). contradiction H.
Qed.
Example C63_lau_example : exists hkls, lau_parse ex_float _ ex_lattice (text_of ex_lau) = Ok (3%R, 4%R, 5%R, hkls) /\ rows ex_lau = [["1"; "0"; "0"; "6"; "25"]; ["0"; "2"; "-1"; "4"; "7"]]%string /\
  Forall2 (fun row x => reads ex_float row 1 (x_h x) /\ reads ex_float row 2 (x_k x) /\ reads ex_float row 3 (x_l x) /\ reads ex_float row 5 (x_F2 x)) (rows ex_lau) hkls.
Proof.
  destruct (C63_lau ex_float _ ex_lattice ex_lau (3%R, 4%R, 5%R) "3" "4" "5" "90" "90" "120" 3 4 5 90 90 120 1 2 3 5 ex_lau_wf ex_lau_ended ex_lau_nameable ex_lau_distinct ex_lau_columns) as (hkls & E & F); try reflexivity.
  - exists []. rewrite ex_lau_remarks. split; [now left|]. repeat constructor; cbn; repeat split; discriminate.
  - exists "#"%string, []. rewrite ex_lau_remarks. split; [cbn; tauto|lia].
  - exists "#"%string, []. rewrite ex_lau_remarks. split; [cbn; tauto|lia].
  - exists "#"%string, []. rewrite ex_lau_remarks. split; [cbn; tauto|lia].
  - exists "#"%string, ["structure"; "factor"]%string. rewrite ex_lau_remarks. split; [cbn; tauto|lia].
  - change (rows ex_lau) with [["1"; "0"; "0"; "6"; "25"]; ["0"; "2"; "-1"; "4"; "7"]]%string. repeat (apply Forall_cons; [do 4 eexists; repeat split; eexists; (split; [split; [lia|reflexivity]|reflexivity])|]). constructor.
  - exists hkls. split; [exact E|]. split; [reflexivity|exact F].
Qed.

(** A file in which two comments have the same name is refused. *)
Theorem C63_duplicate : forall py_float L (Lattice : R -> R -> R -> R -> R -> R -> result L) f, well_formed f -> ended f -> nameable f -> same_names f -> lau_parse py_float L Lattice (text_of f) = Err RuntimeError.
Proof. intros py_float L Lattice f W E N D. unfold lau_parse. now rewrite (read_file_dup f W E N D). Qed.
Print Assumptions C63_duplicate.
(** Two oxygen atoms: both comments have the name ATOM_O. *)
Definition two_atoms : list line := map with_words ["# ATOM O 1"; "# ATOM Fe 2"; "# ATOM O 3"; ""]%string.
Example C63_duplicate_example : lau_parse ex_float _ ex_lattice (text_of two_atoms) = Err RuntimeError.
Proof.
  apply C63_duplicate.
  - unfold two_atoms, well_formed. cbn [map]. repeat (apply Forall_cons; [split; [lay|first [left; eexists; reflexivity | right; exact I]]|]). constructor.
  - exists (firstn 3 two_atoms), (with_words ""). split; [reflexivity|exact I].
  - intros ws H. change (remarks two_atoms) with [["#"; "ATOM"; "O"; "1"]; ["#"; "ATOM"; "Fe"; "2"]; ["#"; "ATOM"; "O"; "3"]]%string in H. cbn [In] in H. repeat (destruct H as [<-|H]; [name_it|]). contradiction H.
  - exists [], (with_words "# ATOM O 1"), [with_words "# ATOM Fe 2"], (with_words "# ATOM O 3"), [with_words ""], "ATOM_O"%string. split; [reflexivity|]. split; [now eexists|]. split; [now eexists|].
    assert (A : atom_word "ATOM") by (do 5 eexists; split; [reflexivity|]; repeat split; now right). split; exact (named_atom "#" "ATOM" "O" _ A).
Qed.

(** The file that create_lau writes is read back as the same lattice and, for every peak, its indices and a hundred times its F2 (fm^2 for barn). *)
Theorem C63_create_lau : forall py_float (fmt : R -> string) L (Lattice : R -> R -> R -> R -> R -> R -> result L), (forall x, word (fmt x) /\ all_chars (fun c => c <> "#"%char) (fmt x)) ->
  forall a b c al be ga pks lat, Forall (fun x => py_float (fmt x) = Some x) [a; b; c; al; be; ga] ->
  Forall (fun pk => py_float (fmt (f_F2 pk * 100)%R) = Some (f_F2 pk * 100)%R /\ Forall (fun n => py_float (str_of_Z n) = Some (IZR n)) [f_h pk; f_k pk; f_l pk]) pks -> Lattice a b c al be ga = Ok lat ->
  lau_parse py_float L Lattice (create_lau fmt a b c al be ga pks) = Ok (lat, map (fun pk => mkHKL (IZR (f_h pk)) (IZR (f_k pk)) (IZR (f_l pk)) (f_F2 pk * 100)%R) pks).
Proof. intros py_float fmt L Lattice FW. exact (roundtrip fmt FW py_float L Lattice). Qed.
Print Assumptions C63_create_lau.
Definition ex_fmt (x : R) : string := if Req_EM_T x 4 then "4"%string else if Req_EM_T x 90 then "90"%string else "250"%string.
Example C63_create_lau_example : lau_parse ex_float _ ex_lattice (create_lau ex_fmt 4 4 4 90 90 90 [mkRf 1 0 (-1) 1 4 (5/2); mkRf 2 0 0 1 4 (5/2)]) = Ok (4%R, 4%R, 4%R, [mkHKL 1 0 (-1) (5/2 * 100); mkHKL 2 0 0 (5/2 * 100)]).
Proof.
  assert (F4 : ex_float (ex_fmt 4) = Some 4%R) by (unfold ex_fmt; destruct (Req_EM_T 4 4); [reflexivity|congruence]).
  assert (F90 : ex_float (ex_fmt 90) = Some 90%R) by (unfold ex_fmt; destruct (Req_EM_T 90 4); [lra|]; destruct (Req_EM_T 90 90); [reflexivity|congruence]).
  assert (F250 : ex_float (ex_fmt (5 / 2 * 100)) = Some (5 / 2 * 100)%R).
  { unfold ex_fmt. destruct (Req_EM_T (5 / 2 * 100) 4); [lra|]. destruct (Req_EM_T (5 / 2 * 100) 90); [lra|]. unfold ex_float. change (py_int "250") with (Some 250). cbn [option_map]. f_equal. lra. }
  apply (C63_create_lau ex_float ex_fmt _ ex_lattice).
  - intros x. unfold ex_fmt. destruct (Req_EM_T x 4); [|destruct (Req_EM_T x 90)]; (split; [split; [discriminate|cbn; unfold visible; repeat split; vm_compute; lia]|cbn; repeat split; discriminate]).
  - repeat constructor; assumption.
  - repeat constructor; try exact F250; reflexivity.
  - reflexivity.
Qed.

(** A comment at the end of a row changes what is read: the row after it is joined to its own. *)
Definition small_head : string := ("# CELL 3 4 5 90 90 120" ++ String nl ("# column_h 1" ++ String nl ("# column_k 2" ++ String nl ("# column_l 3" ++ String nl ("# column_F2 4" ++ String nl EmptyString)))))%string.
Theorem C63_remark_after_row_refuted : ~ (forall head row remark rest, all_chars (fun c => c <> nl) remark ->
  lau_parse ex_float _ ex_lattice (head ++ row ++ " #" ++ remark ++ String nl rest) = lau_parse ex_float _ ex_lattice (head ++ row ++ String nl rest)).
Proof.
  intros H. specialize (H small_head "1 0 0 25"%string " weak"%string ("2 0 0 36" ++ String nl EmptyString)%string ltac:(cbn; repeat split; discriminate)).
  assert (A : lau_parse ex_float _ ex_lattice (small_head ++ "1 0 0 25" ++ " #" ++ " weak" ++ String nl ("2 0 0 36" ++ String nl EmptyString)) = Ok (3%R, 4%R, 5%R, [mkHKL 1 0 0 25])) by reflexivity.
  assert (B : lau_parse ex_float _ ex_lattice (small_head ++ "1 0 0 25" ++ String nl ("2 0 0 36" ++ String nl EmptyString)) = Ok (3%R, 4%R, 5%R, [mkHKL 1 0 0 25; mkHKL 2 0 0 36])) by reflexivity.
  rewrite A, B in H. discriminate H.
Qed.
Print Assumptions C63_remark_after_row_refuted.
(** The end of line behind the last comment matters: without it the comment is read as a row. *)
Theorem C63_last_comment_refuted : ~ (forall text remark, all_chars (fun c => c <> nl) remark ->
  lau_parse ex_float _ ex_lattice (text ++ String nl (String "#" remark)) = lau_parse ex_float _ ex_lattice (text ++ String nl (String "#" (remark ++ String nl EmptyString)))).
Proof.
  intros H. specialize (H (small_head ++ "1 0 0 25")%string " end of file"%string ltac:(cbn; repeat split; discriminate)).
  assert (A : lau_parse ex_float _ ex_lattice ((small_head ++ "1 0 0 25") ++ String nl (String "#" " end of file")) = Err ValueError) by reflexivity.
  assert (B : lau_parse ex_float _ ex_lattice ((small_head ++ "1 0 0 25") ++ String nl (String "#" (" end of file" ++ String nl EmptyString))) = Ok (3%R, 4%R, 5%R, [mkHKL 1 0 0 25])) by reflexivity.
  rewrite A, B in H. discriminate H.
Qed.
Print Assumptions C63_last_comment_refuted.

(** ** Laz files *)

(** A laz file gives the lattice, one peak for every row of the table, by increasing q, and the cross sections times the number of atoms. *)
Theorem C64_laz : forall py_float L (Lattice : R -> R -> R -> R -> R -> R -> result L) (recbase_of : L -> mat3) f lat wa wb wc wal wbe wga a b c al be ga nh nk nn nj width dw n sc si sa vc vi va,
  well_formed f -> ended f -> nameable f -> distinct_names f -> columns_ok f -> says_cell f wa wb wc wal wbe wga ->
  py_float wa = Some a -> py_float wb = Some b -> py_float wc = Some c -> py_float wal = Some al -> py_float wbe = Some be -> py_float wga = Some ga ->
  Lattice a b c al be ga = Ok lat ->
  column f "column_h" nh -> column f "column_k" nk -> column f "column_l" nn -> column f "column_j" nj ->
  Forall (fun row => exists h k l j F2, reads_int row nh h /\ reads_int row nk k /\ reads_int row nn l /\ reads_int row nj j /\ says_F2 py_float f row F2) (rows f) ->
  says_atoms f n -> three_sigmas f -> says_sigma f "coh" sc -> says_sigma f "inc" si -> says_sigma f "abs" sa -> py_float sc = Some vc -> py_float si = Some vi -> py_float sa = Some va ->
  exists l peaks xs, laz_parse py_float L Lattice recbase_of (text_of f) width dw = Ok (lat, peaks, xs) /\
    Forall2 (says_peak py_float (recbase_of lat) width dw f nh nk nn nj) (rows f) l /\ Permutation l peaks /\ StronglySorted (fun p q => (z_q p <= z_q q)%R) peaks /\
    forall x r, lookup xs x = Ok r <-> In (x, r) [("coh"%string, (vc * IZR n)%R); ("inc"%string, (vi * IZR n)%R); ("abs"%string, (va * IZR n)%R)].
Proof.
  intros py_float L Lattice recbase_of f lat wa wb wc wal wbe wga a b c al be ga nh nk nn nj width dw n sc si sa vc vi va W E N D CO SC Ea Eb Ec Eal Ebe Ega EL Ch Ck Cl Cj RW AT T3 Sc Si Sa Vc Vi Va.
  destruct (peaks_main py_float L recbase_of f lat width dw nh nk nn nj W E D CO Ch Ck Cl Cj) as (l & EP & F).
  - revert RW. apply Forall_impl. intros row (h & k & n0 & j & F2 & Rh & Rk & Rl & Rj & SF). exists (mkZ (row_length (recbase_of lat) h k n0) F2 j width dw). split; [exact SF|]. split; [exact Rj|]. split; [reflexivity|]. split; [reflexivity|]. now exists h, k, n0.
  - destruct (cross_sections py_float L Lattice f n sc si sa vc vi va W D AT T3 Sc Si Sa Vc Vi Va) as (xs & EX & X). exists l, (sort_peaks l), xs.
    rewrite (laz_head py_float L Lattice recbase_of f lat wa wb wc wal wbe wga a b c al be ga width dw W E N D SC Ea Eb Ec Eal Ebe Ega EL), EP. cbn [bind]. rewrite EX. cbn [bind].
    split; [reflexivity|]. split; [exact F|]. split; [apply sort_perm|]. split; [apply sort_sorted|exact X].
Qed.
Print Assumptions C64_laz.

Definition ex_laz : list line :=
  map with_words ["# CELL 4 4 4 90 90 90"; "# nb_atoms 2"; "# sigma_abs 2 at 2200 m/s in [barn]"; "# sigma_coh 5 [barn]"; "# sigma_inc 1 [barn]"; "# column_h 1"; "# column_k 2"; "# column_l 3"; "# column_j 4"; "# column_F 5"; "2 0 0 6 3"; "1 1 1 8 7"; ""]%string.
Definition ex_recbase (lat : R * R * R) : mat3 := let '(a, b, c) := lat in mkM (/ a) 0 0 0 (/ b) 0 0 0 (/ c).
Lemma ex_laz_wf : well_formed ex_laz.
Proof.
  unfold ex_laz, well_formed. cbn [map]. repeat (apply Forall_cons; [split; [lay|first [left; eexists; reflexivity | right; unfold data_line; cbn [with_words fst all_chars]; repeat split; discriminate]]|]). constructor.
Qed.
Lemma ex_laz_ended : ended ex_laz.
Proof. exists (firstn 12 ex_laz), (with_words ""). split; [reflexivity|exact I]. Qed.
Lemma ex_laz_remarks : remarks ex_laz = [["#"; "CELL"; "4"; "4"; "4"; "90"; "90"; "90"]; ["#"; "nb_atoms"; "2"]; ["#"; "sigma_abs"; "2"; "at"; "2200"; "m/s"; "in"; "[barn]"]; ["#"; "sigma_coh"; "5"; "[barn]"]; ["#"; "sigma_inc"; "1"; "[barn]"];
  ["#"; "column_h"; "1"]; ["#"; "column_k"; "2"]; ["#"; "column_l"; "3"]; ["#"; "column_j"; "4"]; ["#"; "column_F"; "5"]]%string.
Proof. reflexivity. Qed.
Lemma ex_laz_nameable : nameable ex_laz.
Proof. intros ws H. rewrite ex_laz_remarks in H. cbn [In] in H. repeat (destruct H as [<-|H]; [name_it|]). contradiction H. Qed.
Lemma ex_laz_distinct : distinct_names ex_laz.
Proof. apply distinct_of. change (map fst (keyed ex_laz)) with ["CELL"; "nb_atoms"; "sigma_abs"; "sigma_coh"; "sigma_inc"; "column_h"; "column_k"; "column_l"; "column_j"; "column_F"]%string. repeat constructor; cbn [In]; intuition discriminate. Qed.
Lemma ex_laz_columns : columns_ok ex_laz.
Proof.
  intros w k ws H. rewrite ex_laz_remarks in H. cbn [In] in H.
  repeat (destruct H as [H|H]; [first [discriminate H | injection H as _ _ <-; first [now exists 1, [] | now exists 2, [] | now exists 3, [] | now exists 4, [] | now exists 5, []]]|]). contradiction H.
Qed.
Example C64_laz_example : exists l peaks xs, laz_parse ex_float _ ex_lattice ex_recbase (text_of ex_laz) 1 1 = Ok (4%R, 4%R, 4%R, peaks, xs) /\
  Forall2 (says_peak ex_float (ex_recbase (4%R, 4%R, 4%R)) 1 1 ex_laz 1 2 3 4) [["2"; "0"; "0"; "6"; "3"]; ["1"; "1"; "1"; "8"; "7"]]%string l /\ Permutation l peaks /\ StronglySorted (fun p q => (z_q p <= z_q q)%R) peaks /\
  forall x r, lookup xs x = Ok r <-> In (x, r) [("coh"%string, (5 * 2)%R); ("inc"%string, (1 * 2)%R); ("abs"%string, (2 * 2)%R)].
Proof.
  apply (C64_laz ex_float _ ex_lattice ex_recbase ex_laz (4%R, 4%R, 4%R) "4" "4" "4" "90" "90" "90" 4 4 4 90 90 90 1 2 3 4 1 1 2 "5" "1" "2" 5 1 2 ex_laz_wf ex_laz_ended ex_laz_nameable ex_laz_distinct ex_laz_columns); try reflexivity.
  - exists []. rewrite ex_laz_remarks. split; [now left|]. repeat constructor; cbn; repeat split; discriminate.
  - exists "#"%string, []. rewrite ex_laz_remarks. split; [cbn; tauto|lia].
  - exists "#"%string, []. rewrite ex_laz_remarks. split; [cbn; tauto|lia].
  - exists "#"%string, []. rewrite ex_laz_remarks. split; [cbn; tauto|lia].
  - exists "#"%string, []. rewrite ex_laz_remarks. split; [cbn; tauto|lia].
  - assert (NF : forall w ws, ~ In (w :: "column_F2"%string :: ws) (remarks ex_laz)) by (intros w ws H; rewrite ex_laz_remarks in H; cbn [In] in H; repeat (destruct H as [H|H]; [discriminate H|]); exact H).
    assert (CF : column ex_laz "column_F" 5) by (exists "#"%string, []; rewrite ex_laz_remarks; split; [cbn; tauto|lia]).
    change (rows ex_laz) with [["2"; "0"; "0"; "6"; "3"]; ["1"; "1"; "1"; "8"; "7"]]%string. assert (G : forall a b d j m, says_F2 ex_float ex_laz [str_of_Z a; str_of_Z b; str_of_Z d; str_of_Z j; str_of_Z m] (IZR m * IZR m)).
    { intros a b d j m. right. split; [exact NF|]. exists 5, (IZR m). split; [exact CF|]. split; [|reflexivity]. exists (str_of_Z m). split; [split; [lia|reflexivity]|]. unfold ex_float. now rewrite py_int_str. }
    apply Forall_cons; [exists 2, 0, 0, 6, (3 * 3)%R|].
    { repeat (split; [split; [lia|reflexivity]|]). exact (G 2 0 0 6 3). }
    apply Forall_cons; [exists 1, 1, 1, 8, (7 * 7)%R|constructor]. repeat (split; [split; [lia|reflexivity]|]). exact (G 1 1 1 8 7).
  - exists "#"%string, []. rewrite ex_laz_remarks. cbn; tauto.
  - intros w k ws H. rewrite ex_laz_remarks in H. cbn [In] in H. repeat (destruct H as [H|H]; [first [discriminate H | injection H as _ <- _; cbn; tauto]|]). contradiction H.
  - exists []. rewrite ex_laz_remarks. cbn; tauto.
  - exists []. rewrite ex_laz_remarks. cbn; tauto.
  - exists ["at"; "2200"; "m/s"; "in"]%string. rewrite ex_laz_remarks. cbn; tauto.
Qed.

(** A laz file with fewer than three cross sections is refused, if the rest is right. *)
Theorem C64_missing_sigma : forall py_float L (Lattice : R -> R -> R -> R -> R -> R -> result L) (recbase_of : L -> mat3) f lat wa wb wc wal wbe wga a b c al be ga nh nk nn nj width dw n x y,
  well_formed f -> ended f -> nameable f -> distinct_names f -> columns_ok f -> says_cell f wa wb wc wal wbe wga ->
  py_float wa = Some a -> py_float wb = Some b -> py_float wc = Some c -> py_float wal = Some al -> py_float wbe = Some be -> py_float wga = Some ga ->
  Lattice a b c al be ga = Ok lat ->
  column f "column_h" nh -> column f "column_k" nk -> column f "column_l" nn -> column f "column_j" nj ->
  Forall (fun row => exists h k l j F2, reads_int row nh h /\ reads_int row nk k /\ reads_int row nn l /\ reads_int row nj j /\ says_F2 py_float f row F2) (rows f) ->
  says_atoms f n -> (forall w k ws, In (w :: ("sigma" ++ k)%string :: ws) (remarks f) -> k = x \/ k = y) ->
  laz_parse py_float L Lattice recbase_of (text_of f) width dw = Err AssertionError.
Proof.
  intros py_float L Lattice recbase_of f lat wa wb wc wal wbe wga a b c al be ga nh nk nn nj width dw n x y W E N D CO SC Ea Eb Ec Eal Ebe Ega EL Ch Ck Cl Cj RW AT XY.
  destruct (peaks_main py_float L recbase_of f lat width dw nh nk nn nj W E D CO Ch Ck Cl Cj) as (l & EP & F).
  - revert RW. apply Forall_impl. intros row (h & k & n0 & j & F2 & Rh & Rk & Rl & Rj & SF). exists (mkZ (row_length (recbase_of lat) h k n0) F2 j width dw). split; [exact SF|]. split; [exact Rj|]. split; [reflexivity|]. split; [reflexivity|]. now exists h, k, n0.
  - rewrite (laz_head py_float L Lattice recbase_of f lat wa wb wc wal wbe wga a b c al be ga width dw W E N D SC Ea Eb Ec Eal Ebe Ega EL), EP. cbn [bind].
    rewrite (missing_sigma py_float f n W D AT) by now exists x, y. reflexivity.
Qed.
Print Assumptions C64_missing_sigma.
Definition ex_few : list line := map with_words ["# CELL 4 4 4 90 90 90"; "# nb_atoms 2"; "# sigma_coh 5 [barn]"; "# column_h 1"; "# column_k 2"; "# column_l 3"; "# column_j 4"; "# column_F2 5"; "2 0 0 6 3"; ""]%string.
Lemma ex_few_remarks : remarks ex_few = [["#"; "CELL"; "4"; "4"; "4"; "90"; "90"; "90"]; ["#"; "nb_atoms"; "2"]; ["#"; "sigma_coh"; "5"; "[barn]"]; ["#"; "column_h"; "1"]; ["#"; "column_k"; "2"]; ["#"; "column_l"; "3"]; ["#"; "column_j"; "4"]; ["#"; "column_F2"; "5"]]%string.
Proof. reflexivity. Qed.
Example C64_missing_sigma_example : laz_parse ex_float _ ex_lattice ex_recbase (text_of ex_few) 1 1 = Err AssertionError.
Proof.
  apply (C64_missing_sigma ex_float _ ex_lattice ex_recbase ex_few (4%R, 4%R, 4%R) "4" "4" "4" "90" "90" "90" 4 4 4 90 90 90 1 2 3 4 1 1 2 "_coh" "_coh"); try reflexivity.
  - unfold ex_few, well_formed. cbn [map]. repeat (apply Forall_cons; [split; [lay|first [left; eexists; reflexivity | right; unfold data_line; cbn [with_words fst all_chars]; repeat split; discriminate]]|]). constructor.
  - exists (firstn 9 ex_few), (with_words ""). split; [reflexivity|exact I].
  - intros ws H. rewrite ex_few_remarks in H. cbn [In] in H. repeat (destruct H as [<-|H]; [name_it|]). contradiction H.
  - apply distinct_of. change (map fst (keyed ex_few)) with ["CELL"; "nb_atoms"; "sigma_coh"; "column_h"; "column_k"; "column_l"; "column_j"; "column_F2"]%string. repeat constructor; cbn [In]; intuition discriminate.
  - intros w k ws H. rewrite ex_few_remarks in H. cbn [In] in H.
    repeat (destruct H as [H|H]; [first [discriminate H | injection H as _ _ <-; first [now exists 1, [] | now exists 2, [] | now exists 3, [] | now exists 4, [] | now exists 5, []]]|]). contradiction H.
  - exists []. rewrite ex_few_remarks. split; [now left|]. repeat constructor; cbn; repeat split; discriminate.
  - exists "#"%string, []. rewrite ex_few_remarks. split; [cbn; tauto|lia].
  - exists "#"%string, []. rewrite ex_few_remarks. split; [cbn; tauto|lia].
  - exists "#"%string, []. rewrite ex_few_remarks. split; [cbn; tauto|lia].
  - exists "#"%string, []. rewrite ex_few_remarks. split; [cbn; tauto|lia].
  - change (rows ex_few) with [["2"; "0"; "0"; "6"; "3"]]%string. apply Forall_cons; [exists 2, 0, 0, 6, 3%R|constructor].
    split; [split; [lia|reflexivity]|]. split; [split; [lia|reflexivity]|]. split; [split; [lia|reflexivity]|]. split; [split; [lia|reflexivity]|]. left. exists 5. split; [exists "#"%string, []; rewrite ex_few_remarks; split; [cbn; tauto|lia]|]. eexists. split; [split; [lia|reflexivity]|reflexivity].
  - exists "#"%string, []. rewrite ex_few_remarks. cbn; tauto.
  - intros w k ws H. rewrite ex_few_remarks in H. cbn [In] in H. repeat (destruct H as [H|H]; [first [discriminate H | injection H as _ <- _; cbn; tauto]|]). contradiction H.
Qed.

(** Comments with the same name are refused here too. *)
Theorem C64_duplicate : forall py_float L (Lattice : R -> R -> R -> R -> R -> R -> result L) (recbase_of : L -> mat3) f width dw, well_formed f -> ended f -> nameable f -> same_names f -> laz_parse py_float L Lattice recbase_of (text_of f) width dw = Err RuntimeError.
Proof. intros py_float L Lattice recbase_of f width dw W E N D. unfold laz_parse. now rewrite (read_file_dup f W E N D). Qed.
Print Assumptions C64_duplicate.
Definition two_remarks : list line := map with_words ["# this file was made by hand"; "# this line too"; ""]%string.
Example C64_duplicate_example : laz_parse ex_float _ ex_lattice ex_recbase (text_of two_remarks) 1 1 = Err RuntimeError.
Proof.
  apply C64_duplicate.
  - unfold two_remarks, well_formed. cbn [map]. repeat (apply Forall_cons; [split; [lay|first [left; eexists; reflexivity | right; exact I]]|]). constructor.
  - exists (firstn 2 two_remarks), (with_words ""). split; [reflexivity|exact I].
  - intros ws H. change (remarks two_remarks) with [["#"; "this"; "file"; "was"; "made"; "by"; "hand"]; ["#"; "this"; "line"; "too"]]%string in H. cbn [In] in H. repeat (destruct H as [<-|H]; [name_it|]). contradiction H.
  - exists [], (with_words "# this file was made by hand"), [], (with_words "# this line too"), [with_words ""], "this"%string. split; [reflexivity|]. split; [now eexists|]. split; [now eexists|].
    assert (A : ~ atom_word "this") by (intros (x & t & o & m & r & E & [->| ->] & _); discriminate E). split; exact (named_plain "#" "this" _ A).
Qed.
