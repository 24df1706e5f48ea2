(** C51: the count in the header of a neutron file.  (Model: StorageModel.v.) *)
From Verif Require Import Base StorageModel StorageSpec StorageProofs StorageProofs2 StorageToolsModel.
Open Scope Z_scope.

(** The count is the little-endian number in bytes 1092 to 1099. *)
Definition count_field (b : list Z) : Z :=
  fold_right (fun i acc => nth (1092 + i) b 0 * 256 ^ Z.of_nat i + acc) 0 (seq 0 8).

Lemma nth_8 (l r : list Z) k i : List.length l = k -> nth (k + i) (l ++ r) 0 = nth i r 0.
Proof. intros <-. rewrite app_nth2_plus. reflexivity. Qed.
Lemma count_field_header c n rest : (List.length c <= 1024)%nat -> 0 <= n < 2 ^ 64 ->
  count_field (pack_header c n ++ rest) = n.
Proof.
  intros L B. unfold pack_header. rewrite <- !app_assoc.
  set (pre := pack_s titlesize idf_filetype ++ le_bytes 4 idf_version ++ pack_s commentsize c).
  replace (pack_s titlesize idf_filetype ++ le_bytes 4 idf_version ++ pack_s commentsize c ++ le_bytes 8 n ++ rest)
    with (pre ++ (le_bytes 8 n ++ rest)) by (unfold pre; rewrite <- !app_assoc; reflexivity).
  assert (P : List.length pre = 1092%nat).
  { unfold pre, pack_s, titlesize, commentsize. rewrite !app_length, !firstn_length, !repeat_length, le_bytes_length. cbn [List.length idf_filetype]. lia. }
  unfold count_field.
  assert (E : forall l, (forall i, In i l -> (i < 8)%nat) ->
     fold_right (fun i acc => nth (1092 + i) (pre ++ (le_bytes 8 n ++ rest)) 0 * 256 ^ Z.of_nat i + acc) 0 l =
     fold_right (fun i acc => nth i (le_bytes 8 n) 0 * 256 ^ Z.of_nat i + acc) 0 l).
  { induction l as [|i l IH]; intros H; [reflexivity|]. cbn [fold_right]. rewrite IH by (intros; apply H; right; assumption).
    rewrite (nth_8 pre _ 1092 i P), app_nth1; [reflexivity|]. rewrite le_bytes_length. apply H. left; reflexivity. }
  rewrite E by (intros i Hi; apply in_seq in Hi; lia).
  transitivity (le_value (le_bytes 8 n)); [|exact (le_value_word n B)]. unfold le_value.
  generalize (le_bytes_length 8 n). generalize (le_bytes 8 n). intros bs Hb.
  do 8 (destruct bs as [|? bs]; [discriminate|]). destruct bs; [|discriminate].
  cbn [seq fold_right nth Z.of_nat Pos.of_succ_nat Pos.succ]. ring.
Qed.

(** A two-dimensional array writes its number of rows. *)
Theorem C51_write_count : forall (comment : list Z) (ns : list neutron) (b : list Z),
  wf_comment comment -> Z.of_nat (List.length ns) < 2 ^ 63 ->
  idf_write (Z.of_nat (List.length ns)) (List.concat ns) comment = Ok b ->
  count_field b = Z.of_nat (List.length ns).
Proof.
  intros c ns b Hc B E. unfold idf_write in E. destruct (encode_ascii c) as [c'|] eqn:Ec; [|discriminate].
  unfold encode_ascii in Ec. destruct (forallb _ c); [|discriminate]. inversion Ec; subst c'. inversion E.
  apply count_field_header; [apply Hc|lia].
Qed.
Print Assumptions C51_write_count.

(** [dump] writes ten times the number of neutrons, although the file holds and gives back just those neutrons. *)
Theorem C51_dump_count : forall (ns : list neutron), wf_neutrons ns -> 10 * Z.of_nat (List.length ns) < 2 ^ 63 ->
  exists b, idf_dump ns = Ok b /\ count_field b = 10 * Z.of_nat (List.length ns) /\
    idf_count b = Z.of_nat (List.length ns) /\ idf_load b = Ok ns.
Proof.
  intros ns W B.
  assert (L : Z.of_nat (List.length (List.concat ns)) = 10 * Z.of_nat (List.length ns)).
  { clear B. induction W as [|n ns [Hn _] _ IH]; cbn [List.concat List.length]; [reflexivity|]. rewrite app_length, Hn. lia. }
  assert (Hc : wf_comment []) by (repeat split; [cbn; lia|constructor|discriminate|destruct t; discriminate]).
  set (b := pack_header [] (Z.of_nat (List.length (List.concat ns))) ++ words_tostring (List.concat ns)).
  assert (F : neutron_file [] ns b).
  { exists (le_bytes 8 (Z.of_nat (List.length (List.concat ns)))). split; [apply le_bytes_length|]. unfold b, pack_header.
    rewrite words_tostring_spec, !pack_s_pad by (unfold titlesize, commentsize, idf_filetype; cbn [List.length]; lia). rewrite <- !app_assoc. reflexivity. }
  exists b. split; [reflexivity|]. split; [unfold b; rewrite L; apply count_field_header; [cbn; lia|lia]|].
  split; [|exact (load_file [] ns b Hc W F)].
  apply (holds_count b ns W). apply (neutron_file_holds [] ns b); [cbn; lia|exact F].
Qed.
Print Assumptions C51_dump_count.

(** A session only appends to its file. *)
Lemma write_neutrons_appends s d ns b : d (s_path s) = Some (File b) ->
  exists x, fst (st_write_neutrons s d ns) (s_path s) = Some (File (b ++ x)).
Proof.
  intros H. unfold st_write_neutrons. destruct (s_closed s); [exists []; rewrite app_nil_r; exact H|].
  destruct (is_readonly s); [exists []; rewrite app_nil_r; exact H|]. cbn [fst].
  destruct (fs_append_file d (s_path s) (words_tostring (neutrons_as_npyarr ns))) as [c E].
  pose proof (fs_append_same d (s_path s) (words_tostring (neutrons_as_npyarr ns))) as S. unfold fs_bytes in S at 1. rewrite E in S.
  unfold fs_bytes in S. rewrite H in S. subst c. eexists; exact E.
Qed.
Lemma step_appends s d o b : d (s_path s) = Some (File b) ->
  exists x, let '(s', d', _) := st_step s d o in s_path s' = s_path s /\ d' (s_path s) = Some (File (b ++ x)).
Proof.
  intros H. assert (Q : exists x, s_path s = s_path s /\ d (s_path s) = Some (File (b ++ x))) by (exists []; rewrite app_nil_r; auto).
  destruct o as [ns| | |off w wr|n a w|]; cbn [st_step].
  - unfold st_write. destruct (is_readonly s); [exact Q|]. unfold st_dump. destruct (s_buffersize s <=? _); [|exact Q].
    destruct (write_neutrons_appends s d (s_buffer s) b H) as [x X].
    destruct (st_write_neutrons s d (s_buffer s)) as [d1 [[]|e]]; cbn [fst] in X; [|exists x; auto].
    destruct (write_neutrons_appends s d1 ns (b ++ x) X) as [y Y].
    destruct (st_write_neutrons s d1 ns) as [d2 [[]|e]]; cbn [fst] in Y; exists (x ++ y); rewrite app_assoc; auto.
  - unfold st_flush. destruct (write_neutrons_appends s d (s_buffer s) b H) as [x X].
    destruct (st_write_neutrons s d (s_buffer s)) as [d1 [[]|e]]; cbn [fst] in X; exists x; auto.
  - unfold st_close. destruct (s_closed s); [exact Q|]. destruct (is_readonly s); [exact Q|].
    unfold st_flush. destruct (write_neutrons_appends s d (s_buffer s) b H) as [x X].
    destruct (st_write_neutrons s d (s_buffer s)) as [d1 [[]|e]]; cbn [fst] in X; exists x; auto.
  - destruct (st_seek s off w wr) as [s' r] eqn:E. assert (s_path s' = s_path s).
    { unfold st_seek in E. repeat match type of E with context [match ?t with _ => _ end] => destruct t end; inversion E; reflexivity. }
    destruct Q as [x [_ Q]]. exists x. auto.
  - destruct (st_read s d n a w) as [s' r] eqn:E. assert (s_path s' = s_path s).
    { unfold st_read in E. repeat match type of E with context [match ?t with _ => _ end] => destruct t end; inversion E; reflexivity. }
    destruct Q as [x [_ Q]]. exists x. auto.
  - exact Q.
Qed.
Lemma run_appends ops : forall s d b, d (s_path s) = Some (File b) ->
  exists x, let '(_, d', _) := st_run s d ops in d' (s_path s) = Some (File (b ++ x)).
Proof.
  induction ops as [|o ops IH]; intros s d b H; cbn [st_run].
  - exists []. rewrite app_nil_r. exact H.
  - destruct (step_appends s d o b H) as [x X]. destruct (st_step s d o) as [[s1 d1] r]. destruct X as [P X].
    rewrite <- P in X. destruct (IH s1 d1 _ X) as [y Y]. destruct (st_run s1 d1 ops) as [[s2 d2] rs]. rewrite P in Y.
    exists (x ++ y). rewrite app_assoc. exact Y.
Qed.

(** Whatever is done with a storage opened for writing, the count in the header stays 0. *)
Theorem C51_storage_count : forall (d : fs) (path : string) (pk : option Z) (buffersize : Z) (ops : list sop),
  d path = None ->
  exists s d1, st_open d path MW pk buffersize = (d1, Ok s) /\
    let '(_, d2, _) := st_run s d1 ops in exists b, d2 path = Some (File b) /\ count_field b = 0.
Proof.
  intros d path pk bs ops N. unfold st_open, fs_exists, fs_isdir. rewrite N. cbn [mode_eqb andb orb negb]. eexists _, _. split; [reflexivity|].
  set (d1 := fs_append _ path empty_header).
  assert (H : d1 path = Some (File empty_header)).
  { unfold d1, fs_append, fs_bytes, fs_set. rewrite !String.eqb_refl. reflexivity. }
  destruct (run_appends ops (mkStorage path MW false bs [] pk 0 0) d1 empty_header H) as [x X].
  destruct (st_run _ d1 ops) as [[s2 d2] rs]. eexists. split; [exact X|]. apply count_field_header; [cbn; lia|lia].
Qed.
Print Assumptions C51_storage_count.

(** So the count in the header is not the number of neutrons. *)
Theorem C51_header_count_refuted :
  exists ns b, wf_neutrons ns /\ idf_dump ns = Ok b /\ idf_load b = Ok ns /\ count_field b <> Z.of_nat (List.length ns).
Proof.
  exists [[1;2;3;4;5;6;7;8;9;10]]. assert (W : wf_neutrons [[1;2;3;4;5;6;7;8;9;10]]).
  { constructor; [|constructor]. split; [reflexivity|]. repeat constructor; cbn; lia. }
  destruct (C51_dump_count _ W ltac:(cbn; lia)) as (b & E & C & _ & Ld). exists b. split; [exact W|]. split; [exact E|]. split; [exact Ld|].
  rewrite C. cbn. lia.
Qed.
Print Assumptions C51_header_count_refuted.

Example C51_example :
  let ns := [[1;2;3;4;5;6;7;8;9;10]; [0;0;1;0;0;5;0;0;0;1]] in
  (exists b, idf_write 2 (List.concat ns) [65] = Ok b /\ count_field b = 2) /\
  (exists b, idf_dump ns = Ok b /\ count_field b = 20) /\
  (let '(d1, r) := st_open (fun _ => None) "n" MW None 1 in
   match r with
   | Ok s => let '(_, d2, _) := st_run s d1 [OWrite ns; OClose] in
             count_field (fs_bytes d2 "n") = 0 /\ idf_count (fs_bytes d2 "n") = 2
   | Err _ => False
   end).
Proof.
  split; [eexists; split; [reflexivity|vm_compute; reflexivity]|].
  split; [eexists; split; [reflexivity|vm_compute; reflexivity]|]. vm_compute. auto.
Qed.
