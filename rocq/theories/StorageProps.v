(** Properties C01-C06: the neutron storage. *)
From Verif Require Import Base StorageModel StorageSpec StorageProofs StorageProofs2.
From Coq Require Import ZifyBool ZifyNat.
Open Scope Z_scope.

(** Ten words, all distinct; concrete neutrons for the examples. *)
Definition ex_neutron (k : Z) : list Z := map (fun i => 1000 * k + i) [0;1;2;3;4;5;6;7;8;9].
Lemma ex_neutron_wf k : 0 <= k < 1000 -> wf_neutron (ex_neutron k).
Proof. intro H. split; [reflexivity|]. unfold ex_neutron, wf_word. repeat constructor; lia. Qed.
Definition ex_ops : list sop :=
  [OWrite [ex_neutron 1; ex_neutron 2]; OWrite []; OFlush; OWrite [ex_neutron 3]; OWrite [ex_neutron 4; ex_neutron 5]].
Lemma ex_ops_ok : Forall wop_ok ex_ops.
Proof.
  assert (W : forall k, 0 <= k < 1000 -> wf_neutron (ex_neutron k)) by exact ex_neutron_wf.
  assert (W2 : forall j k, 0 <= j < 1000 -> 0 <= k < 1000 -> wf_neutrons [ex_neutron j; ex_neutron k])
    by (intros; apply Forall_cons; [|apply Forall_cons; [|apply Forall_nil]]; auto).
  unfold ex_ops. apply Forall_cons; [apply W2; lia|]. apply Forall_cons; [apply Forall_nil|].
  apply Forall_cons; [exact I|]. apply Forall_cons; [apply Forall_cons; [apply W; lia|apply Forall_nil]|].
  apply Forall_cons; [apply W2; lia|]. apply Forall_nil.
Qed.

(** ** C01 *)

(** A storage opened with mode w on a fresh path or with mode a on a file holding [old]; any sequence of
    write/flush calls; close.  No call fails, the file then holds [old] followed by everything written, in
    call order, for every buffer size, and no other file changed. *)
Theorem C01_write_history_preserved :
  forall (d : fs) (path : string) (m : mode) (pk : option Z) (buffersize : Z) (b : list Z) (old : list neutron) (ops : list sop),
  (m = MW /\ d path = None /\ old = []) \/ (m = MA /\ d path = Some (File b) /\ file_holds b old) ->
  Forall wop_ok ops ->
  exists s d1 s2 d2 outs,
    st_open d path m pk buffersize = (d1, Ok s) /\
    st_run s d1 (ops ++ [OClose]) = (s2, d2, outs) /\
    Forall (fun o => o = OutUnit (Ok tt)) outs /\
    (exists b2, d2 path = Some (File b2) /\ file_holds b2 (old ++ written ops)) /\
    (forall q, q <> path -> d2 q = d q).
Proof. exact session_lemma. Qed.
Print Assumptions C01_write_history_preserved.

Example C01_write_history_example :
  let d : fs := fun _ => None in
  (d "n"%string = None) /\ Forall wop_ok ex_ops /\
  written ex_ops = [ex_neutron 1; ex_neutron 2; ex_neutron 3; ex_neutron 4; ex_neutron 5].
Proof. split; [reflexivity|]. split; [exact ex_ops_ok|reflexivity]. Qed.

(** Before close the file holds a prefix of what was written (all of it right after a flush); other files are untouched. *)
Theorem C01_prefix_before_close :
  forall (d : fs) (path : string) (m : mode) (pk : option Z) (buffersize : Z) (b : list Z) (old : list neutron) (ops : list sop),
  (m = MW /\ d path = None /\ old = []) \/ (m = MA /\ d path = Some (File b) /\ file_holds b old) ->
  Forall wop_ok ops ->
  exists s d1 s2 d2 outs pre post,
    st_open d path m pk buffersize = (d1, Ok s) /\
    st_run s d1 ops = (s2, d2, outs) /\
    (exists b2, d2 path = Some (File b2) /\ file_holds b2 pre) /\
    old ++ written ops = pre ++ post /\
    (forall ops', ops = ops' ++ [OFlush] -> post = []) /\
    (forall q, q <> path -> d2 q = d q).
Proof. exact session_prefix_lemma. Qed.
Print Assumptions C01_prefix_before_close.

Example C01_prefix_example :  (* buffer of 3: one neutron is still in memory after the third write *)
  let '(d1, r) := st_open (fun _ => None) "n" MW None 3 in
  match r with
  | Ok s => let '(s2, d2, _) := st_run s d1 [OWrite [ex_neutron 1; ex_neutron 2]; OWrite [ex_neutron 3]; OWrite [ex_neutron 4]] in
            idf_count (fs_bytes d2 "n") = 3
  | Err _ => False
  end.
Proof. vm_compute. reflexivity. Qed.

(** What was written is what a later reader gets: open with mode r and read(). *)
Theorem C01_readback :
  forall (d : fs) (path : string) (b : list Z) (ns : list neutron) (bs : Z) (a w : bool),
  d path = Some (File b) -> wf_neutrons ns -> file_holds b ns -> ns <> [] ->
  exists s s',
    st_open d path MR None bs = (d, Ok s) /\
    st_read s d None a w = (s', Ok (Some ns)).
Proof.
  intros d path b ns bs a w Hd W H Hne.
  set (s := mkStorage path MR false bs [] None 0 (Z.of_nat (List.length ns))).
  assert (L : (1 <= List.length ns)%nat) by (destruct ns; cbn; [congruence|lia]).
  assert (I : rinv ns s d).
  { constructor; cbn; auto. unfold fs_bytes. rewrite Hd. assumption. }
  assert (E : st_read s d None a w = st_read s d (Some (Z.of_nat (List.length ns))) a w).
  { unfold st_read. rewrite py_or_pos by lia. cbn [py_or s s_packetsize s_ntotal s_position].
    rewrite Z.sub_0_r. reflexivity. }
  exists s, (fst (st_read s d None a w)). split; [exact (open_r d path bs None b ns Hd W H)|].
  rewrite E. destruct w.
  - rewrite (read_wrap_step ns s d 0 (List.length ns) a I eq_refl) by lia.
    unfold wrap_read. rewrite Nat.ltb_irrefl. cbn [Nat.add]. rewrite Nat.sub_0_r, Nat.sub_diag.
    rewrite Nat.div_0_l, Nat.mod_0_l by lia. cbn [repeat List.concat firstn skipn]. rewrite !app_nil_r. reflexivity.
  - rewrite (read_nowrap_step ns s d 0 (List.length ns) a I eq_refl) by lia.
    cbn [skipn]. rewrite firstn_all. reflexivity.
Qed.
Print Assumptions C01_readback.

Example C01_readback_example :
  let b := empty_header ++ words_tostring (List.concat [ex_neutron 7; ex_neutron 8]) in
  file_holds b [ex_neutron 7; ex_neutron 8] /\ wf_neutrons [ex_neutron 7; ex_neutron 8].
Proof.
  split.
  - exists empty_header. split; [reflexivity|]. vm_compute. reflexivity.
  - repeat (apply Forall_cons; [apply ex_neutron_wf; lia|]). apply Forall_nil.
Qed.

(** Finding: once the storage is closed, a write that fits the buffer reports success although nothing that is done
    to the storage afterwards can bring the neutrons to the file; a larger write raises ValueError. *)
Theorem C01_write_after_close_is_lost :
  forall (s : storage) (d : fs) (ns : list neutron) (later : list sop),
  s_closed s = true -> s_mode s <> MR ->
  (Z.of_nat (List.length (s_buffer s)) + Z.of_nat (List.length ns) < s_buffersize s ->
   snd (st_write s d ns) = Ok tt) /\
  (s_buffersize s <= Z.of_nat (List.length (s_buffer s)) + Z.of_nat (List.length ns) ->
   snd (st_write s d ns) = Err ValueError) /\
  (let '(s1, d1, _) := st_write s d ns in
   let '(_, d2, _) := st_run s1 d1 later in d2 = d).
Proof.
  intros s d ns later C M. rewrite (write_after_close s d ns C M).
  destruct (Z.leb_spec (s_buffersize s) (Z.of_nat (List.length (s_buffer s)) + Z.of_nat (List.length ns))) as [H|H].
  - split; [lia|]. split; [reflexivity|]. pose proof (closed_run_fs s d later C) as R.
    destruct (st_run s d later) as [[? ?] ?]. exact R.
  - split; [reflexivity|]. split; [lia|].
    pose proof (closed_run_fs (set_buffer s (s_buffer s ++ ns)) d later C) as R.
    destruct (st_run _ d later) as [[? ?] ?]. exact R.
Qed.
Print Assumptions C01_write_after_close_is_lost.

Example C01_write_after_close_example :
  let s := mkStorage "n" MW true 10000 [] None 0 0 in
  s_closed s = true /\ s_mode s <> MR /\ Z.of_nat (List.length (s_buffer s)) + 1 < s_buffersize s.
Proof. repeat split; [discriminate]. Qed.

(** ** C02 *)

(** Any sequence of wrapping reads with request sizes [ns] (each at least 1) on an open storage whose file holds the
    non-empty list [l], starting at cursor [p]: every read succeeds, read i returns exactly ns_i neutrons, and
    the concatenation of everything returned is the cyclic repetition of [l] from [p]; the cursor ends inside the file
    at the position that continues the stream. *)
Theorem C02_wrapping_reads_are_cyclic :
  forall (l : list neutron) (d : fs) (path : string) (b : list Z) (bs : Z) (pk : option Z) (p : nat) (ns : list nat) (a : bool),
  d path = Some (File b) -> wf_neutrons l -> file_holds b l -> (p < List.length l)%nat ->
  Forall (fun n => 1 <= n)%nat ns ->
  let s := mkStorage path MR false bs [] pk (Z.of_nat p) (Z.of_nat (List.length l)) in
  exists outs s',
    st_run s d (map (fun n => ORead (Some (Z.of_nat n)) a true) ns)
      = (s', d, map (fun x => OutRead (Ok (Some x))) outs) /\
    map (@List.length neutron) outs = ns /\
    map Some (List.concat outs) = cyclic l p (list_sum ns) /\
    st_tell s' = Ok (Z.of_nat ((p + list_sum ns) mod List.length l)).
Proof.
  intros l d path b bs pk p ns a Hd W H Hp Hns s.
  assert (I : rinv l s d).
  { constructor; cbn; auto. unfold fs_bytes. rewrite Hd. assumption. }
  destruct (read_wrap_run l s d p ns a I eq_refl Hp Hns) as (outs & E & Ec & El).
  eauto 6.
Qed.
Print Assumptions C02_wrapping_reads_are_cyclic.

(** The starting states of C02 are reachable: open and seek. *)
Theorem C02_start_reachable :
  forall (l : list neutron) (d : fs) (path : string) (b : list Z) (bs : Z) (pk : option Z) (p : nat),
  d path = Some (File b) -> wf_neutrons l -> file_holds b l -> (p < List.length l)%nat ->
  exists s, st_open d path MR pk bs = (d, Ok s) /\
    st_seek s (Z.of_nat p) WStart true
    = (mkStorage path MR false bs [] pk (Z.of_nat p) (Z.of_nat (List.length l)), Ok tt).
Proof.
  intros l d path b bs pk p Hd W H Hp.
  eexists. split; [exact (open_r d path bs pk b l Hd W H)|].
  unfold st_seek, py_mod. cbn [is_readonly mode_eqb negb s_mode s_ntotal set_position s_position]. replace (Z.of_nat (List.length l) =? 0) with false by lia.
  rewrite (Z.mod_small (Z.of_nat p)) by lia. reflexivity.
Qed.
Print Assumptions C02_start_reachable.

Example C02_example :
  let l := [ex_neutron 1; ex_neutron 2; ex_neutron 3] in
  let b := empty_header ++ words_tostring (List.concat l) in
  let s := mkStorage "n" MR false 0 [] None 1 3 in
  let d : fs := fun q => if String.eqb q "n" then Some (File b) else None in
  let '(s', _, outs) := st_run s d [ORead (Some 1) true true; ORead (Some 8) true true] in
  outs = [OutRead (Ok (Some [ex_neutron 2]));
          OutRead (Ok (Some [ex_neutron 3; ex_neutron 1; ex_neutron 2; ex_neutron 3; ex_neutron 1; ex_neutron 2; ex_neutron 3; ex_neutron 1]))]
  /\ s_position s' = 1.
Proof. vm_compute. split; reflexivity. Qed.

(** ** C03 *)

(** Non-wrapping reads deliver, all together, the piece of the file that starts at the cursor, of the total length
    requested or up to the end; the cursor stays between its start and the end. *)
Theorem C03_nonwrapping_reads_deliver_once :
  forall (l : list neutron) (d : fs) (path : string) (b : list Z) (bs : Z) (pk : option Z) (p : nat) (ns : list nat) (a : bool),
  d path = Some (File b) -> wf_neutrons l -> file_holds b l -> (p <= List.length l)%nat ->
  Forall (fun n => 1 <= n)%nat ns ->
  let s := mkStorage path MR false bs [] pk (Z.of_nat p) (Z.of_nat (List.length l)) in
  exists outs s',
    st_run s d (map (fun n => ORead (Some (Z.of_nat n)) a false) ns) = (s', d, outs) /\
    List.concat (map delivered outs) = firstn (list_sum ns) (skipn p l) /\
    st_tell s' = Ok (Z.of_nat (Nat.min (p + list_sum ns) (List.length l))).
Proof.
  intros l d path b bs pk p ns a Hd W H Hp Hns s.
  assert (I : rinv l s d).
  { constructor; cbn; auto. unfold fs_bytes. rewrite Hd. assumption. }
  destruct (read_nowrap_run l s d p ns a I eq_refl Hp Hns) as (outs & E & Ec).
  eexists. eexists. split; [exact E|]. split; [exact Ec|reflexivity].
Qed.
Print Assumptions C03_nonwrapping_reads_deliver_once.

(** Inside the file a single read succeeds and returns the next n neutrons or what is left ... *)
Theorem C03_single_read :
  forall (l : list neutron) (d : fs) (path : string) (b : list Z) (bs : Z) (pk : option Z) (p n : nat) (a : bool),
  d path = Some (File b) -> wf_neutrons l -> file_holds b l -> (p < List.length l)%nat -> (1 <= n)%nat ->
  let s := mkStorage path MR false bs [] pk (Z.of_nat p) (Z.of_nat (List.length l)) in
  exists s', st_read s d (Some (Z.of_nat n)) a false = (s', Ok (Some (firstn n (skipn p l)))) /\
             st_tell s' = Ok (Z.of_nat (Nat.min (p + n) (List.length l))).
Proof.
  intros l d path b bs pk p n a Hd W H Hp Hn s.
  assert (I : rinv l s d).
  { constructor; cbn; auto. unfold fs_bytes. rewrite Hd. assumption. }
  eexists. split; [exact (read_nowrap_step l s d p n a I eq_refl Hp Hn)|reflexivity].
Qed.
Print Assumptions C03_single_read.

(** ... and at the end of the file it delivers nothing: None for arrays, an AttributeError for neutron buffers. *)
Theorem C03_read_at_end :
  forall (l : list neutron) (d : fs) (path : string) (b : list Z) (bs : Z) (pk : option Z) (n : nat) (a : bool),
  d path = Some (File b) -> wf_neutrons l -> file_holds b l -> (1 <= n)%nat ->
  let s := mkStorage path MR false bs [] pk (Z.of_nat (List.length l)) (Z.of_nat (List.length l)) in
  st_read s d (Some (Z.of_nat n)) a false = (s, if a then Ok None else Err AttributeError).
Proof.
  intros l d path b bs pk n a Hd W H Hn s.
  assert (I : rinv l s d).
  { constructor; cbn; auto. unfold fs_bytes. rewrite Hd. assumption. }
  exact (read_nowrap_end l s d n a I eq_refl Hn).
Qed.
Print Assumptions C03_read_at_end.

(** Finding: a request of zero neutrons is not a request of zero neutrons: it reads the packet size or everything that is left. *)
Theorem C03_read_zero_reads_all_refuted :
  exists (d : fs) (s : storage) (x : neutron) (xs : list neutron),
    st_open d "n" MR None 10 = (d, Ok s) /\
    snd (st_read s d (Some 0) true false) = Ok (Some (x :: xs)).
Proof.
  exists (fun q => if String.eqb q "n" then Some (File (empty_header ++ words_tostring (ex_neutron 5))) else None).
  eexists. exists (ex_neutron 5), []. split; vm_compute; reflexivity.
Qed.
Print Assumptions C03_read_zero_reads_all_refuted.

Example C03_example :
  let l := [ex_neutron 1; ex_neutron 2; ex_neutron 3] in
  let b := empty_header ++ words_tostring (List.concat l) in
  let s := mkStorage "n" MR false 0 [] None 1 3 in
  let d : fs := fun q => if String.eqb q "n" then Some (File b) else None in
  let '(s', _, outs) := st_run s d [ORead (Some 1) true false; ORead (Some 8) true false; ORead (Some 2) true false] in
  outs = [OutRead (Ok (Some [ex_neutron 2])); OutRead (Ok (Some [ex_neutron 3])); OutRead (Ok None)]
  /\ s_position s' = 3.
Proof. vm_compute. split; reflexivity. Qed.

(** ** C04 *)
(** The position a seek aims at. *)
Definition seek_target (w : whence) (offset current total : Z) : Z :=
  match w with WStart => offset | WCurrent => current + offset | WEnd => total + offset | WOther => 0 end.

Theorem C04_seek_wrap :
  forall (s : storage) (offset : Z) (w : whence),
  s_mode s = MR -> w <> WOther -> 0 < s_ntotal s ->
  exists s', st_seek s offset w true = (s', Ok tt) /\
    exists q, 0 <= q < s_ntotal s /\ st_tell s' = Ok q /\
      exists k, seek_target w offset (s_position s) (s_ntotal s) = k * s_ntotal s + q.
Proof.
  intros s offset w M Hw Ht. unfold st_seek, is_readonly. rewrite M. cbn [mode_eqb negb].
  set (t := seek_target w offset (s_position s) (s_ntotal s)).
  assert (E : match w with WStart => Some offset | WCurrent => Some (s_position s + offset)
              | WEnd => Some (s_ntotal s + offset) | WOther => None end = Some t)
    by (destruct w; try congruence; reflexivity).
  rewrite E. unfold py_mod. replace (s_ntotal s =? 0) with false by lia.
  eexists. split; [reflexivity|]. exists (t mod s_ntotal s). split; [apply Z.mod_pos_bound; lia|].
  split. { unfold st_tell, is_readonly. cbn. rewrite M. reflexivity. }
  exists (t / s_ntotal s). rewrite Z.mul_comm. apply Z.div_mod. lia.
Qed.
Print Assumptions C04_seek_wrap.

Theorem C04_seek_nowrap :
  forall (s : storage) (offset : Z) (w : whence),
  s_mode s = MR -> w <> WOther ->
  let t := seek_target w offset (s_position s) (s_ntotal s) in
  (0 <= t < s_ntotal s ->
     exists s', st_seek s offset w false = (s', Ok tt) /\ st_tell s' = Ok t) /\
  (~ (0 <= t < s_ntotal s) ->
     exists s', st_seek s offset w false = (s', Err RuntimeError) /\ st_tell s' = Ok t).
Proof.
  intros s offset w M Hw t.
  unfold st_seek, is_readonly. rewrite M. cbn [mode_eqb negb].
  assert (E : match w with WStart => Some offset | WCurrent => Some (s_position s + offset)
              | WEnd => Some (s_ntotal s + offset) | WOther => None end = Some t)
    by (destruct w; try congruence; reflexivity).
  rewrite E. split; intro H.
  - replace ((s_ntotal s <=? t) || (t <? 0)) with false by lia.
    eexists. split; [reflexivity|]. unfold st_tell, is_readonly. cbn. rewrite M. reflexivity.
  - replace ((s_ntotal s <=? t) || (t <? 0)) with true by lia.
    eexists. split; [reflexivity|]. unfold st_tell, is_readonly. cbn. rewrite M. reflexivity.
Qed.
Print Assumptions C04_seek_nowrap.

(** Errors: unknown whence, storages not opened for reading, and (finding) any wrapping seek on an empty file. *)
Theorem C04_seek_errors :
  forall (s : storage) (offset : Z) (w : whence) (wrap : bool),
  (s_mode s <> MR -> st_seek s offset w wrap = (s, Err RuntimeError)) /\
  (s_mode s = MR -> st_seek s offset WOther wrap = (s, Err ValueError)) /\
  (s_mode s = MR -> s_ntotal s = 0 -> w <> WOther -> snd (st_seek s offset w true) = Err ZeroDivisionError).
Proof.
  intros s offset w wrap. unfold st_seek, is_readonly. split; [|split].
  - intro H. destruct (s_mode s); [congruence|reflexivity|reflexivity].
  - intro H. rewrite H. reflexivity.
  - intros H H0 Hw. rewrite H, H0. destruct w; try congruence; reflexivity.
Qed.
Print Assumptions C04_seek_errors.

Example C04_example :
  let s := mkStorage "n" MR false 0 [] None 4 7 in
  s_mode s = MR /\ s_position (fst (st_seek s (-20) WCurrent true)) = 5 /\
  snd (st_seek s 3 WEnd false) = Err RuntimeError /\ s_position (fst (st_seek s 3 WEnd false)) = 10.
Proof. vm_compute. repeat split. Qed.

(** ** C05 *)
Theorem C05_file_roundtrip :
  forall (comment : list Z) (ns : list neutron),
  wf_comment comment -> wf_neutrons ns ->
  exists b, idf_write (Z.of_nat (List.length ns)) (List.concat ns) comment = Ok b /\
    neutron_file comment ns b /\
    idf_readall b = Ok (mkIdf idf_filetype 1 comment ns) /\
    idf_load b = Ok ns /\
    idf_count b = Z.of_nat (List.length ns) /\
    Z.of_nat (List.length b) = filesize (Z.of_nat (List.length ns)).
Proof.
  intros c ns Hc W. destruct (idf_write_file c ns Hc W) as (b & E & F).
  assert (Hl : (List.length c <= 1024)%nat) by apply Hc.
  pose proof (neutron_file_holds c ns b Hl F) as H.
  exists b. split; [exact E|]. split; [exact F|]. split; [exact (readall_file c ns b Hc W F)|].
  split; [exact (load_file c ns b Hc W F)|]. split; [exact (holds_count b ns W H)|].
  rewrite (holds_length b ns W H). unfold filesize, headersize, ndblsperneutron. lia.
Qed.
Print Assumptions C05_file_roundtrip.

(** Appending to a neutron file gives the neutron file of the concatenation. *)
Theorem C05_append :
  forall (comment : list Z) (ns ms : list neutron) (b : list Z),
  wf_comment comment -> wf_neutrons ns -> wf_neutrons ms -> neutron_file comment ns b ->
  idf_load (b ++ words_tostring (neutrons_as_npyarr ms)) = Ok (ns ++ ms) /\
  idf_count (b ++ words_tostring (neutrons_as_npyarr ms)) = Z.of_nat (List.length ns + List.length ms).
Proof.
  intros c ns ms b Hc W1 W2 F.
  assert (W : wf_neutrons (ns ++ ms)) by (apply Forall_app; split; assumption).
  pose proof (neutron_file_append c ns ms b F) as F2.
  assert (Hl : (List.length c <= 1024)%nat) by apply Hc.
  split; [exact (load_file c _ _ Hc W F2)|].
  rewrite (holds_count _ _ W (neutron_file_holds c _ _ Hl F2)), app_length. reflexivity.
Qed.
Print Assumptions C05_append.

(** A file cut at byte k (for instance by a crash while appending): the inferred count is the number of complete
    records; [read] returns exactly the complete records for every k; [load] returns them if the cut is at a record
    boundary and raises ValueError otherwise. *)
Theorem C05_truncation :
  forall (comment : list Z) (ns : list neutron) (b : list Z) (k : nat),
  wf_comment comment -> wf_neutrons ns -> neutron_file comment ns b -> (1100 <= k <= List.length b)%nat ->
  idf_count (firstn k b) = Z.of_nat ((k - 1100) / 80) /\
  idf_read (firstn k b) None None
    = Ok (match firstn ((k - 1100) / 80) ns with [] => None | l => Some l end) /\
  idf_load (firstn k b) =
    (if ((k - 1100) mod 80 =? 0)%nat then Ok (firstn ((k - 1100) / 80) ns) else Err ValueError).
Proof.
  intros c ns b k Hc W F Hk. assert (Hl : (List.length c <= 1024)%nat) by apply Hc.
  pose proof (neutron_file_holds c ns b Hl F) as H.
  split; [exact (truncated_count b ns k W H Hk)|].
  split; [exact (truncated_read b ns k W H Hk)|exact (truncated_load c b ns k Hc W F Hk)].
Qed.
Print Assumptions C05_truncation.

Example C05_example :
  let c := [104; 105] in
  wf_comment c /\ wf_neutrons [ex_neutron 1; ex_neutron 2].
Proof.
  split.
  - split; [cbn; lia|]. split; [repeat constructor; lia|]. split.
    + intros x t E. injection E as <- _. lia.
    + intros x t E. destruct t as [|y [|z t]]; [discriminate|injection E as _ <-; lia|].
      destruct t; discriminate.
  - repeat (apply Forall_cons; [apply ex_neutron_wf; lia|]). apply Forall_nil.
Qed.

(** ** C06 *)
Theorem C06_open_guards :
  forall (d : fs) (path : string) (m : mode) (pk : option Z) (bs : Z),
  let '(d', r) := st_open d path m pk bs in
  (* a rejected open changes nothing *)
  (forall e, r = Err e -> d' = d) /\
  (* existing path with w, missing path with r or a, any directory: rejected *)
  (m = MW -> d path <> None -> r = Err RuntimeError) /\
  (m <> MW -> d path = None -> r = Err RuntimeError) /\
  (d path = Some Dir -> exists e, r = Err e) /\
  (* no entry that exists is altered by opening, in any mode *)
  (forall q x, d q = Some x -> d' q = Some x).
Proof.
  intros d path m pk bs. unfold st_open, fs_exists, fs_isdir.
  destruct (d path) as [[|c]|] eqn:E; destruct m; cbn [mode_eqb andb orb negb];
    repeat split; intros; try congruence; eauto;
    rewrite fs_append_other by congruence; unfold fs_set;
    destruct (String.eqb_spec path q); congruence.
Qed.
Print Assumptions C06_open_guards.

Theorem C06_readonly_never_writes :
  forall (d : fs) (path : string) (pk : option Z) (bs : Z) (ops : list sop) (s : storage) (d1 : fs),
  st_open d path MR pk bs = (d1, Ok s) ->
  let '(_, d2, _) := st_run s d1 ops in d2 = d.
Proof.
  intros d path pk bs ops s d1 E. unfold st_open in E. cbn [mode_eqb andb orb negb] in E.
  destruct (negb (fs_exists d path) && true); [discriminate E|].
  destruct (fs_isdir d path); [discriminate E|]. injection E as <- <-.
  set (s := mkStorage _ _ _ _ _ _ _ _).
  pose proof (readonly_run s d ops eq_refl) as R. destruct (st_run s d ops) as [[? ?] ?]. tauto.
Qed.
Print Assumptions C06_readonly_never_writes.

Example C06_example :
  let d : fs := fun q => if String.eqb q "n" then Some (File empty_header) else None in
  (exists s, st_open d "n" MR None 5 = (d, Ok s)) /\ snd (st_open d "n" MW None 5) = Err RuntimeError.
Proof. split; [eexists|]; vm_compute; reflexivity. Qed.
