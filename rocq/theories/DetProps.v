(** Properties C29, C31 and C52: detector events and their files. *)
From Verif Require Import Base StorageModel StorageSpec StorageProofs StorageToolsModel StorageToolsSpec StorageToolsProofs CliModel DetModel DetSpec DetProofs DetProofs2.
From Coq Require Import QArith Ascii ZifyBool ZifyNat.
Open Scope Z_scope.

(** ** C29 *)

(** A hit in range is recorded under the row-major rank of its channels, a number below the number of pixels. *)
Theorem C29_identifier :
  forall (dims cs : list Z) (tof n : Z) (file : list Z),
  dims <> [] -> product dims <= 2 ^ 32 -> within dims cs -> 0 <= tof < 2 ^ 31 -> wf_word n ->
  accept dims file (cs ++ [tof]) n = Ok (file ++ record_bytes (rank_of dims cs) tof n) /\
  0 <= rank_of dims cs < product dims.
Proof.
  intros dims cs tof n file D P W T Wn. pose proof (rank_range _ _ W) as R. split; [|assumption].
  rewrite accept_good, event_bytes_spec by (assumption || (unfold wf_event; cbn; repeat split; try lia; apply Wn)). reflexivity.
Qed.
Print Assumptions C29_identifier.

(** Different pixels or time channels never give the same record, and every number below the number of pixels is the identifier of exactly
    one channel tuple. *)
Theorem C29_unique_and_complete :
  forall (dims : list Z), dims <> [] -> product dims <= 2 ^ 32 ->
  (forall cs cs' tof tof' n n' file, within dims cs -> within dims cs' -> 0 <= tof < 2 ^ 31 -> 0 <= tof' < 2 ^ 31 ->
     wf_word n -> wf_word n' ->
     accept dims file (cs ++ [tof]) n = accept dims file (cs' ++ [tof']) n' -> cs = cs' /\ tof = tof' /\ n = n') /\
  (Forall (fun d => 0 < d) dims -> forall k, 0 <= k < product dims ->
     exists cs, within dims cs /\
       (forall tof n file, 0 <= tof < 2 ^ 31 -> wf_word n ->
          accept dims file (cs ++ [tof]) n = Ok (file ++ record_bytes k tof n)) /\
       forall cs', within dims cs' -> rank_of dims cs' = k -> cs' = cs).
Proof.
  intros dims D P. split.
  - intros cs cs' tof tof' n n' file W W' T T' Wn Wn' E.
    rewrite !accept_good in E by assumption. injection E as E. apply app_inv_head in E.
    pose proof (rank_range _ _ W). pose proof (rank_range _ _ W').
    assert (E2 : events_of (event_bytes (mkE (rank_of dims cs) tof n) ++ []) = events_of (event_bytes (mkE (rank_of dims cs') tof' n') ++ []))
      by (rewrite E; reflexivity).
    rewrite !events_of_bytes in E2 by (unfold wf_event; cbn [pixelID tofChannelNo ev_n]; split; [lia|split; [lia|assumption]]).
    injection E2 as A B C. split; [eapply rank_inj; eassumption|auto].
  - intros Dp k Hk. destruct (rank_surj dims Dp k Hk) as (cs & W & E). exists cs. split; [assumption|]. split.
    + intros tof n file T Wn. destruct (C29_identifier dims cs tof n file D P W T Wn) as [A _]. rewrite A, E. reflexivity.
    + intros cs' W' E'. apply (rank_inj dims); congruence.
Qed.
Print Assumptions C29_unique_and_complete.

(** What happens to a call that is not in range: the first offending channel decides.  A negative one (a neutron that hits
    no pixel or no time channel) leaves the file alone, one beyond its dimension raises.  There is no other case. *)
Theorem C29_out_of_range :
  forall (dims channels : list Z) (n : Z) (file : list Z), dims <> [] -> Forall (fun d => 0 <= d) dims ->
  (List.length channels <> S (List.length dims) -> accept dims file channels n = Err CppException) /\
  (forall before c after, channels = before ++ c :: after -> List.length channels = S (List.length dims) ->
     within (firstn (List.length before) dims) before ->
     (c < 0 -> accept dims file channels n = Ok file) /\
     (forall d, nth_error dims (List.length before) = Some d -> d <= c -> accept dims file channels n = Err CppException)) /\
  (List.length channels = S (List.length dims) ->
     (exists cs tof, channels = cs ++ [tof] /\ within dims cs /\ 0 <= tof) \/
     exists before c after, channels = before ++ c :: after /\ within (firstn (List.length before) dims) before /\
       (c < 0 \/ exists d, nth_error dims (List.length before) = Some d /\ d <= c)).
Proof.
  intros dims channels n file D Dp. split; [|split].
  - intros L. unfold accept.
    replace (Nat.eqb (List.length channels) (List.length dims + 1)) with false by (symmetry; apply Nat.eqb_neq; lia). reflexivity.
  - intros before c after -> L W. split.
    + intros C. apply accept_missed; assumption.
    + intros d Hd C. apply (accept_beyond dims before c after n file d); try assumption.
      rewrite Forall_forall in Dp. apply Dp. eapply nth_error_In. exact Hd.
  - apply test_outcome.
Qed.
Print Assumptions C29_out_of_range.

(** A whole run: the file, read back, is the list of the detected hits in order. *)
Theorem C29_event_file :
  forall (dims : list Z) (hits : list (list Z * Z)),
  dims <> [] -> product dims <= 2 ^ 32 -> Forall (fun h => hit_ok dims h \/ hit_missed dims h) hits ->
  exists file events, accept_all dims [] hits = Ok file /\ event_file file events /\ events_of file = events /\
    Forall2 (hit_event dims) (filter (fun h => forallb (fun c => 0 <=? c) (fst h)) hits) events.
Proof.
  intros dims hits D P F.
  destruct (hits_read dims D P hits [] (Forall_nil _) F) as (es & E & W & kept & K1 & K2 & K3).
  exists (flat_map event_bytes es), es. split; [exact E|]. split; [|split].
  - split; [assumption|]. apply flat_event_bytes. assumption.
  - rewrite <- (app_nil_r (flat_map event_bytes es)), events_of_all by assumption. apply app_nil_r.
  - rewrite <- K3. assumption.
Qed.
Print Assumptions C29_event_file.

(* three packs of four tubes of 128 pixels *)
Example C29_example :
  product [3; 4; 128] = 1536 /\ within [3; 4; 128] [2; 1; 7] /\ rank_of [3; 4; 128] [2; 1; 7] = 1159 /\
  (match accept_all [3; 4; 128] [] [([2;1;7;55], 9); ([0;1;-1;3], 8); ([0;0;0;0], 7)] with
   | Ok f => events_of f = [mkE 1159 55 9; mkE 0 0 7] | Err _ => False end) /\
  accept [3; 4; 128] [] [2; 4; -1; 5] 9 = Err CppException /\ accept [3; 4; 128] [] [2; -1; 128; 5] 9 = Ok [] /\
  hit_missed [3;4;128] ([0;1;-1;3], 8) /\ hit_ok [3;4;128] ([2;1;7;55], 9).
Proof.
  split; [reflexivity|]. split; [repeat (constructor; [lia|]); constructor|]. split; [reflexivity|].
  split; [vm_compute; reflexivity|]. split; [reflexivity|]. split; [reflexivity|]. split.
  - exists [0;1], (-1), [3]. split; [reflexivity|]. split; [reflexivity|]. split; [lia|]. repeat (constructor; [lia|]). constructor.
  - exists [2;1;7], 55. split; [reflexivity|]. split; [repeat (constructor; [lia|]); constructor|]. unfold wf_word; cbn; lia.
Qed.

(** Identifiers are not unique when the detector has more than 2^32 pixels: they wrap around silently. *)
Theorem C29_unique_for_every_size_refuted :
  exists dims cs cs', within dims cs /\ within dims cs' /\ cs <> cs' /\
    forall tof n file, accept dims file (cs ++ [tof]) n = accept dims file (cs' ++ [tof]) n.
Proof.
  exists [65536; 131072], [32768; 0], [0; 0].
  split; [repeat (constructor; [lia|]); constructor|]. split; [repeat (constructor; [lia|]); constructor|]. split; [discriminate|].
  intros tof n file. unfold accept. cbn [app List.length Nat.add Nat.eqb negb test_channels pixel_loop last].
  reflexivity.
Qed.
Print Assumptions C29_unique_for_every_size_refuted.

(** ** C31 *)

(** The merged file holds every event of the inputs exactly once, in file order, with the same pixel and time channel and
    the weight divided by the number of samples; of all other files only the scratch file changes. *)
Theorem C31_merged_events :
  forall (dbl_div : Q -> Z -> Z) (d : fs) (dir name : string) (paths : list string) (ess : list (list detevent)) (mcs : list Q)
         (overwrite : bool),
  (forall f w, wf_word w -> wf_word (dbl_div f w)) ->
  plain_dir dir -> plain name -> no_slash name -> name <> "eventfiles-to-merge.list"%string ->
  event_files d dir (slash dir name) paths ess -> paths <> [] -> List.length paths = List.length mcs ->
  d (slash dir name) <> Some Dir -> d (scratch dir) <> Some Dir ->
  exists ws d', merge_and_normalize_events dbl_div paths mcs (slash dir name) overwrite d = (ws, d', Ok tt) /\
    (exists b es, d' (slash dir name) = Some (File b) /\ event_file b es /\
                  Forall2 (event_reweighted (dbl_div (total_samples mcs))) (List.concat ess) es) /\
    (forall q, q <> slash dir name -> q <> scratch dir -> d' q = d q).
Proof.
  intros dbl_div d dir name paths ess mcs ov Hs PD _ NS NN F NE L Do Ds.
  destruct (man_events_ok dbl_div d dir name paths ess mcs ov Hs PD NS NN F NE L Do Ds) as (ws & d' & E & O & Fr & _).
  exists ws, d'. split; [assumption|]. split; [|assumption].
  eexists _, _. split; [exact O|]. split.
  - split; [|reflexivity]. apply scale_event_wf; [intros; apply Hs; assumption|]. eapply event_files_wf. exact F.
  - apply map_event_reweighted.
Qed.
Print Assumptions C31_merged_events.

(** With exact division the total weight in the merged file is the total weight of the inputs per sample. *)
Theorem C31_weight_per_sample :
  forall (dbl_div : Q -> Z -> Z) (val : Z -> Q) (mcs : list Q) (ess es : list detevent),
  (forall w, val (dbl_div (total_samples mcs) w) == val w / total_samples mcs)%Q ->
  Forall2 (event_reweighted (dbl_div (total_samples mcs))) ess es ->
  (total_event_weight val es == total_event_weight val ess / total_samples mcs)%Q.
Proof.
  intros dbl_div val mcs ess es H F. unfold total_event_weight.
  induction F as [|e e' l l' (_ & _ & E) F IH]; cbn [map fold_right].
  - unfold Qdiv. ring.
  - rewrite IH, E, H. unfold Qdiv. ring.
Qed.
Print Assumptions C31_weight_per_sample.

(** A crash at any moment leaves everything except the output and the scratch file as it was. *)
Theorem C31_crash_keeps_inputs :
  forall (dbl_div : Q -> Z -> Z) (d : fs) (dir name : string) (paths : list string) (ess : list (list detevent)) (mcs : list Q)
         (overwrite : bool) ws d' r,
  (forall f w, wf_word w -> wf_word (dbl_div f w)) ->
  plain_dir dir -> plain name -> no_slash name -> name <> "eventfiles-to-merge.list"%string ->
  event_files d dir (slash dir name) paths ess -> paths <> [] -> List.length paths = List.length mcs ->
  d (slash dir name) <> Some Dir -> d (scratch dir) <> Some Dir ->
  merge_and_normalize_events dbl_div paths mcs (slash dir name) overwrite d = (ws, d', r) ->
  forall dc, crash_state ws d' dc -> forall q, q <> slash dir name -> q <> scratch dir -> dc q = d q.
Proof.
  intros dbl_div d dir name paths ess mcs ov ws d' r Hs PD _ NS NN F NE L Do Ds E dc C q Q1 Q2.
  destruct (man_events_ok dbl_div d dir name paths ess mcs ov Hs PD NS NN F NE L Do Ds) as (ws' & d'' & E' & O & Fr & Fw).
  rewrite E in E'. injection E' as <- <- ->.
  destruct C as [C|(d0 & p & Hin & C)].
  - rewrite C. apply Fr; assumption.
  - rewrite Forall_forall in Fw. destruct (Fw _ Hin) as [Ep Ed]. cbn in Ep, Ed.
    rewrite C; [apply Ed; assumption|]. destruct Ep; congruence.
Qed.
Print Assumptions C31_crash_keeps_inputs.

(** Numbers of event files and sample-count files that differ are refused before anything is written. *)
Theorem C31_mismatch :
  forall dbl_div paths mcs out overwrite d, List.length paths <> List.length mcs ->
  merge_and_normalize_events dbl_div paths mcs out overwrite d = ([], d, Err Storage_MCsample_Mismatch).
Proof.
  intros. unfold merge_and_normalize_events.
  replace (Nat.eqb (List.length paths) (List.length mcs)) with false by (symmetry; apply Nat.eqb_neq; assumption). reflexivity.
Qed.
Print Assumptions C31_mismatch.

Definition ex_e1 : detevent := mkE 1159 55 (1023 * 2 ^ 52).
Definition ex_e2 : detevent := mkE 3 0 (1024 * 2 ^ 52).
Definition ex_events : fs := fun p =>
  if String.eqb p "/w/out/step0/events.dat" then Some (File (flat_map event_bytes [ex_e1; ex_e2]))
  else if String.eqb p "/w/out/step1/events.dat" then Some (File (flat_map event_bytes []))
  else if String.eqb p "/w/out/step2/events.dat" then Some (File (flat_map event_bytes [ex_e1])) else None.
Definition ex_paths : list string := ["/w/out/step0/events.dat"; "/w/out/step1/events.dat"; "/w/out/step2/events.dat"]%string.
Lemma ex_wf : wf_event ex_e1 /\ wf_event ex_e2.
Proof. unfold wf_event, wf_word, ex_e1, ex_e2; cbn [pixelID tofChannelNo ev_n]. lia. Qed.

Example C31_example :
  plain_dir "/w/out" /\ plain "events.dat" /\ no_slash "events.dat" /\
  event_files ex_events "/w/out" (slash "/w/out" "events.dat") ex_paths [[ex_e1; ex_e2]; []; [ex_e1]] /\
  (let '(_, d', r) := merge_and_normalize_events (fun _ w => w / 2) ex_paths [2; 3; 4]%Q "/w/out/events.dat" true ex_events in
   r = Ok tt /\ match d' "/w/out/events.dat"%string with
                | Some (File b) => events_of b = [mkE 1159 55 (1023 * 2 ^ 51); mkE 3 0 (1024 * 2 ^ 51); mkE 1159 55 (1023 * 2 ^ 51)]
                | _ => False end).
Proof.
  destruct ex_wf as [W1 W2].
  split; [|split; [reflexivity|split; [|split]]].
  - split; [reflexivity|]. split; [intros t; discriminate|]. split; [discriminate|].
    intros t E. apply (f_equal list_ascii_of_string) in E. rewrite list_ascii_app in E.
    apply (f_equal (@rev ascii)) in E. rewrite rev_app_distr in E. cbn in E. discriminate.
  - cbn. intros H. repeat (destruct H as [H|H]; [discriminate|]). destruct H.
  - assert (H : forall p es, Forall wf_event es -> ex_events p = Some (File (flat_map event_bytes es)) ->
        p <> slash "/w/out" "events.dat" -> p <> scratch "/w/out" -> no_newline p -> no_dash p ->
        p <> slash "/w/out" "events.dat" /\ p <> scratch "/w/out" /\ no_newline p /\ no_dash p /\
        exists b, ex_events p = Some (File b) /\ event_file b es).
    { intros p es W E A B C D. repeat (split; [assumption|]). eexists. split; [exact E|]. split; [assumption|]. apply flat_event_bytes. assumption. }
    assert (N : forall s, forallb (fun a => negb (Ascii.eqb a (ascii_of_nat 10))) (list_ascii_of_string s) = true -> no_newline s).
    { intros s Hs Hi. rewrite forallb_forall in Hs. specialize (Hs _ Hi). rewrite Ascii.eqb_refl in Hs. discriminate. }
    repeat (apply Forall2_cons; [apply H; [repeat (constructor; [assumption|]); constructor|reflexivity|discriminate|discriminate|apply N; reflexivity|intros t; discriminate]|]).
    apply Forall2_nil.
  - vm_compute. auto.
Qed.

(** The output directory may not contain a blank: the name of the list file is then taken apart by the shell, nothing is read and
    the merge reports success with an empty file. *)
Theorem C31_directory_with_blank :
  forall (d : fs) (paths : list string) (out : string),
  out <> filelist_of out -> d out <> Some Dir -> d (filelist_of out) <> Some Dir ->
  (forall w, In w (shell_words (filelist_of out)) -> w <> out -> w <> filelist_of out /\ d w = None) ->
  exists ws d', mergeEventFiles paths out d = (ws, d', Ok tt) /\ d' out = Some (File []).
Proof. exact merge_events_blank. Qed.
Print Assumptions C31_directory_with_blank.

Theorem C31_every_directory_refuted :
  exists d paths b es, paths = ["/my out/step0/events.dat"%string] /\ d "/my out/step0/events.dat"%string = Some (File b) /\
    event_file b es /\ es <> [] /\
    exists ws d', merge_and_normalize_events (fun _ w => w) paths [1]%Q "/my out/events.dat" true d = (ws, d', Ok tt) /\
      d' "/my out/events.dat"%string = Some (File []).
Proof.
  exists (fun p => if String.eqb p "/my out/step0/events.dat" then Some (File (flat_map event_bytes [ex_e1])) else None).
  exists ["/my out/step0/events.dat"%string], (flat_map event_bytes [ex_e1]), [ex_e1].
  split; [reflexivity|]. split; [reflexivity|]. split.
  { split; [constructor; [apply ex_wf|constructor]|]. apply flat_event_bytes. constructor; [apply ex_wf|constructor]. }
  split; [discriminate|].
  eexists _, _. split; [vm_compute; reflexivity|]. vm_compute. reflexivity.
Qed.
Print Assumptions C31_every_directory_refuted.

(** overwrite_datafiles = False does not protect an existing output. *)
Theorem C31_existing_output_kept_refuted :
  exists d paths old, d "/w/out/events.dat"%string = Some (File old) /\
    exists ws d', merge_and_normalize_events (fun _ w => w) paths [1; 1; 1]%Q "/w/out/events.dat" false d = (ws, d', Ok tt) /\
      d' "/w/out/events.dat"%string <> Some (File old).
Proof.
  exists (fun p => if String.eqb p "/w/out/events.dat" then Some (File [1;2;3]) else ex_events p), ex_paths, [1;2;3].
  split; [reflexivity|]. eexists _, _. split; [vm_compute; reflexivity|]. vm_compute. discriminate.
Qed.
Print Assumptions C31_existing_output_kept_refuted.

(** ** C52 *)

(** Reducing events to a histogram of pixels and time channels adds to every cell the weights of exactly its events, in order. *)
Theorem C52_every_event_in_its_cell :
  forall (add : Z -> Z -> Z) (rows cols : nat) (es : list detevent) (a : list (list Z)),
  shaped rows cols a ->
  Forall (fun e => 0 <= pixelID e < Z.of_nat rows /\ 0 <= tofChannelNo e < Z.of_nat cols) es ->
  exists a', events2Ipixtof add es a = Ok a' /\ shaped rows cols a' /\
    forall i j, cell a' i j = option_map (fun z => fold_left add (weights_at es i j) z) (cell a i j).
Proof. exact reduce_ok. Qed.
Print Assumptions C52_every_event_in_its_cell.

(** The first event outside the histogram raises; what was added before it stays (the array is modified in place). *)
Theorem C52_event_outside :
  forall (add : Z -> Z -> Z) (rows cols : nat) (es1 es2 : list detevent) (e : detevent) (a : list (list Z)),
  shaped rows cols a ->
  Forall (fun e => 0 <= pixelID e < Z.of_nat rows /\ 0 <= tofChannelNo e < Z.of_nat cols) es1 ->
  0 <= pixelID e -> 0 <= tofChannelNo e -> Z.of_nat rows <= pixelID e \/ Z.of_nat cols <= tofChannelNo e ->
  events2Ipixtof add (es1 ++ e :: es2) a = Err IndexError.
Proof.
  intros add rows cols es1 es2 e a S F P T K. unfold events2Ipixtof. revert a S.
  induction F as [|x es1 [P1 T1] F IH]; intros a S; cbn [app fold_result].
  - rewrite (add_event_bad add rows cols a e S P T K). reflexivity.
  - destruct (add_event_ok add rows cols a x S P1 T1) as (a' & E & S' & _). rewrite E. apply IH. assumption.
Qed.
Print Assumptions C52_event_outside.

(* integers in place of doubles *)
Example C52_example :
  shaped 2 3 [[0;0;0];[0;0;5]] /\
  events2Ipixtof Z.add [mkE 1 2 7; mkE 0 0 1; mkE 1 2 3] [[0;0;0];[0;0;5]] = Ok [[1;0;0];[0;0;15]] /\
  weights_at [mkE 1 2 7; mkE 0 0 1; mkE 1 2 3] 1 2 = [7; 3] /\
  events2Ipixtof Z.add [mkE 2 0 1] [[0;0;0];[0;0;5]] = Err IndexError.
Proof. repeat split; repeat constructor. Qed.
