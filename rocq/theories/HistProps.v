(** Properties C16 and C17: merging and normalising monitor histograms. *)
From Verif Require Import Base MpiModel MpiSpec MpiKahn HistModel HistSpec HistProofs.
From Coq Require Import ZifyBool ZifyNat QArith QArith.Qcanon Permutation.
Open Scope Z_scope.

(** ** C16 *)
(** Any number of ranks and of files; each send may or may not wait for its receiver.  Every execution of the parallel merge is bounded and
    never stuck; at the end rank 0 has returned what the serial function returns, the others None. *)
Theorem C16_parallel_equals_serial :
  forall (A M : Type) (addA : A -> A -> A) (M0 : M) (addM : M -> M -> M) (loadh : string -> A * A) (loadm : string -> M)
         (sync : nat -> Z -> bool) (size : nat) (histfiles mcsfiles : list string),
  (forall x y z, addA x (addA y z) = addA (addA x y) z) ->
  (forall x y z, addM x (addM y z) = addM (addM x y) z) -> (forall x, addM M0 x = x) ->
  (1 <= size)%nat -> List.length histfiles = List.length mcsfiles -> histfiles <> [] ->
  exists bound, forall sched c,
    run sched (parallel_start addA M0 addM loadh loadm sync size histfiles mcsfiles) = Some c ->
    (List.length sched <= bound)%nat /\
    (can_move c \/
     (all_done c /\ h_ret (c_st c 0%nat) = Some (hist_mcs_sum addA M0 addM loadh loadm histfiles mcsfiles) /\
      forall r, (1 <= r < size)%nat -> h_ret (c_st c r) = Some RNone)).
Proof.
  intros A M addA M0 addM loadh loadm sync size hf mf aA aM zM Hs Hl Hne.
  pose proof (parallel_reach A M addA M0 addM loadh loadm sync size hf mf Hs Hl Hne) as R.
  destruct (all_executions _ _ R (fun _ => eq_refl)) as (bound & X). exists bound. intros sched c Rc.
  destruct (X sched c Rc) as (Hb & [Hm|(F & S)]); split; auto. right. split; [exact F|]. cbn [c_st] in S. split.
  - rewrite S. replace (Nat.ltb 0 size) with true by (symmetry; apply Nat.ltb_lt; lia). cbn [Nat.eqb].
    apply rank0_final_sum; assumption.
  - intros r Hr. rewrite S. replace (Nat.ltb r size) with true by (symmetry; apply Nat.ltb_lt; lia).
    replace (Nat.eqb r 0) with false by (symmetry; apply Nat.eqb_neq; lia). reflexivity.
Qed.
Print Assumptions C16_parallel_equals_serial.

(** The slices of the ranks, in rank order, are the list: every file goes to exactly one rank. *)
Theorem C16_every_file_to_one_rank :
  forall (size : nat) (files : list string), (1 <= size)%nat ->
  flat_map (fun r => my_slice size r (List.length files) files) (seq 0 size) = files.
Proof.
  intros size files Hs. rewrite slices_prefix. apply firstn_all2. apply npernode_covers. exact Hs.
Qed.
Print Assumptions C16_every_file_to_one_rank.

(** Nothing recorded: everybody returns (None, None), and merge_and_normalize then fails on rank 0. *)
Theorem C16_no_files :
  forall (A M : Type) (addA : A -> A -> A) (M0 : M) (addM : M -> M -> M) (loadh : string -> A * A) (loadm : string -> M)
         (sync : nat -> Z -> bool) (size : nat), (1 <= size)%nat ->
  exists bound, forall sched c,
    run sched (parallel_start addA M0 addM loadh loadm sync size [] []) = Some c ->
    (List.length sched <= bound)%nat /\
    (can_move c \/ (all_done c /\ forall r, (r < size)%nat -> h_ret (c_st c r) = Some RNoneNone)).
Proof.
  intros A M addA M0 addM loadh loadm sync size Hs.
  pose proof (parallel_reach_empty A M addA M0 addM loadh loadm sync size Hs) as R.
  destruct (all_executions _ _ R (fun _ => eq_refl)) as (bound & X). exists bound. intros sched c Rc.
  destruct (X sched c Rc) as (Hb & [Hm|(F & S)]); split; auto. right. split; [exact F|].
  intros r Hr. rewrite S. cbn [c_st h_ret]. replace (Nat.ltb r size) with true by (symmetry; apply Nat.ltb_lt; lia). reflexivity.
Qed.
Print Assumptions C16_no_files.

(** Finding: when the numbers of histogram files and of sample-count files differ, rank 0 raises AssertionError before the broadcast and
    all other ranks wait for it for ever: no execution lets any of them make a step. *)
Theorem C16_assertion_leaves_others_waiting :
  forall (A M : Type) (addA : A -> A -> A) (M0 : M) (addM : M -> M -> M) (loadh : string -> A * A) (loadm : string -> M)
         (sync : nat -> Z -> bool) (size : nat) (histfiles mcsfiles : list string) (sched : list nat) c,
  List.length histfiles <> List.length mcsfiles ->
  run sched (parallel_start addA M0 addM loadh loadm sync size histfiles mcsfiles) = Some c ->
  forall r, (1 <= r < size)%nat -> c_prog c r <> [] /\ exec r c = None.
Proof.
  intros A M addA M0 addM loadh loadm sync size hf mf sched c Hne R r Hr.
  destruct (assert_hangs A M addA M0 addM loadh loadm sync size hf mf Hne sched c R) as (N & P & _).
  unfold exec. rewrite (P r Hr). unfold parallel_prog. replace (Nat.eqb r 0) with false by (symmetry; apply Nat.eqb_neq; lia).
  split; [discriminate|]. unfold hrecv. rewrite N. reflexivity.
Qed.
Print Assumptions C16_assertion_leaves_others_waiting.

Definition exh (f : string) : Z * Z := (Z.of_nat (String.length f), 100 * Z.of_nat (String.length f)).
Definition exm (f : string) : Z := 1000 + Z.of_nat (String.length f).
Example C16_example :  (* 3 ranks, 4 files of 2 per rank: rank 2 has no data *)
  let hf := ["a"; "bb"; "ccc"; "dddd"]%string in
  my_slice 3 2 4 hf = [] /\
  option_map (fun c => (map (fun r => List.length (c_prog c r)) [0;1;2]%nat, h_ret (c_st c 0%nat)))
    (run [0;0;0; 2;2;2;2;2;2; 1;1;1;1;1; 0;0;0;0; 1;1;1;1; 0;0;0;0;0;0]%nat
       (parallel_start Z.add 0 Z.add exh exm (fun _ _ => false) 3 hf hf))
  = Some ([0;0;0]%nat, Some (RSum (10, 1000) 4010)) /\
  hist_mcs_sum Z.add 0 Z.add exh exm hf hf = RSum (10, 1000) 4010.
Proof. split; [|split]; vm_compute; reflexivity. Qed.

Example C16_assert_example :
  List.length ["a"%string] <> List.length (@nil string) /\
  exists c, run [0;0]%nat (parallel_start Z.add 0 Z.add exh exm (fun _ _ => false) 2 ["a"%string] []) = Some c.
Proof. split; [discriminate|]. eexists. reflexivity. Qed.

(** ** C17 *)
Lemma qsum_app l m : qsum (l ++ m) = (qsum l + qsum m)%Qc.
Proof. unfold qsum. induction l as [|x l IH]; cbn; [rewrite Qcplus_0_l; reflexivity|]. rewrite IH, Qcplus_assoc. reflexivity. Qed.
Lemma qsum_perm l m : Permutation l m -> qsum l = qsum m.
Proof.
  unfold qsum. induction 1; cbn; [reflexivity|congruence| |congruence].
  rewrite !Qcplus_assoc. f_equal. apply Qcplus_comm.
Qed.
Lemma in_bin_app j a b : in_bin j (a ++ b) = in_bin j a ++ in_bin j b.
Proof. unfold in_bin. rewrite filter_app, map_app. reflexivity. Qed.
Lemma filter_perm {A} (p : A -> bool) l m : Permutation l m -> Permutation (filter p l) (filter p m).
Proof.
  induction 1; cbn; [constructor|destruct (p x); [constructor|]; assumption| |etransitivity; eassumption].
  destruct (p x), (p y); try reflexivity; constructor.
Qed.
Lemma in_bin_perm j a b : Permutation a b -> Permutation (in_bin j a) (in_bin j b).
Proof. intro H. unfold in_bin. apply Permutation_map. apply filter_perm. exact H. Qed.

Lemma add_arrays_map (f g : nat -> Qc) l : add_arrays (map f l) (map g l) = map (fun j => f j + g j)%Qc l.
Proof. unfold add_arrays. induction l as [|x l IH]; cbn; [reflexivity|]. f_equal. exact IH. Qed.
Lemma add_arrays_assoc x y z : add_arrays x (add_arrays y z) = add_arrays (add_arrays x y) z.
Proof.
  unfold add_arrays. revert y z. induction x as [|a x IH]; intros [|b y] [|c z]; cbn; try reflexivity.
  f_equal; [apply Qcplus_assoc|apply IH].
Qed.
Lemma hist_app nb a b : addH _ add_arrays (hist nb a) (hist nb b) = hist nb (a ++ b).
Proof.
  unfold addH, hist. cbn [fst snd]. rewrite !add_arrays_map. f_equal; apply map_ext; intro j; rewrite in_bin_app, ?map_app, qsum_app; reflexivity.
Qed.
Lemma hist_perm nb a b : Permutation a b -> hist nb a = hist nb b.
Proof.
  intro H. unfold hist. f_equal; apply map_ext; intro j; apply qsum_perm; [|apply Permutation_map]; apply in_bin_perm; exact H.
Qed.

Section C17.
Variables (nb : nat) (events : string -> list event) (samples : string -> Qc).
Lemma sum_files_hist f fs :
  sum_files add_arrays (fun f => hist nb (events f)) (f :: fs) = Some (hist nb (flat_map events (f :: fs))).
Proof.
  cbn. f_equal. revert f. assert (G : forall e, fold_left (fun h f => addH _ add_arrays h (hist nb (events f))) fs (hist nb e) = hist nb (e ++ flat_map events fs)).
  { induction fs as [|g fs IH]; intro e; cbn; [rewrite app_nil_r; reflexivity|]. rewrite hist_app, IH, app_assoc. reflexivity. }
  intro f. apply G.
Qed.
Lemma sum_mcs_qsum fs : sum_mcs 0%Qc Qcplus samples fs = qsum (map samples fs).
Proof.
  unfold sum_mcs. assert (G : forall l a, fold_left Qcplus l a = (a + qsum l)%Qc).
  { unfold qsum. induction l as [|x l IH]; intro a; cbn; [symmetry; apply Qcplus_0_r|]. rewrite IH, Qcplus_assoc. reflexivity. }
  rewrite G. apply Qcplus_0_l.
Qed.
End C17.

(** Each step directory holds the histogram of the events of that step and its number of samples.  The result file is the histogram of all events,
    intensities divided by the total number n of samples and squared errors by n^2 (n not zero). *)
Theorem C17_normalised_result :
  forall (nb : nat) (events : string -> list event) (samples : string -> Qc) (histfiles mcsfiles : list string),
  List.length histfiles = List.length mcsfiles -> histfiles <> [] ->
  let n := qsum (map samples mcsfiles) in
  n <> 0%Qc ->
  let h := hist nb (flat_map events histfiles) in
  merge_and_normalize_hist (hist_mcs_sum add_arrays 0%Qc Qcplus (fun f => hist nb (events f)) samples histfiles mcsfiles)
  = Ok (Some (map (fun x => x / n)%Qc (fst h), map (fun x => x / (n * n))%Qc (snd h))).
Proof.
  intros nb events samples hf mf Hl Hne n Hn h. unfold hist_mcs_sum.
  replace (Nat.eqb (List.length hf) (List.length mf)) with true by (symmetry; apply Nat.eqb_eq; exact Hl). cbn [negb].
  destruct hf as [|f fs]; [congruence|]. rewrite sum_files_hist, sum_mcs_qsum. fold n. unfold merge_and_normalize_hist, normalise_arrays.
  destruct (Qc_eq_dec n 0); [contradiction|]. reflexivity.
Qed.
Print Assumptions C17_normalised_result.

(** Two runs that record the same events, in any order and split in any way over steps, with the same total number of samples, give the same file. *)
Theorem C17_split_independent :
  forall (nb : nat) (ev1 ev2 : string -> list event) (s1 s2 : string -> Qc) (hf1 mf1 hf2 mf2 : list string),
  List.length hf1 = List.length mf1 -> List.length hf2 = List.length mf2 -> hf1 <> [] -> hf2 <> [] ->
  Permutation (flat_map ev1 hf1) (flat_map ev2 hf2) ->
  qsum (map s1 mf1) = qsum (map s2 mf2) ->
  merge_and_normalize_hist (hist_mcs_sum add_arrays 0%Qc Qcplus (fun f => hist nb (ev1 f)) s1 hf1 mf1)
  = merge_and_normalize_hist (hist_mcs_sum add_arrays 0%Qc Qcplus (fun f => hist nb (ev2 f)) s2 hf2 mf2).
Proof.
  intros nb ev1 ev2 s1 s2 hf1 mf1 hf2 mf2 L1 L2 N1 N2 P S. unfold hist_mcs_sum.
  replace (Nat.eqb (List.length hf1) (List.length mf1)) with true by (symmetry; apply Nat.eqb_eq; exact L1).
  replace (Nat.eqb (List.length hf2) (List.length mf2)) with true by (symmetry; apply Nat.eqb_eq; exact L2). cbn [negb].
  destruct hf1 as [|f1 fs1]; [congruence|]. destruct hf2 as [|f2 fs2]; [congruence|].
  rewrite !sum_files_hist, !sum_mcs_qsum, S, (hist_perm nb _ _ P). reflexivity.
Qed.
Print Assumptions C17_split_independent.

(** The same for the parallel post-processing, on any number of ranks and for every schedule. *)
Theorem C17_parallel_result :
  forall (sync : nat -> Z -> bool) (size nb : nat) (events : string -> list event) (samples : string -> Qc) (histfiles mcsfiles : list string),
  (1 <= size)%nat -> List.length histfiles = List.length mcsfiles -> histfiles <> [] ->
  let n := qsum (map samples mcsfiles) in
  n <> 0%Qc ->
  let h := hist nb (flat_map events histfiles) in
  forall sched c,
    run sched (parallel_start add_arrays 0%Qc Qcplus (fun f => hist nb (events f)) samples sync size histfiles mcsfiles) = Some c ->
    can_move c \/
    option_map merge_and_normalize_hist (h_ret (c_st c 0%nat))
    = Some (Ok (Some (map (fun x => x / n)%Qc (fst h), map (fun x => x / (n * n))%Qc (snd h)))).
Proof.
  intros sync size nb events samples hf mf Hs Hl Hne n Hn h sched c R.
  destruct (C16_parallel_equals_serial _ _ add_arrays 0%Qc Qcplus (fun f => hist nb (events f)) samples sync size hf mf
              add_arrays_assoc Qcplus_assoc Qcplus_0_l Hs Hl Hne) as (bound & X).
  destruct (X sched c R) as (_ & [Hm|(_ & E & _)]); [left; exact Hm|right]. rewrite E. cbn [option_map]. f_equal.
  apply C17_normalised_result; assumption.
Qed.
Print Assumptions C17_parallel_result.

Example C17_example :
  let ev f := if String.eqb f "a" then [(0%nat, Q2Qc (Qmake 2 1)); (1%nat, Q2Qc (Qmake 3 1))] else [(0%nat, Q2Qc (Qmake 4 1))] in
  let s (f : string) := Q2Qc (Qmake 5 1) in
  Permutation (flat_map ev ["a"; "b"]%string) (flat_map ev ["b"; "a"]%string) /\
  qsum (map s ["a"; "b"]%string) <> 0%Qc /\
  merge_and_normalize_hist (hist_mcs_sum add_arrays 0%Qc Qcplus (fun f => hist 2 (ev f)) s ["a"; "b"]%string ["a"; "b"]%string)
  = Ok (Some ([Q2Qc (Qmake 3 5); Q2Qc (Qmake 3 10)], [Q2Qc (Qmake 1 5); Q2Qc (Qmake 9 100)])).
Proof.
  split; [|split].
  - cbn. apply (Permutation_trans (l' := [(0%nat, Q2Qc (Qmake 2 1)); (0%nat, Q2Qc (Qmake 4 1)); (1%nat, Q2Qc (Qmake 3 1))])).
    + constructor. apply perm_swap.
    + apply perm_swap.
  - vm_compute. intro H. discriminate.
  - unfold hist_mcs_sum, merge_and_normalize_hist. cbn [List.length Nat.eqb negb sum_files sum_mcs map fold_left].
    unfold normalise_arrays. destruct (Qc_eq_dec _ 0) as [H|_]; [vm_compute in H; discriminate|].
    do 2 f_equal. f_equal; vm_compute; repeat (f_equal; try apply Qc_is_canon; try reflexivity).
Qed.
