(** Properties C14 and C15: the parallel neutron source and the barrier, for every number of ranks and every
    interleaving of their steps. *)
From Verif Require Import Base StorageModel StorageSpec StorageProofs MpiModel MpiSpec MpiKahn MpiProofs StorageProps.
From Coq Require Import ZifyBool ZifyNat.
Open Scope Z_scope.

(** ** C14 *)
(** [size] >= 2 ranks, the component just built on a file holding the non-empty list [l], every rank calling process with the
    same sequence [ns] of buffer sizes; each send may or may not wait for its receiver ([sync]).  Every execution has
    bounded length and never gets stuck before all ranks are done; then all reads have succeeded with the sizes asked for, and the
    pieces, put together by round and rank, are the cyclic repetition of the file from its start: none is skipped, none is read twice. *)
Theorem C14_ranks_share_the_stream :
  forall (sync : nat -> bool) (size : nat) (number : Z) (d : fs) (path : string) (b : list Z) (l : list neutron) (bs : Z) (ns : list nat),
  (2 <= size)%nat -> d path = Some (File b) -> wf_neutrons l -> file_holds b l -> l <> [] -> Forall (fun n => 1 <= n)%nat ns ->
  exists st bound,
    st_open d path MR None bs = (d, Ok st) /\
    forall sched c,
      run sched (initial number st (source_run sync size d (fun _ => map Z.of_nat ns))) = Some c ->
      (List.length sched <= bound)%nat /\
      (can_move c \/
       (all_done c /\
        (forall r, (r < size)%nat ->
           let log := l_log (c_st c r) in
           log = map (fun x => Ok (Some x)) (rank_reads log) /\ map (@List.length neutron) (rank_reads log) = ns) /\
        map Some (round_robin size (List.length ns) (fun r => rank_reads (l_log (c_st c r))))
          = cyclic l 0 (size * list_sum ns))).
Proof.
  intros sync size number d path b l bs ns Hs Hd Wf Hh Hl Hns.
  set (st := mkStorage path MR false bs [] None 0 (Z.of_nat (List.length l))).
  set (f := fun _ : nat => mkL number 0 0 0 st [] false false).
  assert (I : rinv l st d).
  { constructor; cbn; auto. unfold fs_bytes. rewrite Hd. assumption. }
  destruct (all_rounds sync size d l ltac:(lia) Hl ns 0 number f Hns) as (cf & R & F & L); [intros; split; [reflexivity|exact I]|reflexivity|].
  destruct (all_executions _ cf R F) as (bound & A).
  exists st, bound. split; [exact (open_r d path bs None b l Hd Wf Hh)|].
  intros sched c Rc. destruct (A sched c Rc) as (Hlen & Hm). split; [exact Hlen|].
  destruct Hm as [Hm|(Fc & Sc)]; [left; exact Hm|right]. split; [exact Fc|].
  assert (G : forall r, (r < size)%nat -> good_log l size r 0 ns (l_log (c_st c r))).
  { intros r Hr. rewrite Sc. destruct (L r Hr) as (log & -> & G). exact G. }
  assert (RR : forall xs : list (list neutron), rank_reads (map (fun x => Ok (Some x)) xs) = xs).
  { intro xs. unfold rank_reads. rewrite map_map. apply map_id. }
  split.
  - intros r Hr. destruct (G r Hr) as (xs & E & Fx). cbn zeta. rewrite E, RR. split; [reflexivity|].
    clear - Fx. revert Fx. generalize 0%nat at 1. revert xs.
    induction ns as [|n ns IH]; intros xs start Fx; cbn [offsets] in Fx; inversion Fx; subst; [reflexivity|].
    cbn. f_equal; [tauto|]. eapply IH. eassumption.
  - unfold round_robin. rewrite (stream_of_rounds l size Hl ns 0).
    + rewrite Nat.mod_0_l; [reflexivity|]. destruct l; cbn; [congruence|lia].
    + intros r Hr. destruct (G r Hr) as (xs & E & Fx). rewrite E, RR. exact Fx.
Qed.
Print Assumptions C14_ranks_share_the_stream.

Definition ex_src : list neutron := [ex_neutron 1; ex_neutron 2; ex_neutron 3; ex_neutron 4; ex_neutron 5].
Definition ex_disk : fs := fun q => if String.eqb q "n" then Some (File (empty_header ++ words_tostring (List.concat ex_src))) else None.
Definition ex_storage : storage := mkStorage "n" MR false 0 [] None 0 5.

Example C14_example :  (* 2 ranks, two rounds of 2 and 1 neutrons: 1 2 | 3 4, then 5 | 1 *)
  wf_neutrons ex_src /\ file_holds (empty_header ++ words_tostring (List.concat ex_src)) ex_src /\
  option_map (fun c => (map (fun r => List.length (c_prog c r)) [0; 1]%nat,
                        round_robin 2 2 (fun r => rank_reads (l_log (c_st c r)))))
    (run [0;0;1;1;1;0;1;0; 0;0;0;1;1;1;0;1]%nat
         (initial 10000 ex_storage (source_run (fun _ => false) 2 ex_disk (fun _ => [2; 1]))))
  = Some ([0; 0]%nat, [ex_neutron 1; ex_neutron 2; ex_neutron 3; ex_neutron 4; ex_neutron 5; ex_neutron 1]).
Proof.
  split; [repeat (apply Forall_cons; [apply ex_neutron_wf; lia|]); apply Forall_nil|].
  split; [exists empty_header; split; [reflexivity|]; vm_compute; reflexivity|]. vm_compute. reflexivity.
Qed.

(** Finding: when the ranks ask for different numbers of neutrons, as they do when the neutron count is not a multiple of the number of
    ranks (C10: shares differ by one), neutrons are skipped: three ranks asking for 2, 1 and 1 read neutrons 0 1, 2 and 4. *)
Theorem C14_unequal_shares_skip_neutrons_refuted :
  exists (sched : list nat) (c : config lstate Z),
    run sched (initial 10000 ex_storage (source_run (fun _ => false) 3 ex_disk
                 (fun r => match r with O => [2] | _ => [1] end))) = Some c /\
    all_done c /\
    (forall r, (r < 3)%nat -> ~ In (ex_neutron 4) (List.concat (rank_reads (l_log (c_st c r))))) /\
    In (ex_neutron 5) (List.concat (rank_reads (l_log (c_st c 2%nat)))).
Proof.
  destruct (ex_run_obs (fun c => (map (fun r => List.length (c_prog c r)) (seq 0 3), map (fun r => rank_reads (l_log (c_st c r))) [0;1;2]%nat))
              [0;0;0;0;0; 1;1;1;1; 2;2;2;2]%nat
              (initial 10000 ex_storage (source_run (fun _ => false) 3 ex_disk (fun r => match r with O => [2] | _ => [1] end)))
              ([0;0;0]%nat, [[[ex_neutron 1; ex_neutron 2]]; [[ex_neutron 3]]; [[ex_neutron 5]]])) as (c & R & E).
  { vm_compute. reflexivity. }
  exists [0;0;0;0;0; 1;1;1;1; 2;2;2;2]%nat, c. split; [exact R|].
  assert (Hp := f_equal fst E). assert (Hlog := f_equal snd E). cbn [fst snd map] in Hp, Hlog. injection Hlog as E0 E1 E2.
  split.
  - intro r. destruct (Nat.ltb_spec r 3); [apply (lengths_nil (c_prog c) 3 Hp); assumption|].
    destruct (run_other _ _ _ r R) as [-> _]; [cbn; lia|]. cbn [initial c_prog]. unfold source_run.
    replace (Nat.ltb r 3) with false by (symmetry; apply Nat.ltb_ge; lia). reflexivity.
  - split.
    + clear R E Hp. intros r Hr H.
      assert (HH : In (ex_neutron 4) [ex_neutron 1; ex_neutron 2] \/ In (ex_neutron 4) [ex_neutron 3] \/ In (ex_neutron 4) [ex_neutron 5]).
      { destruct r as [|[|[|r]]]; [rewrite E0 in H|rewrite E1 in H|rewrite E2 in H|lia]; cbn [List.concat app] in H; auto. }
      clear - HH. vm_compute in HH. intuition discriminate.
    + rewrite E2. left. reflexivity.
Qed.
Print Assumptions C14_unequal_shares_skip_neutrons_refuted.

(** ** C15 *)
(** All ranks call barrier with equal channel counters and nothing in flight: every execution is finite, never stuck, and ends with
    everybody out, the counters still equal, and everything else about the component unchanged. *)
Theorem C15_barrier_terminates :
  forall (sync : nat -> bool) (size : nat) (number : Z) (f : nat -> lstate),
  (2 <= size)%nat -> (forall r, (r < size)%nat -> l_number (f r) = number) ->
  exists bound, forall sched c,
    run sched (mkConfig (fun r => if Nat.ltb r size then barrier_prog sync size r else []) f (fun _ _ _ => [])) = Some c ->
    (List.length sched <= bound)%nat /\
    (can_move c \/
     (all_done c /\ forall r, (r < size)%nat ->
        l_entered (c_st c r) = true /\ l_left (c_st c r) = true /\ l_number (c_st c r) = number + 1 /\
        l_cursor (c_st c r) = l_cursor (f r) /\ l_log (c_st c r) = l_log (f r) /\ l_storage (c_st c r) = l_storage (f r))).
Proof.
  intros sync size number f Hs Hn. destruct (barrier_reach sync size number f Hs Hn) as (cf & R & F & L).
  destruct (all_executions _ cf R F) as (bound & A). exists bound. intros sched c Rc.
  destruct (A sched c Rc) as (Hl & [Hm|(Fc & Sc)]); split; auto. right. split; [exact Fc|].
  intros r Hr. rewrite Sc. apply L. exact Hr.
Qed.
Print Assumptions C15_barrier_terminates.

(** Whatever the mode of the sends: no rank but 0 gets out before rank 0 has come in. *)
Theorem C15_workers_wait_for_rank0 :
  forall (sync : nat -> bool) (size : nat) (f : nat -> lstate) (sched : list nat) (c : config lstate Z) (r : nat),
  (2 <= size)%nat -> (forall q, l_left (f q) = false) ->
  run sched (mkConfig (fun r => if Nat.ltb r size then barrier_prog sync size r else []) f (fun _ _ _ => [])) = Some c ->
  (1 <= r)%nat -> l_left (c_st c r) = true -> l_entered (c_st c 0%nat) = true.
Proof.
  intros sync size f sched c r Hs Hl R Hr Hlr.
  pose proof (run_invariant (one_sided sync size) (one_sided_step sync size) _ _ _ (one_sided_init sync size f Hs Hl) R) as [_ [H|(_ & _ & H)]];
    [exact H|]. destruct (H r Hr) as [H1 _]. congruence.
Qed.
Print Assumptions C15_workers_wait_for_rank0.

(** If MPI makes every send wait for its receiver, rank 0 gets out only after all others have come in. *)
Theorem C15_rank0_waits_if_sends_are_synchronous :
  forall (size : nat) (f : nat -> lstate) (sched : list nat) (c : config lstate Z) (r : nat),
  (2 <= size)%nat -> l_left (f 0%nat) = false ->
  run sched (mkConfig (fun r => if Nat.ltb r size then barrier_prog (fun _ => true) size r else []) f (fun _ _ _ => [])) = Some c ->
  l_left (c_st c 0%nat) = true -> (1 <= r < size)%nat -> l_entered (c_st c r) = true.
Proof.
  intros size f sched c r Hs Hl R H0 Hr.
  pose proof (run_invariant (rdv size) (fun r c c' => rdv_step size r c c' Hs) _ _ _ (rdv_init size f Hs Hl) R) as [_ [(H & _)|(_ & H)]].
  - congruence.
  - apply H. exact Hr.
Qed.
Print Assumptions C15_rank0_waits_if_sends_are_synchronous.

Definition ex_l : lstate := mkL 10000 0 0 0 ex_storage [] false false.
Definition ex_barrier (sync : nat -> bool) (size : nat) : config lstate Z :=
  mkConfig (fun r => if Nat.ltb r size then barrier_prog sync size r else []) (fun _ => ex_l) (fun _ _ _ => []).

Example C15_example : (* three ranks, mixed modes; worker 2 is out while worker 1 waits, rank 0 in its second send *)
  option_map (fun c => (l_left (c_st c 2%nat), l_left (c_st c 1%nat), l_entered (c_st c 0%nat)))
    (run [2;2;0;0;0;1;1;1;0;0;2;2]%nat (ex_barrier (Nat.eqb 1) 3)) = Some (true, false, true).
Proof. vm_compute. reflexivity. Qed.

(** Finding: it is not a barrier.  With buffered sends rank 0 gets out although no other rank has arrived; even with synchronous
    sends a worker can get out before another worker arrives. *)
Theorem C15_everybody_waits_for_everybody_refuted :
  (exists sched c, run sched (ex_barrier (fun _ => false) 3) = Some c /\
     l_left (c_st c 0%nat) = true /\ l_entered (c_st c 1%nat) = false /\ l_entered (c_st c 2%nat) = false) /\
  (exists sched c, run sched (ex_barrier (fun _ => true) 3) = Some c /\
     l_left (c_st c 1%nat) = true /\ l_entered (c_st c 2%nat) = false).
Proof.
  split.
  - exists [0;0;0;0;0]%nat.
    destruct (ex_run_obs (fun c => (l_left (c_st c 0%nat), l_entered (c_st c 1%nat), l_entered (c_st c 2%nat))) [0;0;0;0;0]%nat
                (ex_barrier (fun _ => false) 3) (true, false, false)) as (c & R & E); [vm_compute; reflexivity|].
    injection E as ? ? ?. exists c. auto.
  - exists [1;1;0;0;0;1;1]%nat.
    destruct (ex_run_obs (fun c => (l_left (c_st c 1%nat), l_entered (c_st c 2%nat))) [1;1;0;0;0;1;1]%nat
                (ex_barrier (fun _ => true) 3) (true, false)) as (c & R & E); [vm_compute; reflexivity|].
    injection E as ? ?. exists c. auto.
Qed.
Print Assumptions C15_everybody_waits_for_everybody_refuted.

Lemma ex_run_stale :
  exists c, run [0;0;1;1;1;1]%nat (initial 10000 ex_storage
      (fun r => source_run (fun _ => false) 2 ex_disk (fun r => match r with O => [2] | _ => [] end) r ++
                (if Nat.ltb r 2 then barrier_prog (fun _ => false) 2 r else []))) = Some c /\
    l_left (c_st c 1%nat) = true /\ l_entered (c_st c 0%nat) = false.
Proof.
  match goal with |- exists c, run ?s ?i = _ /\ _ =>
    destruct (ex_run_obs (fun c => (l_left (c_st c 1%nat), l_entered (c_st c 0%nat))) s i (true, false)) as (c & R & E) end.
  { vm_compute. reflexivity. }
  injection E as ? ?. exists c. auto.
Qed.

(** Finding: the empty network matters.  If rank 0 has served one buffer more than rank 1 (the iteration counts of the ranks may differ), the
    unread cursor message opens the barrier for rank 1 before rank 0 has reached it. *)
Theorem C15_stale_message_opens_barrier_refuted :
  exists (sched : list nat) (c : config lstate Z),
    run sched (initial 10000 ex_storage
      (fun r => source_run (fun _ => false) 2 ex_disk (fun r => match r with O => [2] | _ => [] end) r ++
                (if Nat.ltb r 2 then barrier_prog (fun _ => false) 2 r else []))) = Some c /\
    l_left (c_st c 1%nat) = true /\ l_entered (c_st c 0%nat) = false.
Proof.
  exists [0;0;1;1;1;1]%nat. apply ex_run_stale.
Qed.
Print Assumptions C15_stale_message_opens_barrier_refuted.
