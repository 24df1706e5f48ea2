(** Properties C10-C13: how many neutrons are simulated, where, in which batches. *)
From Verif Require Import Base PyStr RunModel RunSpec RunProofs.
From Coq Require Import ZifyBool ZifyNat Permutation.
Open Scope Z_scope.

(** ** C10 *)

(** The shares are a fair division of N, and exactly min(N,n) ranks have one. *)
Theorem C10_partition_fair :
  forall N n, 0 <= N -> 1 <= n ->
  exists shares, getPartitions N n = Ok shares /\ fair N shares /\ Z.of_nat (List.length shares) = Z.min N n.
Proof. exact partitions_ok. Qed.
Print Assumptions C10_partition_fair.

(** What one rank sees: a share of at least one neutron, or IndexError when there are more ranks than neutrons. *)
Theorem C10_rank_share :
  forall N n rank, 0 <= N -> 1 <= n -> 0 <= rank ->
  (rank < Z.min N n -> exists s, rank_share N n rank = Ok s /\ 1 <= s) /\
  (Z.min N n <= rank -> rank_share N n rank = Err IndexError).
Proof. exact rank_share_ok. Qed.
Print Assumptions C10_rank_share.

(** The shares of the ranks 0..n-1 add up to N when there are at least as many neutrons as ranks. *)
Theorem C10_ranks_cover :
  forall N n, 1 <= n <= N ->
  exists shares, map (fun r => rank_share N n (Z.of_nat r)) (seq 0 (Z.to_nat n)) = map Ok shares /\ zsum shares = N.
Proof.
  intros N n H. destruct (partitions_ok N n ltac:(lia) ltac:(lia)) as (l & E & (S & _) & L).
  exists l. split; [|assumption]. replace (Z.to_nat n) with (List.length l) by lia. apply shares_total. assumption.
Qed.
Print Assumptions C10_ranks_cover.

Example C10_example :
  getPartitions 10 4 = Ok [3; 3; 2; 2] /\ getPartitions 2 4 = Ok [1; 1] /\ rank_share 2 4 3 = Err IndexError /\
  fair 10 [3; 3; 2; 2].
Proof.
  split; [reflexivity|]. split; [reflexivity|]. split; [reflexivity|].
  split; [reflexivity|]. split; [repeat constructor; lia|].
  intros x y Hx Hy. cbn in Hx, Hy. lia.
Qed.

(** ** C11 *)
Theorem C11_run1_batches :
  forall ncount buffer_size, 0 <= ncount -> 1 <= buffer_size ->
  exists bs, run1 ncount buffer_size = (bs, Ok tt) /\ good_batches buffer_size ncount bs.
Proof.
  intros ncount cap H1 H2. destruct (run1_ok ncount cap H1 H2) as (bs & E & G & _). eauto.
Qed.
Print Assumptions C11_run1_batches.

(** A negative count is refused before anything is simulated; a zero buffer size too. *)
Theorem C11_run1_errors :
  forall ncount buffer_size,
  (ncount < 0 -> 1 <= buffer_size -> run1 ncount buffer_size = ([], Err AssertionError)) /\
  (buffer_size = 0 -> run1 ncount buffer_size = ([], Err ZeroDivisionError)).
Proof.
  intros ncount cap. split; [intros; apply run1_negative; assumption|]. intros ->. reflexivity.
Qed.
Print Assumptions C11_run1_errors.

(** The batches of several ranks (or of one process, mpiSize = 0), executed in any order, write their sample counts into pairwise
    different directories: afterwards each directory holds the count of its batch, and the counts add up to what was simulated. *)
Theorem C11_samples_recorded :
  forall mpiSize cap (runs : list (list (Z * Z))) (totals : list Z) d l,
  (mpiSize <> 0 \/ List.length runs = 1%nat) ->
  Forall2 (fun bs t => good_batches cap t bs) runs totals ->
  Permutation l (List.concat (map (fun rb => rank_records mpiSize (Z.of_nat (fst rb)) (snd rb))
                                  (combine (seq 0 (List.length runs)) runs))) ->
  NoDup (map fst l) /\
  (forall dir n, In (dir, n) l -> record_all d l dir = Some n) /\
  zsum (map snd l) = zsum totals.
Proof.
  intros m cap runs totals d l Hm F P.
  assert (F1 : Forall (fun bs => exists t, good_batches cap t bs) runs).
  { clear -F. induction F; constructor; eauto. }
  assert (ND : NoDup (map fst l)).
  { eapply Permutation_NoDup; [apply Permutation_map; symmetry; exact P|].
    destruct (Z.eq_dec m 0) as [Hm0|Hm0]; [|apply ranks_nodup with cap; assumption].
    destruct Hm as [Hm|Hm]; [contradiction|].
    destruct runs as [|bs [|? ?]]; try discriminate. inversion F1 as [|? ? [t G] _]; subst.
    cbn [List.length seq combine map fst snd List.concat]. rewrite app_nil_r. eapply rank_records_nodup; [lia|exact G]. }
  split; [assumption|]. split; [intros; apply record_all_in; assumption|].
  rewrite (zsum_perm _ _ (Permutation_map snd P)). clear -F.
  generalize 0%nat. induction F as [|bs t runs totals G F IH]; intro k; [reflexivity|].
  cbn [List.length seq combine map fst snd List.concat]. rewrite map_app, zsum_app, IH, rank_records_total.
  destruct G as (_ & _ & _ & T). rewrite T. reflexivity.
Qed.
Print Assumptions C11_samples_recorded.

Example C11_example :
  run1 25 10 = ([(0, 10); (1, 10); (2, 5)], Ok tt) /\ run1 20 10 = ([(0, 10); (1, 10)], Ok tt) /\
  run1 0 10 = ([], Ok tt) /\
  map fst (rank_records 2 1 [(0, 10); (1, 10)]) = ["rank1-step0"; "rank1-step1"]%string /\
  good_batches 10 25 [(0, 10); (1, 10); (2, 5)].
Proof.
  split; [reflexivity|]. split; [reflexivity|]. split; [reflexivity|]. split; [reflexivity|].
  destruct (C11_run1_batches 25 10) as (bs & E & G); [lia|lia|]. vm_compute in E. injection E as <-. exact G.
Qed.

(** ** C12 *)
Theorem C12_pyre_main_batches :
  forall ncount buffer_size, 1 <= ncount -> 1 <= buffer_size ->
  exists bs, pyre_main ncount buffer_size = (bs, Ok tt) /\ good_batches (Z.min ncount buffer_size) ncount bs.
Proof. exact pyre_main_ok. Qed.
Print Assumptions C12_pyre_main_batches.

(** The whole rank: the buffer size chosen from the user's request (0: automatic), the number of ranks and the memory limit is
    usable, and the rank simulates exactly its share; if there is no share for it, it fails with IndexError. *)
Theorem C12_pyre_rank :
  forall usersize ncount mpisize rank mem envmax maxsize,
  0 <= usersize -> 1 <= ncount -> 1 <= mpisize -> 0 <= rank < mpisize -> 1 <= envmax ->
  maximumBufferSize mem mpisize envmax = Ok maxsize ->
  (rank < Z.min ncount mpisize ->
   exists share bs, rank_share ncount mpisize rank = Ok share /\
     pyre_rank usersize ncount mpisize rank maxsize = (bs, Ok tt) /\
     good_batches (Z.min share (getBufferSize usersize ncount mpisize maxsize)) share bs /\
     getBufferSize usersize ncount mpisize maxsize <= envmax) /\
  (Z.min ncount mpisize <= rank -> pyre_rank usersize ncount mpisize rank maxsize = ([], Err IndexError)).
Proof.
  intros usersize ncount m rank mem envmax maxsize Hu Hn Hm Hr He EM.
  apply maximumBufferSize_pos in EM; [|assumption].
  assert (HB := getBufferSize_pos usersize ncount m maxsize Hu Hn ltac:(lia) Hm).
  destruct (rank_share_ok ncount m rank ltac:(lia) Hm ltac:(lia)) as [RS1 RS2].
  split; intro H.
  - destruct (RS1 H) as (s & E & Hs).
    destruct (pyre_main_ok s (getBufferSize usersize ncount m maxsize) Hs ltac:(lia)) as (bs & Eb & G).
    exists s, bs. split; [assumption|]. split; [|split; [assumption|lia]].
    unfold pyre_rank. destruct (Z.ltb_spec 1 m) as [H1|H1]; cbn [negb].
    + rewrite E. exact Eb.
    + assert (m = 1 /\ rank = 0) as [-> ->] by lia.
      assert (Es : s = ncount).
      { destruct (partitions_ok ncount 1 ltac:(lia) ltac:(lia)) as (l & El & (S & _) & L).
        unfold rank_share in E. rewrite El in E. cbn [bind] in E.
        destruct l as [|x [|y l]]; cbn [List.length] in L; try lia. cbn in E, S. injection E as <-. lia. }
      subst s. exact Eb.
  - specialize (RS2 H). unfold pyre_rank. destruct (Z.ltb_spec 1 m) as [H1|H1]; cbn [negb].
    + rewrite RS2. reflexivity.
    + lia.
Qed.
Print Assumptions C12_pyre_rank.

(** Degenerate requests: ncount 0 fails; a negative buffer size simulates nothing at all, silently when it divides ncount. *)
Theorem C12_degenerate :
  (forall buf, 1 <= buf -> pyre_main 0 buf = ([], Err ZeroDivisionError)) /\
  (forall ncount buf, 1 <= ncount -> buf < 0 ->
   pyre_main ncount buf = ([], if ncount mod buf =? 0 then Ok tt else Err ValueError)).
Proof.
  split; [|exact pyre_negative]. intros buf H. unfold pyre_main. replace (0 <? buf) with true by lia. reflexivity.
Qed.
Print Assumptions C12_degenerate.

Theorem C12_simulates_ncount_refuted :
  exists usersize ncount, 1 <= ncount /\
  forall maxsize, 1 <= maxsize -> pyre_rank usersize ncount 1 0 maxsize = ([], Ok tt).
Proof.
  exists (-5), 100. split; [lia|]. intros maxsize H. unfold pyre_rank, getBufferSize. cbn [Z.eqb Z.ltb Z.compare negb Pos.compare Pos.compare_cont].
  replace (maxsize <? -5) with false by lia. rewrite pyre_negative by lia. reflexivity.
Qed.
Print Assumptions C12_simulates_ncount_refuted.

Example C12_example :
  pyre_rank 0 23 2 0 1000 = ([(0, 2); (1, 2); (2, 2); (3, 2); (4, 2); (5, 2)], Ok tt) /\
  pyre_rank 0 23 2 1 1000 = ([(0, 2); (1, 2); (2, 2); (3, 2); (4, 2); (5, 1)], Ok tt) /\
  pyre_rank 5 2 4 3 1000 = ([], Err IndexError) /\
  maximumBufferSize 10000000 2 1000 = Ok 1000.
Proof. repeat split. Qed.

(** ** C13 *)
Theorem C13_plan_usable :
  forall ncount nodes buffer_size, 1 <= ncount -> 1 <= nodes -> 1 <= buffer_size ->
  exists nodes' buf, run_mpi_plan ncount nodes buffer_size = Ok (nodes', buf) /\
    1 <= nodes' <= nodes /\ 1 <= buf /\
    (ncount < 100 -> nodes' = 1 /\ buf = ncount) /\
    (100 <= ncount -> nodes' = nodes /\ 20 <= buf <= Z.max 20 buffer_size /\
                      (20 < buf -> 5 * buf * nodes <= ncount)).
Proof. exact plan_ok. Qed.
Print Assumptions C13_plan_usable.

(** Every worker started by run_mpi simulates its share in good batches and the shares add up to ncount, provided there are not more
    nodes than neutrons. *)
Theorem C13_workers_cover_ncount :
  forall ncount nodes buffer_size nodes' buf, 1 <= ncount -> 1 <= nodes -> 1 <= buffer_size ->
  run_mpi_plan ncount nodes buffer_size = Ok (nodes', buf) -> nodes' <= ncount ->
  exists runs totals,
    map (fun r => run1_mpi ncount nodes' (Z.of_nat r) buf) (seq 0 (Z.to_nat nodes')) = map (fun bs => (bs, Ok tt)) runs /\
    Forall2 (fun bs t => good_batches buf t bs) runs totals /\
    zsum totals = ncount.
Proof.
  intros ncount nodes bs nodes' buf H1 H2 H3 E Hle.
  destruct (plan_ok ncount nodes bs H1 H2 H3) as (n' & b' & E' & Hn' & Hb & _). rewrite E in E'. injection E' as <- <-.
  destruct (partitions_ok ncount nodes' ltac:(lia) ltac:(lia)) as (l & El & (S & Fp & _) & L).
  assert (X : exists runs, map (fun s => run1 s buf) l = map (fun bs => (bs, Ok tt)) runs /\
              Forall2 (fun bs t => good_batches buf t bs) runs l).
  { clear -Fp Hb. induction Fp as [|s l Hs _ (runs & E & F)]; [exists []; split; [reflexivity|constructor]|].
    destruct (run1_ok s buf ltac:(lia) Hb) as (b0 & E0 & G & _).
    exists (b0 :: runs). cbn [map]. rewrite E0, E. split; [reflexivity|constructor; assumption]. }
  destruct X as (runs & Er & F). exists runs, l. split; [|auto].
  rewrite <- Er. replace (Z.to_nat nodes') with (List.length l) by lia.
  pose proof (shares_total _ _ _ El) as ST.
  transitivity (map (fun x => match x with Ok s => run1 s buf | Err e => ([], Err e) end)
                 (map (fun r => rank_share ncount nodes' (Z.of_nat r)) (seq 0 (List.length l)))).
  - rewrite map_map. apply map_ext. intro r. reflexivity.
  - rewrite ST, map_map. reflexivity.
Qed.
Print Assumptions C13_workers_cover_ncount.

(** Finding: with more nodes than neutrons (and at least 100 neutrons) the surplus workers crash. *)
Theorem C13_more_nodes_than_neutrons :
  forall ncount nodes buffer_size rank, 100 <= ncount < nodes -> 1 <= buffer_size -> ncount <= rank < nodes ->
  exists buf, run_mpi_plan ncount nodes buffer_size = Ok (nodes, buf) /\
    run1_mpi ncount nodes rank buf = ([], Err IndexError).
Proof.
  intros ncount nodes bs rank H1 H2 H3.
  destruct (plan_ok ncount nodes bs ltac:(lia) ltac:(lia) H2) as (n' & buf & E & _ & _ & _ & H).
  destruct (H ltac:(lia)) as [-> _]. exists buf. split; [assumption|].
  unfold run1_mpi. destruct (rank_share_ok ncount nodes rank ltac:(lia) ltac:(lia) ltac:(lia)) as [_ R].
  rewrite R by lia. reflexivity.
Qed.
Print Assumptions C13_more_nodes_than_neutrons.

Example C13_example :
  run_mpi_plan 1000 3 1000000 = Ok (3, 66) /\ run_mpi_plan 99 7 50 = Ok (1, 99) /\ run_mpi_plan 100 200 50 = Ok (200, 20) /\
  run1_mpi 100 3 2 20 = ([(0, 20); (1, 13)], Ok tt) /\ run1_mpi 100 200 150 20 = ([], Err IndexError).
Proof. repeat split. Qed.
