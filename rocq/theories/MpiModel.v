(** Message passing between the ranks of a parallel run.

    The ranks run Python programs that communicate with mpi4py's point-to-point calls
    (packages/mcni/python/mcni/utils/mpi/use_mpi4py.py:39-48: world.send / world.recv with explicit peer and tag).
    A program is a list of atomic steps on a local state.  Messages between a pair of ranks with the same tag are
    delivered in the order sent (MPI's non-overtaking rule); apart from that delivery and scheduling are arbitrary.  MPI's standard-mode
    send may return at once (buffered) or wait for the receiver (rendezvous): a rendezvous send is [ISend] followed by
    [IWait]. *)
From Verif Require Import Base StorageModel.
Open Scope Z_scope.

Section Language.
Variables (St V : Type).   (* local states, message values *)

(* the calls of use_mpi4py.py:39-48 and local computation *)
Inductive instr :=
| ISend (dst : nat) (tag : St -> Z) (val : St -> V)
| IWait (dst : nat) (tag : St -> Z)
| IRecv (src : nat) (tag : St -> Z) (k : St -> V -> St)
| ILocal (f : St -> St)
| IBranch (f : St -> list instr).   (* an if statement or a return: what to do next depends on the local state *)

(* remaining program and local state of every rank; messages in flight from src to dst with a tag.
   (Semantics of MPI, not code of /repo; see the header.) *)
Record config := mkConfig {
  c_prog : nat -> list instr;
  c_st : nat -> St;
  c_net : nat -> nat -> Z -> list V }.

(* functional update: part of the semantics, no counterpart in /repo *)
Definition upd {A} (f : nat -> A) (r : nat) (a : A) : nat -> A :=
  fun q => if Nat.eqb r q then a else f q.
(* functional update: part of the semantics, no counterpart in /repo *)
Definition upd_net (f : nat -> nat -> Z -> list V) (s d : nat) (t : Z) (q : list V) : nat -> nat -> Z -> list V :=
  fun s' d' t' => if Nat.eqb s s' && Nat.eqb d d' && (t =? t') then q else f s' d' t'.

(* one step of rank r, if it is not blocked: world.send/world.recv of use_mpi4py.py:39-44 *)
Definition exec (r : nat) (c : config) : option config :=
  match c_prog c r with
  | [] => None
  | ISend dst tag val :: p =>
      let s := c_st c r in
      Some (mkConfig (upd (c_prog c) r p) (c_st c)
                     (upd_net (c_net c) r dst (tag s) (c_net c r dst (tag s) ++ [val s])))
  | IWait dst tag :: p =>
      match c_net c r dst (tag (c_st c r)) with
      | [] => Some (mkConfig (upd (c_prog c) r p) (c_st c) (c_net c))
      | _ => None
      end
  | IRecv src tag k :: p =>
      let s := c_st c r in
      match c_net c src r (tag s) with
      | [] => None
      | v :: q => Some (mkConfig (upd (c_prog c) r p) (upd (c_st c) r (k s v))
                                 (upd_net (c_net c) src r (tag s) q))
      end
  | ILocal f :: p => Some (mkConfig (upd (c_prog c) r p) (upd (c_st c) r (f (c_st c r))) (c_net c))
  | IBranch f :: p => Some (mkConfig (upd (c_prog c) r (f (c_st c r) ++ p)) (c_st c) (c_net c))
  end.

(* a schedule is a list of ranks; a blocked rank cannot be scheduled *)
Fixpoint run (sched : list nat) (c : config) : option config :=
  match sched with
  | [] => Some c
  | r :: sched' => match exec r c with Some c' => run sched' c' | None => None end
  end.
End Language.
Arguments ISend {St V}. Arguments IWait {St V}. Arguments IRecv {St V}. Arguments ILocal {St V}. Arguments IBranch {St V}.
Arguments mkConfig {St V}. Arguments c_prog {St V}. Arguments c_st {St V}. Arguments c_net {St V}.
Arguments exec {St V}. Arguments run {St V}. Arguments upd {A}. Arguments upd_net {V}.

(** ** Programs of NeutronFromStorage and of MPI.barrier *)

(* what one rank keeps: UniqueChannelGenerator.number (components/ParallelComponent.py:38-48), the channel in use,
   NeutronFromStorage._cursor and the local variable cursor (components/NeutronFromStorage.py:61-82), its storage, the
   results of its reads, and two ghost flags for the barrier *)
Record lstate := mkL {
  l_number : Z; l_channel : Z; l_cursor : Z; l_seekto : Z;
  l_storage : storage; l_log : list (result (option (list (list Z))));
  l_entered : bool; l_left : bool }.

(* getUniqueChannel: ParallelComponent.py:45-48, 80-82 *)
Definition do_channel (s : lstate) : lstate :=
  mkL (l_number s + 1) (l_number s) (l_cursor s) (l_seekto s) (l_storage s) (l_log s) (l_entered s) (l_left s).
(* cursor = self._cursor on rank 0 (NeutronFromStorage.py:67), seek (75) and the increment of the cursor (79-80) *)
Definition do_seek0 (size : nat) (n : Z) (s : lstate) : lstate :=
  mkL (l_number s) (l_channel s) (l_cursor s + Z.of_nat size * n) (l_cursor s)
      (fst (st_seek (l_storage s) (l_cursor s) WStart true)) (l_log s) (l_entered s) (l_left s).
(* cursor = self.mpi.receive(0, channel): NeutronFromStorage.py:72 *)
Definition do_receive (s : lstate) (v : Z) : lstate :=
  mkL (l_number s) (l_channel s) (l_cursor s) v (l_storage s) (l_log s) (l_entered s) (l_left s).
(* seek on the other ranks: NeutronFromStorage.py:75 *)
Definition do_seek (s : lstate) : lstate :=
  mkL (l_number s) (l_channel s) (l_cursor s) (l_seekto s)
      (fst (st_seek (l_storage s) (l_seekto s) WStart true)) (l_log s) (l_entered s) (l_left s).
(* self._storage.read(n, asnpyarr=True): NeutronFromStorage.py:45 *)
Definition do_read (d : fs) (n : Z) (s : lstate) : lstate :=
  let '(st', r) := st_read (l_storage s) d (Some n) true true in
  mkL (l_number s) (l_channel s) (l_cursor s) (l_seekto s) st' (l_log s ++ [r]) (l_entered s) (l_left s).
Definition do_enter (s : lstate) : lstate :=   (* ghost: ParallelComponent.py:101 *)
  mkL (l_number s) (l_channel s) (l_cursor s) (l_seekto s) (l_storage s) (l_log s) true (l_left s).
Definition do_leave (s : lstate) : lstate :=   (* ghost: ParallelComponent.py:111 *)
  mkL (l_number s) (l_channel s) (l_cursor s) (l_seekto s) (l_storage s) (l_log s) (l_entered s) true.

Notation minstr := (instr lstate Z).

(* a send to dst; [sync dst] tells whether MPI makes this one wait for the receiver *)
Definition send_instr (sync : nat -> bool) (dst : nat) (val : lstate -> Z) : list minstr :=
  ISend dst l_channel val :: (if sync dst then [IWait dst l_channel] else []).

(* one call of NeutronFromStorage.process(neutrons) with len(neutrons) = n, parallel: NeutronFromStorage.py:36-45, 61-82.
   The conversion to a neutron buffer (51-53) is not modelled. *)
Definition process_prog (sync : nat -> bool) (size : nat) (d : fs) (rank : nat) (n : Z) : list minstr :=
  if Nat.eqb rank 0 then
    ILocal do_channel ::
    flat_map (fun i => send_instr sync i (fun s => l_cursor s + Z.of_nat i * n)) (seq 1 (size - 1)) ++
    [ILocal (do_seek0 size n); ILocal (do_read d n)]
  else [ILocal do_channel; IRecv 0 l_channel do_receive; ILocal do_seek; ILocal (do_read d n)].

(* MPI.barrier: ParallelComponent.py:101-111 (with the ghost flags); size >= 2, for a smaller size nothing is done (103-104);
   the empty string is sent as 0 *)
Definition barrier_prog (sync : nat -> bool) (size rank : nat) : list minstr :=
  ILocal do_enter ::
  (if Nat.ltb size 2 then []
   else ILocal do_channel ::
        (if Nat.eqb rank 0 then flat_map (fun i => send_instr sync i (fun _ => 0)) (seq 1 (size - 1))
         else [IRecv 0 l_channel (fun s _ => s)])) ++
  [ILocal do_leave].

(* a run in which rank r calls process with the sizes [ns r]; ranks 0..size-1 *)
Definition source_run (sync : nat -> bool) (size : nat) (d : fs) (ns : nat -> list Z) : nat -> list minstr :=
  fun r => if Nat.ltb r size then flat_map (process_prog sync size d r) (ns r) else [].

(* the component has just been constructed on every rank (NeutronFromStorage.py:96-101), all with the same number of
   channels used so far, nothing in flight *)
Definition initial (number : Z) (st : storage) (prog : nat -> list minstr) : config lstate Z :=
  mkConfig prog (fun _ => mkL number 0 0 0 st [] false false) (fun _ _ _ => []).
