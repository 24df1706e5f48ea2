(** Merging of the per-step histograms of monitors: mcni/components/HistogramBasedMonitorMixin.py.

    A histogram is its pair of arrays (I, E2); arrays are elements of a type [A] with an addition (h1.I += h.I); numbers of Monte Carlo
    samples are elements of a type [M] with 0 and addition.  The axes are not modelled.  Files are given by name, with functions
    that load them.  Floating point rounding is not modelled: the theorems ask for associative additions. *)
From Verif Require Import Base MpiModel.
Open Scope Z_scope.

Section Hist.
Variables (A M : Type) (addA : A -> A -> A) (M0 : M) (addM : M -> M -> M).
Variables (loadh : string -> A * A) (loadm : string -> M).

(* h1.I += h.I; h1.E2 += h.E2: HistogramBasedMonitorMixin.py:82-85, 131-134 *)
Definition addH (h h' : A * A) : A * A := (addA (fst h) (fst h'), addA (snd h) (snd h')).

(* what the functions return: a summed histogram with a number of samples; (None, None); None (ranks other than 0); AssertionError *)
Inductive ret := RSum (h : A * A) (n : M) | RNoneNone | RNone | RAssert.

(* first file loaded, the others added: HistogramBasedMonitorMixin.py:73, 87; 127-135.  None for no file (140-143). *)
Definition sum_files (fs : list string) : option (A * A) :=
  match fs with [] => None | f :: fs' => Some (fold_left (fun h f => addH h (loadh f)) fs' (loadh f)) end.
(* sum(map(_loadmcs, files)): HistogramBasedMonitorMixin.py:88-89, 92-95, 137-138 *)
Definition sum_mcs (fs : list string) : M := fold_left addM (map loadm fs) M0.

(* hist_mcs_sum: HistogramBasedMonitorMixin.py:58-89; the two lists are what glob finds *)
Definition hist_mcs_sum (histfiles mcsfiles : list string) : ret :=
  if negb (Nat.eqb (List.length histfiles) (List.length mcsfiles)) then RAssert
  else match sum_files histfiles with None => RNoneNone | Some h => RSum h (sum_mcs mcsfiles) end.

(* messages of hist_mcs_sum_parallel *)
Inductive payload := PFiles (h m : list string) | PBool (b : bool) | PArr (a : A) | PNum (m : M).

(* local variables of hist_mcs_sum_parallel: histfiles, mcsamplesfiles, h1 (same object as h), mcs, hasdata, and what it returned *)
Record hstate := mkH {
  h_files : list string; h_mfiles : list string;
  h_h1 : option (A * A); h_mcs : option M; h_has : bool; h_ret : option ret }.

(* slice(npernode*rank, npernode*(rank+1)) of a list, npernode = (N-1)//size + 1: HistogramBasedMonitorMixin.py:121-124 *)
Definition npernode (size N : nat) : nat := ((N - 1) / size + 1)%nat.
(* the files of one rank: HistogramBasedMonitorMixin.py:121-124 *)
Definition my_slice (size rank N : nat) (l : list string) : list string :=
  firstn (npernode size N) (skipn (npernode size N * rank) l).

(* loading and summing of a rank's files: HistogramBasedMonitorMixin.py:126-143 *)
Definition do_local_sum (size rank : nat) (s : hstate) : hstate :=
  let N := List.length (h_files s) in
  match sum_files (my_slice size rank N (h_files s)) with
  | Some h => mkH (h_files s) (h_mfiles s) (Some h) (Some (sum_mcs (my_slice size rank N (h_mfiles s)))) (h_has s) (h_ret s)
  | None => mkH (h_files s) (h_mfiles s) None (h_mcs s) (h_has s) (h_ret s)
  end.

Definition do_return (x : ret) (s : hstate) : hstate :=   (* HistogramBasedMonitorMixin.py:118, 169-170 *)
  mkH (h_files s) (h_mfiles s) (h_h1 s) (h_mcs s) (h_has s) (Some x).
(* return h1, mcs on rank 0: HistogramBasedMonitorMixin.py:169-170 *)
Definition do_return_sum (s : hstate) : hstate :=
  match h_h1 s, h_mcs s with
  | Some h, Some m => do_return (RSum h m) s
  | _, _ => do_return RNoneNone s
  end.
(* receive functions; a payload of the wrong kind cannot arrive on these tags *)
Definition rcv_files (s : hstate) (v : payload) : hstate :=   (* bcast: HistogramBasedMonitorMixin.py:115 *)
  match v with PFiles h m => mkH h m (h_h1 s) (h_mcs s) (h_has s) (h_ret s) | _ => s end.
Definition rcv_has (s : hstate) (v : payload) : hstate :=     (* HistogramBasedMonitorMixin.py:150 *)
  match v with PBool b => mkH (h_files s) (h_mfiles s) (h_h1 s) (h_mcs s) b (h_ret s) | _ => s end.
Definition rcv_I (s : hstate) (v : payload) : hstate :=       (* HistogramBasedMonitorMixin.py:152-153 *)
  match v, h_h1 s with
  | PArr a, Some (i, e) => mkH (h_files s) (h_mfiles s) (Some (addA i a, e)) (h_mcs s) (h_has s) (h_ret s) | _, _ => s end.
Definition rcv_E2 (s : hstate) (v : payload) : hstate :=      (* HistogramBasedMonitorMixin.py:154-155 *)
  match v, h_h1 s with
  | PArr a, Some (i, e) => mkH (h_files s) (h_mfiles s) (Some (i, addA e a)) (h_mcs s) (h_has s) (h_ret s) | _, _ => s end.
Definition rcv_mcs (s : hstate) (v : payload) : hstate :=     (* HistogramBasedMonitorMixin.py:156 *)
  match v, h_mcs s with
  | PNum m, Some m0 => mkH (h_files s) (h_mfiles s) (h_h1 s) (Some (addM m0 m)) (h_has s) (h_ret s) | _, _ => s end.

Notation hinstr := (instr hstate payload).

(* a send that may wait for its receiver *)
Definition hsend (wait : bool) (dst : nat) (t : Z) (v : hstate -> payload) : list hinstr :=
  ISend dst (fun _ => t) v :: (if wait then [IWait dst (fun _ => t)] else []).
(* a receive (mpiReceive, see MpiModel) *)
Definition hrecv (src : nat) (t : Z) (k : hstate -> payload -> hstate) : hinstr := IRecv src (fun _ => t) k.

(* values sent by a rank that has data: HistogramBasedMonitorMixin.py:163-166 *)
Definition pay_I (s : hstate) : payload := match h_h1 s with Some (i, _) => PArr i | None => PBool false end.
(* the errors that are sent: HistogramBasedMonitorMixin.py:163-166 *)
Definition pay_E2 (s : hstate) : payload := match h_h1 s with Some (_, e) => PArr e | None => PBool false end.
(* the number of samples that is sent: HistogramBasedMonitorMixin.py:163-166 *)
Definition pay_mcs (s : hstate) : payload := match h_mcs s with Some m => PNum m | None => PBool false end.

(* rank 0 in the merge loop, for one other rank: HistogramBasedMonitorMixin.py:149-157 *)
Definition gather_from (r : nat) : list hinstr :=
  [hrecv r 120 rcv_has;
   IBranch (fun s => if h_has s then [hrecv r 121 rcv_I; hrecv r 122 rcv_E2; hrecv r 123 rcv_mcs] else [])].
(* another rank: HistogramBasedMonitorMixin.py:158-166 *)
Definition give (sync : nat -> Z -> bool) (r : nat) (s : hstate) : list hinstr :=
  match h_h1 s with
  | None => hsend (sync r 120) 0 120 (fun _ => PBool false)
  | Some _ => hsend (sync r 120) 0 120 (fun _ => PBool true) ++ hsend (sync r 121) 0 121 pay_I ++
              hsend (sync r 122) 0 122 pay_E2 ++ hsend (sync r 123) 0 123 pay_mcs
  end.

(* hist_mcs_sum_parallel: HistogramBasedMonitorMixin.py:97-170.  The broadcast (115) is a message from rank 0 to each rank with a tag of its
   own.  The collective world.Barrier() before the return (168) is left out: it only restricts executions that run to the end. *)
Definition parallel_prog (sync : nat -> Z -> bool) (size rank : nat) : list hinstr :=
  if Nat.eqb rank 0 then
    [IBranch (fun s =>
       if negb (Nat.eqb (List.length (h_files s)) (List.length (h_mfiles s))) then [ILocal (do_return RAssert)]
       else flat_map (fun i => hsend (sync i (-1)) i (-1) (fun s => PFiles (h_files s) (h_mfiles s))) (seq 1 (size - 1)) ++
            [IBranch (fun s => match h_files s with
                               | [] => [ILocal (do_return RNoneNone)]
                               | _ => ILocal (do_local_sum size 0) :: flat_map gather_from (seq 1 (size - 1)) ++ [ILocal do_return_sum]
                               end)])]
  else
    [hrecv 0 (-1) rcv_files;
     IBranch (fun s => match h_files s with
                       | [] => [ILocal (do_return RNoneNone)]
                       | _ => [ILocal (do_local_sum size rank); IBranch (give sync rank); ILocal (do_return RNone)]
                       end)].

(* all ranks, rank 0 having found the two lists of files with glob (105-111) *)
Definition parallel_start (sync : nat -> Z -> bool) (size : nat) (histfiles mcsfiles : list string) : config hstate payload :=
  mkConfig (fun r => if Nat.ltb r size then parallel_prog sync size r else [])
           (fun r => if Nat.eqb r 0 then mkH histfiles mcsfiles None None false None else mkH [] [] None None false None)
           (fun _ _ _ => []).
End Hist.
Arguments RSum {A M}. Arguments RNoneNone {A M}. Arguments RNone {A M}. Arguments RAssert {A M}.
Arguments mkH {A M}. Arguments h_files {A M}. Arguments h_mfiles {A M}. Arguments h_h1 {A M}. Arguments h_mcs {A M}.
Arguments h_has {A M}. Arguments h_ret {A M}. Arguments sum_files {A}. Arguments sum_mcs {M}. Arguments hist_mcs_sum {A M}.
Arguments parallel_start {A M}. Arguments parallel_prog {A M}. Arguments PFiles {A M}. Arguments PBool {A M}. Arguments PArr {A M}.
Arguments PNum {A M}. Arguments do_local_sum {A M}. Arguments do_return {A M}. Arguments do_return_sum {A M}.

(** ** Normalisation *)
From Coq Require Import QArith.Qcanon.

(* h.I /= n; h.E2 /= n*n on arrays of numbers, rank 0 of merge_and_normalize: HistogramBasedMonitorMixin.py:38-41.  Without any histogram
   h is None and the attribute access fails.  numpy division by zero gives nan or inf, which have no rational value: None here. *)
Definition normalise_arrays (h : list Qc * list Qc) (n : Qc) : option (list Qc * list Qc) :=
  if Qc_eq_dec n 0 then None
  else Some (map (fun x => x / n)%Qc (fst h), map (fun x => x / (n * n))%Qc (snd h)).
(* rank 0 of merge_and_normalize: HistogramBasedMonitorMixin.py:38-41 *)
Definition merge_and_normalize_hist (r : ret (list Qc) Qc) : result (option (list Qc * list Qc)) :=
  match r with
  | RSum h n => Ok (normalise_arrays h n)
  | RNoneNone | RNone => Err AttributeError
  | RAssert => Err AssertionError
  end.

(* elementwise sum of numpy arrays of the same shape: HistogramBasedMonitorMixin.py:84-85 *)
Definition add_arrays (a b : list Qc) : list Qc := map (fun xy => (fst xy + snd xy)%Qc) (combine a b).
