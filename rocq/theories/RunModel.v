(** Model of the code that decides how many neutrons are simulated, in which batches, on which rank:
    packages/mcni/python/mcni/pyre_support/Instrument.py, packages/mcvine/python/mcvine/run_script.py,
    packages/mcni/python/mcni/SimulationContext.py, packages/mcni/python/mcni/instrument_simulator/AbstractInstrumentSimulator.py.

    Counts are mathematical integers.  The float operations of the code (residual*1./nbins, ncount/buffer_size) are
    taken exactly; C10_float_ceil_exact (FloatProps.v) shows that this loses nothing below 2^53. *)
From Verif Require Import Base PyStr.
Open Scope Z_scope.

(** ** getPartitions *)
(* int(ceil(residual*1./nbins)): Instrument.py:546 *)
Definition ceil_div (a b : Z) : Z := - ((- a) / b).

(* getPartitionIterator: Instrument.py:537-552.  The fuel bounds the number of iterations of the while loop. *)
Fixpoint partition_loop (fuel : nat) (residual nbins : Z) : result (list Z) :=
  if residual =? 0 then Ok []                                            (* while residual: 544 *)
  else match fuel with
       | O => Err OutOfFuel
       | S fuel' =>
           let size := if 1 <? nbins then ceil_div residual nbins else residual in   (* 545-548 *)
           let! rest := partition_loop fuel' (residual - size) (nbins - 1) in        (* 550-551 *)
           Ok (size :: rest)                                                         (* yield: 549 *)
       end.

(* getPartitions: Instrument.py:534-535 *)
Definition getPartitions (N n : Z) : result (list Z) := partition_loop (Z.to_nat (Z.max n 1)) N n.

(* partitions[rank]: Instrument.py:267-268, run_script.py:103-104; rank >= 0 *)
Definition rank_share (N n rank : Z) : result Z :=
  let! ps := getPartitions N n in
  match nth_error ps (Z.to_nat rank) with
  | Some x => Ok x
  | None => Err IndexError
  end.

(** ** run1: run_script.py:110-168 *)
(* the loop 152-157: the batches handed to instrument.simulate as (iteration_no, n), and the final value of remained *)
Fixpoint run1_loop (k : nat) (i remained buffer_size : Z) : list (Z * Z) * Z :=
  match k with
  | O => ([], remained)
  | S k' =>
      let n := Z.min remained buffer_size in                                     (* 154 *)
      let '(bs, r) := run1_loop k' (i + 1) (remained - n) buffer_size in         (* 156 *)
      ((i, n) :: bs, r)                                                          (* 155 *)
  end.

(* batches simulated and outcome; loading the script and post-processing are not modelled *)
Definition run1 (ncount buffer_size : Z) : list (Z * Z) * result unit :=
  match py_div (ncount - 1) buffer_size with                                     (* 151 *)
  | Err e => ([], Err e)
  | Ok q =>
      let '(bs, remained) := run1_loop (Z.to_nat (q + 1)) 0 ncount buffer_size in
      (bs, if remained =? 0 then Ok tt else Err AssertionError)                  (* 158 *)
  end.

(* run1_mpi: run_script.py:97-107: the rank simulates its share *)
Definition run1_mpi (ncount mpisize rank buffer_size : Z) : list (Z * Z) * result unit :=
  match rank_share ncount mpisize rank with
  | Err e => ([], Err e)
  | Ok ncount1 => run1 ncount1 buffer_size
  end.

(** ** run_mpi: run_script.py:35-44: the number of nodes and the buffer size handed to the workers *)
Definition run_mpi_plan (ncount nodes buffer_size : Z) : result (Z * Z) :=
  if negb (0 <? buffer_size) then Err AssertionError                             (* 37 *)
  else if ncount <? 100 then Ok (1, ncount)                                      (* 38-39 *)
  else
    let! per := py_div ncount nodes in                                           (* 41 *)
    let! max_buffer_size := py_div per 5 in
    Ok (nodes, Z.max 20 (Z.min max_buffer_size buffer_size)).                    (* 42-44 *)

(** ** Output directories: SimulationContext.getOutputDirInProgress, SimulationContext.py:36-57.
    [mpiSize] 0 or None: no rank in the name. *)
Definition step_dir (mpiSize rank iteration : Z) : string :=
  if mpiSize =? 0 then ("step" ++ str_of_Z iteration)%string
  else ("rank" ++ str_of_Z rank ++ "-step" ++ str_of_Z iteration)%string.

(* recordNumberOfMCSamples: AbstractInstrumentSimulator.py:51-61 writes the number of neutrons of the batch into
   number_of_mc_samples of that directory; the disk maps a directory name to the number recorded there. *)
Definition disk := string -> option Z.
(* in the group above: AbstractInstrumentSimulator.py:51-61 *)
Definition record_samples (d : disk) (dir : string) (n : Z) : disk :=
  fun q => if String.eqb dir q then Some n else d q.
(* the batches of one rank as (directory, n) *)
Definition rank_records (mpiSize rank : Z) (bs : list (Z * Z)) : list (string * Z) :=
  map (fun b => (step_dir mpiSize rank (fst b), snd b)) bs.
(* executing a sequence of batches, whatever rank each comes from *)
Definition record_all (d : disk) (l : list (string * Z)) : disk :=
  fold_left (fun d x => record_samples d (fst x) (snd x)) l d.

(** ** The pyre instrument application *)
(* _computeBufferSize: Instrument.py:354-364; [maxsize] is the value of _maximumBufferSize() *)
Definition computeBufferSize (ncount mpisize maxsize : Z) : Z :=
  let mpisize := if mpisize =? 0 then 1 else mpisize in                           (* 356 *)
  let candidate := Z.quot (Z.quot ncount 5) mpisize in                            (* 357-358 *)
  let candidate :=
    if candidate <? 1 then
      let c := Z.quot ncount mpisize in                                          (* 361 *)
      if c <? 1 then ncount else c                                               (* 362-363 *)
    else candidate in
  Z.min maxsize candidate.                                                       (* 364 *)

(* _getBufferSize: Instrument.py:331-347; the warning of 342-345 is not modelled *)
Definition getBufferSize (usersize ncount mpisize maxsize : Z) : Z :=
  if usersize =? 0 then computeBufferSize ncount mpisize maxsize
  else if maxsize <? usersize then maxsize else usersize.

(* _maximumBufferSize and _computeMaximumBufferSize: Instrument.py:367-374, 487-513; [mem] is the
   memory available in bytes, [envmax] MAXIMUM_BUFFER_SIZE (25-30) *)
Definition maximumBufferSize (mem nodes envmax : Z) : result Z :=
  let nodes := if nodes =? 0 then 1 else nodes in
  let n := mem / nodes / 10 / 8 / 100 * 100 in
  if n <? 100 then Err RuntimeError else Ok (Z.min n envmax).

(* main: Instrument.py:119-150.  Batches as (iteration_no, n).  A negative buffer makes range(n) empty (137) and a
   non-zero remainder negative: the allocation of the neutron buffer fails. *)
Definition pyre_main (ncount buffer_size : Z) : list (Z * Z) * result unit :=
  let buffer_size := if ncount <? buffer_size then ncount else buffer_size in     (* 131-132 *)
  if buffer_size =? 0 then ([], Err ZeroDivisionError)                            (* 133 *)
  else
    let n := Z.quot ncount buffer_size in                                         (* 133: int() truncates *)
    let full := map (fun i => (Z.of_nat i, buffer_size)) (seq 0 (Z.to_nat n)) in   (* 137-142 *)
    let remain := ncount mod buffer_size in                                       (* 144 *)
    if remain =? 0 then (full, Ok tt)
    else if remain <? 0 then (full, Err ValueError)
    else (full ++ [(n, remain)], Ok tt).                                          (* 145-149 *)

(* _configure: Instrument.py:262-268, then main; parallel is mpi.size > 1 (components/ParallelComponent.py:60-64) *)
Definition pyre_rank (usersize ncount mpisize rank maxsize : Z) : list (Z * Z) * result unit :=
  let buffer_size := getBufferSize usersize ncount mpisize maxsize in
  if negb (1 <? mpisize) then pyre_main ncount buffer_size
  else match rank_share ncount mpisize rank with
       | Err e => ([], Err e)
       | Ok share => pyre_main share buffer_size
       end.
