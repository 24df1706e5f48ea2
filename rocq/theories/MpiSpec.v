(** Specification vocabulary for the MPI properties C14-C16. *)
From Verif Require Import Base StorageModel StorageSpec MpiModel.
Open Scope Z_scope.

(** The arrays that a rank's successful reads returned. *)
Definition rank_reads (log : list (result (option (list (list Z))))) : list (list (list Z)) :=
  map (fun o => match o with Ok (Some x) => x | _ => [] end) log.

(** What all ranks read, ordered by round and, within a round, by rank. *)
Definition round_robin {A} (size rounds : nat) (reads : nat -> list (list A)) : list A :=
  flat_map (fun k => flat_map (fun r => nth k (reads r) []) (seq 0 size)) (seq 0 rounds).

(** Every rank has executed its whole program. *)
Definition all_done {St V} (c : config St V) : Prop := forall r, c_prog c r = [].
(** Some rank can make a step. *)
Definition can_move {St V} (c : config St V) : Prop := exists r c', exec r c = Some c'.
