(** Specification vocabulary for C16 and C17. *)
From Verif Require Import Base.
From Coq Require Import QArith.Qcanon.

(** An event falls in a bin with a weight. *)
Definition event : Type := nat * Qc.
Definition qsum (l : list Qc) : Qc := fold_right Qcplus 0%Qc l.
(** Weights of the events in bin j. *)
Definition in_bin (j : nat) (evs : list event) : list Qc := map snd (filter (fun e => Nat.eqb (fst e) j) evs).
(** Histogram of events with nb bins: sums of weights and of squared weights. *)
Definition hist (nb : nat) (evs : list event) : list Qc * list Qc :=
  (map (fun j => qsum (in_bin j evs)) (seq 0 nb), map (fun j => qsum (map (fun p => p * p)%Qc (in_bin j evs))) (seq 0 nb)).
