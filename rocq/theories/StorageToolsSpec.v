(** Specification vocabulary for C07-C09. *)
From Verif Require Import Base StorageModel StorageSpec StorageToolsModel.
From Coq Require Import QArith.
Open Scope Z_scope.

(** File system states that a crash can leave behind, given the crash windows of an execution and its final state. *)
Definition crash_state (ws : list window) (dfinal d : fs) : Prop :=
  (forall q, d q = dfinal q) \/
  exists d0 p, In (d0, p) ws /\ forall q, q <> p -> d q = d0 q.

(** [m] is [n] with its tenth number (the weight) replaced by [scale] of it. *)
Definition reweighted (scale : Z -> Z) (n m : list Z) : Prop :=
  exists a w, List.length a = 9%nat /\ n = a ++ [w] /\ m = a ++ [scale w].

(** The weight of a neutron as a number, given a reading [val] of 64-bit doubles. *)
Definition weight_of (val : Z -> Q) (n : list Z) : Q :=
  match skipn 9 n with w :: _ => val w | [] => 0%Q end.
Definition total_weight (val : Z -> Q) (ns : list (list Z)) : Q :=
  fold_right Qplus 0%Q (map (weight_of val) ns).
Definition total_samples (mcs : list Q) : Q := fold_right Qplus 0%Q mcs.

(** Every path of [paths] is a file, different from [out], holding the corresponding neutron list. *)
Definition files_hold (d : fs) (out : string) (paths : list string) (nss : list (list (list Z))) : Prop :=
  Forall2 (fun p ns => p <> out /\ wf_neutrons ns /\ exists b, d p = Some (File b) /\ file_holds b ns) paths nss.

(** The situation in which merge_and_normalize is called: at least one neutron file, one sample-count file per neutron
    file, a fresh temporary name, and an output path that is free (or a file, with overwriting allowed). *)
Definition merge_inputs (d : fs) (paths : list string) (nss : list (list (list Z))) (mcs : list Q) (tmp out : string)
  (overwrite : bool) : Prop :=
  paths <> [] /\ List.length paths = List.length mcs /\ files_hold d out paths nss /\
  d tmp = None /\ tmp <> out /\
  (if overwrite then forall e, d out = Some e -> e <> Dir else d out = None).

(** Monte Carlo samples per recorded neutron. *)
Definition nfactor (mcs : list Q) (nss : list (list (list Z))) : Q :=
  (total_samples mcs / inject_Z (Z.of_nat (List.length (List.concat nss))))%Q.
