(** Specification vocabulary for C10-C13. *)
From Verif Require Import Base.
Open Scope Z_scope.

Definition zsum (l : list Z) : Z := fold_right Z.add 0 l.
Definition batch_total (bs : list (Z * Z)) : Z := zsum (map snd bs).

(** A fair division of N: positive shares that differ by at most one and add up to N. *)
Definition fair (N : Z) (l : list Z) : Prop :=
  zsum l = N /\ Forall (fun x => 1 <= x) l /\ (forall x y, In x l -> In y l -> x - y <= 1).

(** Batches number 0,1,2,... in order, each of at least one and at most [cap] neutrons, all but the last of exactly [cap],
    adding up to [total]. *)
Definition good_batches (cap total : Z) (bs : list (Z * Z)) : Prop :=
  map fst bs = map Z.of_nat (seq 0 (List.length bs)) /\
  Forall (fun b => 1 <= snd b <= cap) bs /\
  (forall pre b post, bs = pre ++ b :: post -> post <> [] -> snd b = cap) /\
  batch_total bs = total.
