(** Vocabulary for C65: roots and changes of sign. *)
From Coq Require Import Reals.
From Verif Require Import Base.
Open Scope R_scope.

(** x is between a and b, whichever is larger. *)
Definition within (a b x : R) : Prop := Rmin a b <= x <= Rmax a b.
(** f is continuous between a and b. *)
Definition continuous_between (f : R -> R) (a b : R) : Prop := forall x, within a b x -> continuity_pt f x.
(** f has opposite signs at a and b, or vanishes at one of them. *)
Definition changes_sign (f : R -> R) (a b : R) : Prop := (f a <= 0 <= f b) \/ (f b <= 0 <= f a).
(** The i-th point of n equal steps from a to b. *)
Definition grid (a b : R) (n i : nat) : R := a + (b - a) * INR i / INR n.
(** Between a and b the slopes of f are between m and M. *)
Definition slopes_within (f : R -> R) (a b m M : R) : Prop := forall x y, within a b x -> within a b y -> x <= y -> m * (y - x) <= f y - f x <= M * (y - x).
