(** Divergence of a neutron and windows of a histogram, independent of the model's functions. *)
From Coq Require Import Reals List.
From Verif Require Import Base RotModel OptModel OptSpec BmonSpec.
Open Scope R_scope.

(** d is the angle in degrees between the direction (v, w) and the axis of w, in (-180, 180] *)
Definition divergence (v w d : R) : Prop := exists phi, azimuth v w phi /\ phi = d * (PI / 180).
(** a is in the k-th of n intervals of equal length from lo to hi, where lo itself is left out *)
Definition in_cell (lo hi : R) (n : Z) (k : nat) (a : R) : Prop := in_bin lo hi n k a /\ lo < a.
