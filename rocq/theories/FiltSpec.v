(** What a filter should do, independent of the model's functions. *)
From Coq Require Import Reals String ZArith.
From Verif Require Import Base RotModel OptModel OptSpec BmonSpec TabModel TabSpec.
Open Scope R_scope.

(** the table, with rows at x0, x0 + h, ..., gives y at X: on the chord between two rows, and the first or the last value outside *)
Definition reads (t : table) (X y : R) : Prop :=
  (X <= el t 0 0 -> y = el t 0 1) /\ (el t (rows t - 1) 0 <= X -> y = el t (rows t - 1) 1) /\
  forall k, (0 <= k < rows t - 1)%Z -> el t k 0 <= X <= el t (k + 1) 0 -> on_chord (el t k 0) (el t k 1) (el t (k + 1) 0) (el t (k + 1) 1) X y.
(** a table with two columns or more and even steps, as Table_Rebin makes it *)
Definition even_table (t : table) : Prop := shaped t /\ (2 <= rows t)%Z /\ (2 <= columns t)%Z /\ 0 < step_x t /\ even t (min_x t) (step_x t).
(** wavevector in 1/Angstrom *)
Definition wavevector (r : ray) : R := 158801 / 100000000 * speed r.
(** a text contains a word *)
Definition contains (str s : string) : Prop := exists a b, str = (a ++ s ++ b)%string.
(** thickness *)
Definition thicker (a e b : R) : Prop := e = 1 /\ b = a \/ 0 < a /\ 0 < b /\ ln b = e * ln a \/ a = 0 /\ 0 < e /\ b = 0.
