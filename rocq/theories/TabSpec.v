(* What the table routines and the reflectivities of McStas are compared with. *)
From Coq Require Import Reals List ZArith Bool.
From Verif Require Import TabModel.
Import ListNotations.
Local Open Scope R_scope.

(* A table with at least one row and one column whose data is complete. *)
Definition shaped (t : table) : Prop :=
  exists d, data t = Some d /\ (0 < rows t)%Z /\ (0 < columns t)%Z
    /\ Z.of_nat (List.length d) = (rows t * columns t)%Z.

(* The entry in row i and column j, stored row by row. *)
Definition el (t : table) (i j : Z) : R :=
  match data t with Some d => nth (Z.to_nat (i * columns t + j)) d 0 | None => 0 end.

Definition in_range (t : table) (i j : Z) : Prop := (0 <= i < rows t)%Z /\ (0 <= j < columns t)%Z.

(* The number in 0, ..., n - 1 that is closest to i. *)
Definition clampZ (i n : Z) : Z := Z.max 0 (Z.min i (n - 1)).
Definition clampR (x : R) (n : Z) : R := Rmax 0 (Rmin x (IZR (n - 1))).

(* First column. *)
Definition rising (t : table) : Prop := forall i, (0 <= i < rows t - 1)%Z -> el t i 0 < el t (i + 1) 0.
Definition falling (t : table) : Prop := forall i, (0 <= i < rows t - 1)%Z -> el t (i + 1) 0 < el t i 0.
Definition bounded (t : table) : Prop := forall i, (0 <= i < rows t)%Z -> Rabs (el t i 0) <= FLT_MAX.
Definition even (t : table) (x0 h : R) : Prop := forall i, (0 <= i < rows t)%Z -> el t i 0 = x0 + IZR i * h.
Definition step_at (t : table) (i : Z) : R := el t (i + 1) 0 - el t i 0.

(* (x,y) is on the line through (x1,y1) and (x2,y2), x1 <> x2. *)
Definition on_chord (x1 y1 x2 y2 x y : R) : Prop := (y - y1) * (x2 - x1) = (y2 - y1) * (x - x1).

(* Bilinear interpolation in the cell of rows i, i+1 and columns j, j+1. *)
Definition cell (t : table) (i j : Z) (u v : R) : R :=
  (1 - u) * ((1 - v) * el t i j + v * el t i (j + 1))
  + u * ((1 - v) * el t (i + 1) j + v * el t (i + 1) (j + 1)).

(* The statistics of a table with rising first column. *)
Definition described (t : table) : Prop :=
  rising t /\ min_x t = el t 0 0 /\ max_x t = el t (rows t - 1) 0.

(* Same content. *)
Definition same_content (t t' : table) : Prop :=
  data t' = data t /\ rows t' = rows t /\ columns t' = columns t /\ tmethod t' = tmethod t.

(* Mirrors: below the critical value everything is reflected, above the cut-off
   nothing. *)
Definition reflecting (p : mirror) : Prop := 0 < R0 p /\ 0 < Qc p /\ 0 < m_value p /\ 0 < W p.
Definition critical (p : mirror) : R := Qc p * Rmin 1 (m_value p).
Definition cutoff (p : mirror) : R := m_value p * Qc p + 10 * W p.

(* The coefficients of H. Jacobsen's estimate as functions of the m-value that
   the comment in ref-lib.cc 58-66 gives. *)
Definition est_m (m : R) : R := 0.9853 * m + 0.1978.
Definition est_W (m' : R) : R := 0.0022 - 0.0002 * m'.
Definition est_alpha (m' : R) : R := 5.0944 + 0.2304 * m'.
Definition est_beta (m' : R) : R := 68.1137 - 7.6251 * m'.
