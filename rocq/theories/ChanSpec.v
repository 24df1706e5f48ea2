(** Vocabulary for C30: intervals along a tube. *)
From Coq Require Import Reals Lra.
From Verif Require Import Base RotModel RotSpec.
Open Scope R_scope.

(** the half-open interval [a, b) *)
Definition in_interval (a b x : R) : Prop := a <= x < b.
(** p + k s *)
Definition displaced (p s : vec3) (k : R) : vec3 := mkV (vx p + k * vx s) (vy p + k * vy s) (vz p + k * vz s).
(** n pixels with centres p, p + s, p + 2s, ... *)
Definition row_of_pixels (p s : vec3) (n : nat) : list vec3 := map (fun k => displaced p s (INR k)) (seq 0 n).
(** position of r along the row, in pixels from the centre of pixel 0 *)
Definition along (p s r : vec3) : R := sdot (vsub r p) s / norm2 s.
(** squared distance *)
Definition dist2 (a b : vec3) : R := norm2 (vsub a b).
