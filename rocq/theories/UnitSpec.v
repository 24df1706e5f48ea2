(** Vocabulary for C44 and C53. *)
From Coq Require Import Reals.
From Verif Require Import Base RotModel RotSpec.
Open Scope R_scope.

(** A neutron (1.6749286e-27 kg) of speed [v] m/s has the kinetic energy [E] meV, one meV being 1.60217733e-22 J. *)
Definition is_energy (E v : R) : Prop := E * (160217733 / 10 ^ 30) = 16749286 / 10 ^ 34 * (v * v) / 2.
(** It has the wave number [k] in 1/Angstrom: momentum is 1.054571628e-34 J s times wave number. *)
Definition is_wavenumber (k v : R) : Prop := 1054571628 / 10 ^ 43 * (k * 10 ^ 10) = 16749286 / 10 ^ 34 * v.
(** Equal up to a relative error of [eps]. *)
Definition within (eps a b : R) : Prop := Rabs (a - b) <= eps * b.
(** Direction of the spin with polar angle [s1] from the y axis and azimuth [s2] from z towards x. *)
Definition spin_direction (s1 s2 : R) : vec3 := mkV (sin s1 * sin s2) (cos s1) (sin s1 * cos s2).
(** Length of a vector. *)
Definition speed (v : vec3) : R := sqrt (norm2 v).
(** Angles that a direction determines. *)
Definition canonical (s1 s2 : R) : Prop := (0 < s1 < PI /\ - PI < s2 <= PI) \/ ((s1 = 0 \/ s1 = PI) /\ s2 = 0).
