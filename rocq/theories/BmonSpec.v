(** What a monitor should hold after a run, independent of the model's functions. *)
From Coq Require Import Reals List.
From Verif Require Import Base RotModel OptModel OptSpec.
Import ListNotations.
Open Scope R_scope.

(** the sum of f over the neutrons of a list that have P *)
Inductive total (P : ray -> Prop) (f : ray -> R) : list ray -> R -> Prop :=
| total_nil : total P f [] 0
| total_in r rs s : P r -> total P f rs s -> total P f (r :: rs) (s + f r)
| total_out r rs s : ~ P r -> total P f rs s -> total P f (r :: rs) s.
(** number, sum of the weights and sum of their squares, over the neutrons that have P *)
Definition holds (P : ray -> Prop) (rs : list ray) (N p p2 : R) : Prop :=
  total P (fun _ => 1) rs N /\ total P r_p rs p /\ total P (fun r => r_p r ^ 2) rs p2.

(** the path of the neutron goes through the inside of the rectangle in the plane z = 0 *)
Definition through (o : opening) (r : ray) : Prop := exists x y, meets r x y /\ xmin o < x < xmax o /\ ymin o < y < ymax o.
(** the time at which it is there *)
Definition arrives (r : ray) (t : R) : Prop := exists s, coordinate 0 (vz (r_vel r)) (vz (r_pos r)) s = 0 /\ t = r_t r + s.
Definition speed (r : ray) : R := sqrt (vx (r_vel r) ^ 2 + vy (r_vel r) ^ 2 + vz (r_vel r) ^ 2).
(** energy in meV: 5.227e-6 v^2; wavelength in Angstrom: 2 pi / (1.58801e-3 v) *)
Definition neutron_energy (r : ray) : R := 5227 / 1000000000 * speed r ^ 2.
Definition wavelength (r : ray) : R := 2 * PI / (158801 / 100000000 * speed r).

(** a is in the k-th of n intervals of equal length from lo to hi *)
Definition in_bin (lo hi : R) (n : Z) (k : nat) (a : R) : Prop :=
  lo + (hi - lo) * INR k / IZR n <= a < lo + (hi - lo) * INR (k + 1) / IZR n.
(** the same, where the first interval takes all that is less and the last one all that is more *)
Definition in_bin_or_end (lo step : R) (n : Z) (k : nat) (a : R) : Prop :=
  (k = 0%nat \/ lo + step * INR k <= a) /\ ((Z.of_nat k + 1 = n)%Z \/ a < lo + step * INR (k + 1)).

(** r' is r at the plane z = 0 *)
Definition at_plane (r r' : ray) : Prop := exists s, flown weightless r s r' /\ vz (r_pos r') = 0.
