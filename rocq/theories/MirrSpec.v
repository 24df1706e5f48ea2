(** What a mirror plate does, independent of the model's functions. *)
From Coq Require Import Reals.
From Verif Require Import Base RotModel OptModel OptSpec MirrModel.
Open Scope R_scope.

(** a point of the plate; its border belongs to it *)
Definition on_plate (c : plate) (x y : R) : Prop :=
  if p_center c then Rabs x <= p_xlength c / 2 /\ Rabs y <= p_yheight c / 2 else 0 <= x <= p_xlength c /\ 0 <= y <= p_yheight c.
(** the line of the neutron meets the plate now or later, after the time s *)
Definition reaches (c : plate) (r : ray) (s : R) : Prop :=
  0 <= s /\ coordinate 0 (vz (r_vel r)) (vz (r_pos r)) s = 0 /\ on_plate c (coordinate 0 (vx (r_vel r)) (vx (r_pos r)) s) (coordinate 0 (vy (r_vel r)) (vy (r_pos r)) s).
(** the momentum transfer (1/Angstrom) of the reflection *)
Definition transfer (r : ray) : R := 2 * (158801 / 100000000) * Rabs (vz (r_vel r)).
(** B is the nearest number between 0 and 1 *)
Definition nearest (B x : R) : Prop := 0 <= B <= 1 /\ (0 <= x <= 1 -> B = x) /\ (x < 0 -> B = 0) /\ (1 < x -> B = 1).
(** r' is r with the velocity reflected from the plane z = 0 *)
Definition mirror_image (r r' : ray) : Prop :=
  r_pos r' = r_pos r /\ vx (r_vel r') = vx (r_vel r) /\ vy (r_vel r') = vy (r_vel r) /\ vz (r_vel r') = - vz (r_vel r) /\
  r_t r' = r_t r /\ r_s1 r' = r_s1 r /\ r_s2 r' = r_s2 r.
