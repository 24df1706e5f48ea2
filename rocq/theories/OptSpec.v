(** What neutrons do in flight and in openings, independent of the model's functions. *)
From Coq Require Import Reals.
From Verif Require Import Base RotModel OptModel.
Open Scope R_scope.

(** the coordinate of a body with start x, speed v and acceleration a after a time s *)
Definition coordinate (a v x s : R) : R := x + v * s + a * s ^ 2 / 2.
(** r' is r after a flight of the time s with the acceleration a *)
Definition flown (a : vec3) (r : ray) (s : R) (r' : ray) : Prop :=
  vx (r_pos r') = coordinate (vx a) (vx (r_vel r)) (vx (r_pos r)) s /\
  vy (r_pos r') = coordinate (vy a) (vy (r_vel r)) (vy (r_pos r)) s /\
  vz (r_pos r') = coordinate (vz a) (vz (r_vel r)) (vz (r_pos r)) s /\
  vx (r_vel r') = vx (r_vel r) + vx a * s /\ vy (r_vel r') = vy (r_vel r) + vy a * s /\ vz (r_vel r') = vz (r_vel r) + vz a * s /\
  r_t r' = r_t r + s /\ r_s1 r' = r_s1 r /\ r_s2 r' = r_s2 r /\ r_p r' = r_p r.
Definition weightless : vec3 := mkV 0 0 0.
(** r' is r with the mark of absorbed neutrons *)
Definition lost (r r' : ray) : Prop :=
  r_p r' = -1 /\ r_pos r' = r_pos r /\ r_vel r' = r_vel r /\ r_t r' = r_t r /\ r_s1 r' = r_s1 r /\ r_s2 r' = r_s2 r.
(** kinetic and potential energy per mass *)
Definition energy (a : vec3) (r : ray) : R :=
  (vx (r_vel r) ^ 2 + vy (r_vel r) ^ 2 + vz (r_vel r) ^ 2) / 2
  - (vx a * vx (r_pos r) + vy a * vy (r_pos r) + vz a * vz (r_pos r)).
(** x and z exchanged *)
Definition turn (v : vec3) : vec3 := mkV (vz v) (vy v) (vx v).
Definition turned_ray (r : ray) : ray := mkRay (turn (r_pos r)) (turn (r_vel r)) (r_t r) (r_s1 r) (r_s2 r) (r_p r).

(** where a neutron without gravity meets the plane z = 0 *)
Definition meets (r : ray) (x y : R) : Prop :=
  exists s, coordinate 0 (vz (r_vel r)) (vz (r_pos r)) s = 0 /\
    x = coordinate 0 (vx (r_vel r)) (vx (r_pos r)) s /\ y = coordinate 0 (vy (r_vel r)) (vy (r_pos r)) s.
(** a point in the opening of a slit: a disk when there is a radius, otherwise a rectangle; its border belongs to it *)
Definition in_opening (o : opening) (x y : R) : Prop :=
  (radius o <> 0 -> x ^ 2 + y ^ 2 <= radius o ^ 2) /\ (radius o = 0 -> xmin o <= x <= xmax o /\ ymin o <= y <= ymax o).
(** a point on a beamstop: the border of a disk belongs to it, that of a rectangle does not *)
Definition on_stop (o : opening) (x y : R) : Prop :=
  (radius o <> 0 -> x ^ 2 + y ^ 2 <= radius o ^ 2) /\ (radius o = 0 -> xmin o < x < xmax o /\ ymin o < y < ymax o).
(** a neutron is taken out of the beam when its weight is below zero (mcni/lib/neutron/../process_neutron_events.cc:44) *)
Definition absorbed (r : ray) : Prop := r_p r < 0.

(** the weight factor of one set of plates: a neutron with the slope q (taken positive) between plates that let slopes up to s pass; no plates for s <= 0 *)
Definition plates (T s q f : R) : Prop := (0 < s -> q <= s /\ f = T * (1 - q / s)) /\ (s <= 0 -> f = 1).
(** a point in a rectangle with its border *)
Definition in_frame (o : opening) (x y : R) : Prop := xmin o <= x <= xmax o /\ ymin o <= y <= ymax o.

(** the angle of the point (x, y) from the axis y towards x *)
Definition azimuth (x y phi : R) : Prop := exists rho, 0 < rho /\ - PI < phi <= PI /\ x = rho * sin phi /\ y = rho * cos phi.
(** at the time t one of n slits of the width theta (rad), equally spaced on a disk that turns with omega (rad/s) and has a slit at the angle 0 at the time
    [delay], is at the angle phi *)
Definition slit_at (omega n theta delay phi t : R) : Prop := exists k : Z, Rabs (omega * (t - delay) - phi - 2 * PI * IZR k / n) <= theta / 2.
(** a point of the disk between its border and its inner part; without [border] there is no outer limit *)
Definition on_ring (rad height : R) (border : bool) (x y : R) : Prop := (border = true -> x ^ 2 + y ^ 2 <= rad ^ 2) /\ (rad - height) ^ 2 <= x ^ 2 + y ^ 2.
(** a disk that can be built: slits that fit on it, and times that belong to its speed *)
Definition disk (c : chopper) : Prop :=
  0 < c_radius c /\ 0 < c_n c /\ 0 <= c_theta0 c /\ c_n c * c_theta0 c < 2 * PI /\ c_omega c <> 0 /\
  c_Tg c = 2 * PI / (Rabs (c_omega c) * c_n c) /\ c_To c = c_theta0 c / Rabs (c_omega c).
(** the same disk that stops neutrons instead of setting their time *)
Definition stopping (c : chopper) : chopper :=
  mkChop (c_radius c) (c_height c) (c_delta_y c) (c_omega c) (c_n c) (c_theta0 c) (c_delay c) (c_jitter c) false (c_npulse c) (c_absout c) (c_Tg c) (c_To c) (c_Tc c).
