(** Vocabulary for C74: paths, cylinders about the vertical axis and blades. *)
From Coq Require Import Reals Sorting.
From Verif Require Import Base RotModel.
Open Scope R_scope.

(** Where a neutron is after the time [t] (before, if [t] is negative). *)
Definition where_at (ev : event) (t : R) : vec3 :=
  mkV (vx (e_r ev) + t * vx (e_v ev)) (vy (e_r ev) + t * vy (e_v ev)) (vz (e_r ev) + t * vz (e_v ev)).
(** The square of the distance from the vertical axis, which is y. *)
Definition dist2 (p : vec3) : R := vx p ^ 2 + vz p ^ 2.
(** At [t] the neutron leaves the cylinder of radius [r] for good. *)
Definition leaves (ev : event) (r t : R) : Prop := dist2 (where_at ev t) = r ^ 2 /\ forall t', t < t' -> r ^ 2 < dist2 (where_at ev t').
(** [p] is in the direction [phi] from the axis: from z towards x. *)
Definition azimuth (p : vec3) (phi : R) : Prop := exists rho, 0 < rho /\ vz p = rho * cos phi /\ vx p = rho * sin phi.
(** Azimuths are counted from -pi to pi. *)
Definition principal (p : vec3) (phi : R) : Prop := azimuth p phi /\ - PI < phi <= PI.
(** Blades at equal distances from [lo], or at given places. *)
Inductive at_blade_even (lo d : R) : R -> Prop := at_even k : at_blade_even lo d (lo + IZR k * d).
(** [a] and [b] are in one gap of blades: between two of them and with none in between. *)
Definition in_gap (blade : R -> Prop) (a b : R) : Prop := forall x, blade x -> (x <= a <-> x <= b).
(** The neutron gets through when it leaves both cylinders below and above which it would be lost, within the range of angles and in one gap of the blades,
    which are turned back by [s]. *)
Definition through (r1 h1 r2 h2 lo hi : R) (blade : R -> Prop) (s : R) (ev : event) : Prop :=
  exists t1 t2 phi1 phi2, leaves ev r1 t1 /\ leaves ev r2 t2 /\ Rabs (vy (where_at ev t1)) < h1 / 2 /\ Rabs (vy (where_at ev t2)) < h2 / 2 /\
    principal (where_at ev t1) phi1 /\ principal (where_at ev t2) phi2 /\ lo < phi1 + s < hi /\ lo < phi2 + s < hi /\ in_gap blade (phi1 + s) (phi2 + s).
(** [out] is what is left of the neutrons of [l] for which [P] holds, in the same order. *)
Inductive those (P : R -> event -> Prop) : list R -> list event -> list event -> Prop :=
| those_none us : those P us [] []
| those_kept us ev l out : P (hd 0 us) ev -> those P (tl us) l out -> those P us (ev :: l) (ev :: out)
| those_lost us ev l out : ~ P (hd 0 us) ev -> those P (tl us) l out -> those P us (ev :: l) out.
(** Places of blades in order. *)
Definition in_order (l : list R) : Prop := StronglySorted Rle l.
(** Degrees in radians. *)
Definition radians (deg rad : R) : Prop := rad * 180 = deg * PI.
