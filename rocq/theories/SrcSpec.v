(** Vocabulary for C75: what neutrons from sources are like. *)
From Coq Require Import Reals.
From Verif Require Import Base RotModel UnitSpec.
Open Scope R_scope.

(** [w] points where [v] does. *)
Definition same_way (v w : vec3) : Prop := exists k, 0 < k /\ vx w = k * vx v /\ vy w = k * vy v /\ vz w = k * vz v.
(** Neutrons that differ in nothing but their velocities. *)
Definition but_velocity (a b : event) : Prop := e_r a = e_r b /\ e_s1 a = e_s1 b /\ e_s2 a = e_s2 b /\ e_t a = e_t b /\ e_p a = e_p b.
(** Neutrons that differ in nothing but x and y of their positions, which are within a rectangle. *)
Definition from_area (dx dy : R) (a b : event) : Prop :=
  e_v a = e_v b /\ e_s1 a = e_s1 b /\ e_s2 a = e_s2 b /\ e_t a = e_t b /\ e_p a = e_p b /\ vz (e_r a) = vz (e_r b) /\
  Rabs (vx (e_r b) - vx (e_r a)) <= Rabs dx / 2 /\ Rabs (vy (e_r b) - vy (e_r a)) <= Rabs dy / 2.
(** Random numbers. *)
Definition randoms (u : nat -> R) : Prop := forall i, 0 <= u i < 1.
(** From [Ei] along z to the velocity [v] a neutron loses the energy [E] and the wave vector changes by [Q]. *)
Definition transfers (Q E Ei : R) (v : vec3) : Prop :=
  is_energy (Ei - E) (speed v) /\ exists vi ki kx ky kz, 0 <= vi /\ is_energy Ei vi /\ is_wavenumber ki vi /\ is_wavenumber kx (vx v) /\ is_wavenumber ky (vy v) /\ is_wavenumber kz (vz v) /\
    0 <= Q /\ kx ^ 2 + ky ^ 2 + (ki - kz) ^ 2 = Q ^ 2.
(** The wave numbers before and after allow the transfer, with an angle in between. *)
Definition allowed (Q E Ei : R) : Prop :=
  exists vi vf ki kf, 0 <= vi /\ 0 <= vf /\ is_energy Ei vi /\ is_energy (Ei - E) vf /\ is_wavenumber ki vi /\ is_wavenumber kf vf /\ Q < ki + kf /\ ki < kf + Q /\ kf < ki + Q.
