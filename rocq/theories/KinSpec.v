(** Vocabulary for C40. *)
From Coq Require Import Reals.
From Coquelicot Require Import Coquelicot.
From Verif Require Import Base RotModel RotSpec ScatSpec UnitSpec KinModel.
Open Scope R_scope.

(** A neutron that goes from velocity [v] to [v'] gives away the energy [E] and changes its wave vector by [Q] in magnitude. *)
Definition transfers (v v' : vec3) (Q E : R) : Prop :=
  exists Ei Ef, is_energy Ei (speed v) /\ is_energy Ef (speed v') /\ E = Ei - Ef /\ is_wavenumber Q (speed (vsub v v')).
(** A neutron of energy [E] has wave number [k]. *)
Definition wave_at (E k : R) : Prop := exists v, 0 <= v /\ is_energy E v /\ is_wavenumber k v.
(** Energy [Ei] and wave number [ki] of a neutron of velocity [v]. *)
Definition arrives (v : vec3) (Ei ki : R) : Prop := is_energy Ei (speed v) /\ is_wavenumber ki (speed v).
(** The direction of [v] differs from the z axis by more than [eps] along x or y, or has no component along x. *)
Definition off_axis (eps : R) (v : vec3) : Prop := eps * speed v < Rabs (vx v) \/ eps * speed v < Rabs (vy v) \/ vx v = 0.
(** Place, time and spin are those of [ev]. *)
Definition in_place (ev : event) (o : kevent) : Prop := k_r o = e_r ev /\ k_t o = e_t ev /\ k_s1 o = e_s1 ev /\ k_s2 o = e_s2 ev.
(** [Q] can be reached between [lo] and [hi] with wave numbers [ki] and [kf]. *)
Definition Qlow (lo ki kf : R) : R := Rmax lo (Rabs (ki - kf)).
Definition Qhigh (hi ki kf : R) : R := Rmin hi (ki + kf).
Definition triangle (ki kf Q : R) : Prop := Rabs (ki - kf) <= Q <= ki + kf.

(** What a detector of [G] sees of the neutron after the kernel. *)
Definition carried (G : vec3 -> R) (o : result kevent) : R :=
  match o with Ok o => match k_v o with Some v => k_p o * G v | None => 0 end | Err _ => 0 end.
(** The mean of [f] over [n] independent random numbers, uniform in [0,1], is [m]. *)
Fixpoint meanN (n : nat) (f : list R -> R) (m : R) : Prop :=
  match n with
  | O => f [] = m
  | S n => exists g, (forall u, 0 < u < 1 -> meanN n (fun l => f (u :: l)) (g u)) /\ is_RInt g 0 1 m
  end.
(** The stream of random numbers that starts with a list. *)
Definition stream (l : list R) (i : nat) : R := nth i l 0.
(** 1 + r/2 + r^2/3 + ... + r^(n-1)/n *)
Fixpoint log_series (r : R) (n : nat) : R := match n with O => 0 | S n => log_series r n + r ^ n / INR (S n) end.
(** 1 + r + ... + r^(n-1) *)
Fixpoint geometric (r : R) (n : nat) : R := match n with O => 0 | S n => geometric r n + r ^ n end.
(** Some final velocity gives the transfer. *)
Definition possible (v : vec3) (Q E : R) : Prop := exists v', v' <> mkV 0 0 0 /\ transfers v v' Q E.
(** The unit vector with cosine [c] of the angle to the z axis and azimuth [phi]; uniform [c] and [phi] are uniform on the sphere. *)
Definition on_sphere (c phi : R) : vec3 := mkV (sqrt (1 - c * c) * cos phi) (sqrt (1 - c * c) * sin phi) c.
