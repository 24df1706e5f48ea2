(** Vocabulary for C73: a neutron gives away the energy of the excitation at its wave vector transfer. *)
From Coq Require Import Reals.
From Coquelicot Require Import Coquelicot.
From Verif Require Import Base RotModel RotSpec ScatSpec UnitSpec KinModel KinSpec CohSpec.
Open Scope R_scope.

(** A neutron that goes from [v] to [v'] loses the energy of the excitation [E] at its wave vector transfer and [x] besides. *)
Definition left_over (E : vec3 -> R) (v v' : vec3) (x : R) : Prop :=
  exists Ei Ef q, is_energy Ei (speed v) /\ is_energy Ef (speed v') /\ wave_vector q (vsub v v') /\ x = Ei - Ef - E q.
(** The velocity in the direction [d] with wave number [k]. *)
Definition along (d : vec3) (k : R) (v : vec3) : Prop := wave_vector (mkV (k * vx d) (k * vy d) (k * vz d)) v.
(** [f k] is what is left over for the wave number [k] in the direction [d]. *)
Definition balance (E : vec3 -> R) (v d : vec3) (f : R -> R) : Prop := forall k v', along d k v' -> left_over E v v' (f k).
(** How fast the energy of a neutron grows with its wave number, at [k]. *)
Definition energy_rate (k r : R) : Prop := forall g : R -> R, (forall x s, is_wavenumber x s -> is_energy (g x) s) -> is_derive g k r.
(** The wave number of the slowest neutron that is left after a loss of at most [Emax]. *)
Definition slowest (Ei Emax k : R) : Prop := 0 <= k /\ exists s, is_wavenumber k s /\ is_energy (Rmax 0 (Ei - Emax)) s.
(** The slope of [f] at [x] from its values at four points, [d] apart. *)
Definition four_point (f : R -> R) (x d : R) : R := (8 * (f (x + d) - f (x - d)) - (f (x + 2 * d) - f (x - 2 * d))) / (12 * d).
(** The sum over the numbers below [n] that are chosen by [c]. *)
Fixpoint sum_chosen (c : nat -> bool) (g : nat -> R) (n : nat) : R := match n with O => 0 | S n => sum_chosen c g n + (if c n then g n else 0) end.
(** How many they are. *)
Fixpoint chosen (c : nat -> bool) (n : nat) : nat := match n with O => O | S n => (chosen c n + (if c n then 1 else 0))%nat end.
(** What a detector of [G] sees, per unit of weight, of the neutrons sent along [d] with wave number [kf]: the rate of the energy over the slope of the
    balance, times the strength and the ratio of wave numbers; if the balance is off by more than the tolerance [tol], the neutrons go on as before. *)
Definition share (S G : vec3 -> R) (v d : vec3) (f : R -> R) (tol ki kf x : R) : Prop :=
  exists r, energy_rate kf r /\ let w := r / Rabs (four_point f kf (ki / 200)) in
    ((tol < Rabs (f kf) /\ x = w * G v) \/
     (Rabs (f kf) <= tol /\ exists v' q, along d kf v' /\ wave_vector q (vsub v v') /\ x = w * (S q * (kf / ki)) * G v')).
