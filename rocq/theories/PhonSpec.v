(** Vocabulary for C54, C55 and C56. *)
From Coq Require Import Reals.
From Coquelicot Require Import Coquelicot.
From Verif Require Import Base RotModel GridSpec.
Open Scope R_scope.

(** ** Densities of states *)

(** sum of a list *)
Definition total (l : list R) : R := fold_right Rplus 0 l.
(** the points (energy, datum) of the first twenty data *)
Definition first_points (e0 de : R) (Z : list R) : list (R * R) := map (fun i => (e0 + INR i * de, nth i Z 0)) (seq 0 20).
(** the sum of the squares of the deviations of points from a curve *)
Definition residual (f : R -> R) (pts : list (R * R)) : R := total (map (fun p => (snd p - f (fst p)) * (snd p - f (fst p))) pts).
(** some parabola c E^2 deviates ten times less than any constant *)
Definition parabolic (pts : list (R * R)) : Prop := exists c, forall k, 10 * residual (fun e => c * (e * e)) pts <= residual (fun _ => k) pts.
(** no parabola deviates less than c E^2 *)
Definition best_parabola (c : R) (pts : list (R * R)) : Prop :=
  forall c', residual (fun e => c * (e * e)) pts <= residual (fun e => c' * (e * e)) pts.
(** a number, 0 for an error *)
Definition number (r : result R) : R := match r with Ok v => v | Err _ => 0 end.
(** energies with a common step *)
Definition evenly (e0 de : R) (l : list R) : Prop := forall i, (i < List.length l)%nat -> nth i l 0 = e0 + INR i * de.

(** ** Thermal factor *)

(** the mean number of phonons of energy [E] meV at [T] K, one meV being 11.605 K *)
Definition occupation (E T n : R) : Prop := n * (exp (E * (11605 / 1000) / T) - 1) = 1.

(** the factor of the creation of a phonon of energy [E], or of the destruction of one of energy [-E] *)
Definition thermal (E T f : R) : Prop := (0 < E /\ exists n, occupation E T n /\ f = n + 1) \/ (E < 0 /\ occupation (- E) T f).
(** The scattering function without Debye-Waller factor and mass, for an energy transfer [omega] and a neutron energy [ER] of the momentum transfer:
    that of a density of states [Z], and below a hundredth of its greatest energy that of the parabola sod E^2 at high temperature. *)
Definition one_phonon (Z : R -> R) (sod emax T omega ER w : R) : Prop :=
  (Rabs omega < emax / 100 -> w = sod * (T / (11605 / 1000)) * ER)
  /\ (emax / 100 <= Rabs omega -> exists f, thermal omega T f /\ w = f * Z (Rabs omega) * ER / Rabs omega).

(** ** Debye-Waller exponent *)

(** the mean number of phonons, also at zero temperature *)
Definition phonons (E T n : R) : Prop := (0 < T /\ occupation E T n) \/ (T = 0 /\ n = 0).
(** the integrand (2 n + 1) Z(E) / E *)
Definition fluctuation (Z : R -> R) (T E F : R) : Prop := exists n, phonons E T n /\ F = (2 * n + 1) * Z E / E.

(** the trapezoidal sum of the ordinates f 0, ..., f n with step h *)
Fixpoint trapezoids (h : R) (f : nat -> R) (n : nat) : R :=
  match n with O => 0 | S n => trapezoids h f n + h * (f n + f (S n)) / 2 end.
(** hbar^2/(2M) for a mass of [m] atomic units, times 1e20/A^2/m^2, per meV *)
Definition dw_unit (m : R) : R :=
  (105457148 / 10 ^ 42) ^ 2 / (2 * (166053886 / 10 ^ 35) * m) / (160217653 / 10 ^ 30) * 10 ^ 20.
