(** Neutrons that leave a source, independent of the model's functions. *)
From Coq Require Import Reals.
From Verif Require Import Base RotModel OptModel BsrcModel.
Open Scope R_scope.

(** a number between 0 and 1, such as a random number *)
Definition fraction (u : R) : Prop := 0 <= u <= 1.
(** the straight way of the neutron leads, after a time that is not negative, to the point (x, y) of the plane z = d *)
Definition flies_to (r : ray) (d x y : R) : Prop :=
  exists s, 0 <= s /\ vx (r_pos r) + vx (r_vel r) * s = x /\ vy (r_pos r) + vy (r_vel r) * s = y /\ vz (r_pos r) + vz (r_vel r) * s = d.
Definition velocity2 (r : ray) : R := vx (r_vel r) ^ 2 + vy (r_vel r) ^ 2 + vz (r_vel r) ^ 2.
(** E in meV *)
Definition has_energy (r : ray) (E : R) : Prop := 0 <= E /\ velocity2 r = (4373949 / 10000) ^ 2 * E.
(** l in Angstrom *)
Definition has_wavelength (r : ray) (l : R) : Prop := 0 < l /\ velocity2 r = (629719 / 1000 * (2 * PI) / l) ^ 2.
(** the same with the constant of Source_div *)
Definition has_wavelength' (r : ray) (l : R) : Prop := 0 < l /\ velocity2 r = (3956036 / 1000 / l) ^ 2.
(** where neutrons start *)
Definition in_disk (R0 : R) (r : ray) : Prop := vx (r_pos r) ^ 2 + vy (r_pos r) ^ 2 <= R0 ^ 2 /\ vz (r_pos r) = 0.
Definition in_rectangle (w h : R) (r : ray) : Prop := Rabs (vx (r_pos r)) <= w / 2 /\ Rabs (vy (r_pos r)) <= h / 2 /\ vz (r_pos r) = 0.
(** distance of the point (x, y) of the plane z = d from the point (a, b) of the plane z = 0 *)
Definition distance (a b x y d : R) : R := sqrt ((x - a) ^ 2 + (y - b) ^ 2 + d ^ 2).
(** The solid angle per area under which a piece of the plane z = d at (x, y) is seen from (a, b) in the plane z = 0 *)
Definition seen (a b x y d : R) : R := d / distance a b x y d ^ 3.
(** the share of a Maxwellian with the temperature T (K) at wavelengths below l (Angstrom) *)
Definition maxwell_below (T l : R) : R := exp (- (949 / T) / l ^ 2) * (1 + 949 / T / l ^ 2).
(** the Gaussian with the width s, 1 at 0 *)
Definition bell (s x : R) : R := exp (- (x ^ 2 / (2 * s ^ 2))).
(** the area of Source_simple: a disk when there is a radius, otherwise a rectangle *)
Definition emits_from (c : simple) (square : bool) (area : R) : Prop :=
  (i_radius c <> 0 /\ i_height c = 0 /\ i_width c = 0 /\ square = false /\ area = PI * i_radius c ^ 2) \/
  (i_radius c = 0 /\ i_height c <> 0 /\ i_width c <> 0 /\ square = true /\ area = i_width c * i_height c).
Definition band_refused (E0 dE L0 dL : R) : Prop :=
  (L0 = 0 /\ dL = 0 /\ ~ (0 <= dE < E0)) \/ (E0 = 0 /\ dE = 0 /\ ~ (0 <= dL < L0)).
(** what is common to all neutrons that Source_simple sends to the target *)
Definition simple_beam (c : simple) (u1 u2 u3 u4 : R) (n r : ray) : Prop :=
  let x := i_xw c * (1 - 2 * u3) / 2 in let y := i_yh c * (1 - 2 * u4) / 2 in
  exists square area, emits_from c square area /\
    r_t r = 0 /\ r_s1 r = r_s1 n /\ r_s2 r = r_s2 n /\
    (i_radius c <> 0 -> in_disk (i_radius c) r /\ vx (r_pos r) ^ 2 + vy (r_pos r) ^ 2 = i_radius c ^ 2 * u2) /\
    (i_radius c = 0 -> in_rectangle (Rabs (i_width c)) (Rabs (i_height c)) r /\ vx (r_pos r) = i_width c * (u1 - 1 / 2) /\ vy (r_pos r) = i_height c * (u2 - 1 / 2)) /\
    Rabs x <= i_xw c / 2 /\ Rabs y <= i_yh c / 2 /\ flies_to r (i_dist c) x y /\
    r_p r = i_flux c * 10000 * area * (i_xw c * i_yh c * seen 0 0 x y (i_dist c)).
(** the mean delay (in microseconds) of neutrons of the energy E in a moderator *)
Definition delay (t0 Ec gam E : R) : R := if Rlt_dec E Ec then t0 else t0 / (1 + ((E - Ec) / gam) ^ 2).
(** the weight of a neutron; nothing when there is none *)
Definition weight_of (r : result ray) : R := match r with Ok r => r_p r | Err _ => 0 end.
