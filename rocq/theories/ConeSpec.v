(** Vocabulary for C66 to C68. *)
From Coq Require Import Reals.
From Verif Require Import Base RotModel RotSpec ShapeModel.
Open Scope R_scope.

(** A ray from the origin along [d] goes through the disk of radius [r] around [c], perpendicular to [c]. *)
Definition hits_disk (c : vec3) (r : R) (d : vec3) : Prop :=
  exists t, 0 < t /\ sdot (vsub (vscale t d) c) c = 0 /\ norm2 (vsub (vscale t d) c) <= r * r.
(** The cosine of the half opening of the cone to a disk of radius [r] at [c]; negative [r] stand for cones wider than a half space. *)
Definition half_opening (c : vec3) (r : R) : R := let s := sqrt (norm2 c / (norm2 c + r * r)) in if Rlt_dec r 0 then - s else s.
(** A right-handed frame with the first axis along [c]. *)
Definition frame_along (c e1 e2 e3 : vec3) : Prop :=
  norm2 e1 = 1 /\ norm2 e2 = 1 /\ sdot e1 e2 = 0 /\ e3 = vcross e1 e2 /\ c = vscale (sqrt (norm2 c)) e1.
(** The vector of length [s] at the angle [acos c] from the first axis and azimuth [phi]. *)
Definition at_angle (e1 e2 e3 : vec3) (s c phi : R) : vec3 :=
  vscale s (vadd (vscale c e1) (vscale (sqrt (1 - c * c)) (vadd (vscale (cos phi) e2) (vscale (sin phi) e3)))).

(** The form factor of a sphere at x = q R. *)
Definition sphere_form (x : R) : R := 3 * (sin x - x * cos x) / x ^ 3.
(** The part of the scattering by spheres of radius R with q R up to [x]: 1 - j0(x)^2 - j1(x)^2, with the spherical Bessel functions. *)
Definition share (x : R) : R := 1 - (sin x / x) ^ 2 - ((sin x - x * cos x) / x ^ 2) ^ 2.
(** The momentum transfer of elastic scattering of a neutron of wave number [k] by an angle of cosine [c]. *)
Definition elastic_q (k c : R) : R := k * sqrt (2 * (1 - c)).
(** A probability, or nothing. *)
Definition or_zero (o : option R) : R := match o with Some x => x | None => 0 end.
