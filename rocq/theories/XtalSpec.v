(** Vocabulary for C58. *)
From Coq Require Import Reals.
From Verif Require Import Base RotModel RotSpec UnitSpec ShapeModel KinModel XtalModel.
Open Scope R_scope.

(** [a'], [b'], [c'] is the reciprocal basis (with 2 pi) of [a], [b], [c]. *)
Definition reciprocal (a b c a' b' c' : vec3) : Prop :=
  sdot a a' = 2 * PI /\ sdot a b' = 0 /\ sdot a c' = 0 /\ sdot b a' = 0 /\ sdot b b' = 2 * PI /\ sdot b c' = 0 /\ sdot c a' = 0 /\ sdot c b' = 0 /\ sdot c c' = 2 * PI.
(** Standard deviations from full widths at half maximum. *)
Definition rms : R := 424660900144 / 10 ^ 12.
Definition sig_along (dd : R) (tau : vec3) : R := rms * dd * speed tau.
Definition sig_across (mosaic : R) (tau : vec3) : R := rms * mosaic * speed tau.
(** The density of the reflection around its point: a normal distribution along tau (spread of spacings) and across (mosaic). *)
Definition bragg_density (mosaic dd : R) (tau delta : vec3) : R :=
  let along2 := sdot delta tau * sdot delta tau / norm2 tau in
  exp (- (along2 / (2 * sig_along dd tau ^ 2) + (norm2 delta - along2) / (2 * sig_across mosaic tau ^ 2)))
  / (Rpower (2 * PI) (3 / 2) * (sig_along dd tau * sig_across mosaic tau * sig_across mosaic tau)).
(** The standard normal density in two dimensions. *)
Definition normal_density (z1 z2 : R) : R := exp (- ((z1 * z1 + z2 * z2) / 2)) / (2 * PI).
(** [P] maps the plane onto the plane tangent to the Ewald sphere at the point towards the reflection, stretching areas by [J]. *)
Definition onto_tangent_plane (ki tau : vec3) (J : R) (P : R -> R -> vec3) : Prop :=
  let rho := vsub ki tau in
  exists p0 b1 b2 l11 l12 l22, norm2 b1 = 1 /\ norm2 b2 = 1 /\ sdot b1 b2 = 0 /\ sdot b1 rho = 0 /\ sdot b2 rho = 0 /\ l11 * l22 = J /\ 0 < J /\
    sdot p0 rho = speed ki * speed rho /\
    forall z1 z2, P z1 z2 = vadd p0 (vadd (vscale (l11 * z1) b1) (vscale (l12 * z1 + l22 * z2) b2)).
(** Normal deviates sent through [P] have the density of the reflection on the tangent plane, up to the factor [refl]: the reflectivity. *)
Definition lands (V mosaic dd : R) (ki tau : vec3) (refl : R) (P : R -> R -> vec3) : Prop :=
  exists J, onto_tangent_plane ki tau J P /\
    forall z1 z2, (2 * PI) ^ 3 / (V * norm2 ki) * bragg_density mosaic dd tau (vsub (P z1 z2) (vsub ki tau)) * J = refl * normal_density z1 z2.
(** The point of the reflection is within five standard deviations of the Ewald sphere. *)
Definition in_reach (mosaic dd : R) (ki tau : vec3) : bool :=
  if Rle_dec (Rabs (speed (vsub ki tau) - speed ki)) (5 * Rmax (sig_along dd tau) (sig_across mosaic tau)) then true else false.
(** The point of a reflection. *)
Definition node (a' b' c' : vec3) (x : hkl) : vec3 := vadd (vadd (vscale (hh x) a') (vscale (hk x) b')) (vscale (hl x) c').
(** The sum over the reflections with a structure factor that are in reach. *)
Fixpoint over_reach (mosaic dd : R) (ki : vec3) (pt : hkl -> vec3) (f : hkl -> R) (l : list hkl) : R :=
  match l with
  | [] => 0
  | x :: l => (if Rlt_dec 0 (F2 x) then if in_reach mosaic dd ki (pt x) then f x else 0 else 0) + over_reach mosaic dd ki pt f l
  end.
(** The velocity of a neutron of speed [s] towards [P]. *)
Definition towards (s : R) (P : vec3) : vec3 := vscale (s / speed P) P.
(** What was done with the kernel so far. *)
Inductive used (k : xtal) : xtal -> Prop :=
| used_new : used k k
| used_coefficient k1 v : used k k1 -> used k (fst (xtal_scattering k1 v))
| used_scatter k1 u z1 z2 ev : used k k1 -> used k (fst (xtal_scatter k1 u z1 z2 ev)).
(** The neutron that comes out, for [carried]. *)
Definition comes_out (o : option kevent) : result kevent := match o with Some e => Ok e | None => Err ValueError end.
(** [ki] is the wave vector of neutrons of velocity [v]. *)
Definition wave_vector (ki v : vec3) : Prop := exists kk, is_wavenumber kk (speed v) /\ vscale (speed v) ki = vscale kk v.
