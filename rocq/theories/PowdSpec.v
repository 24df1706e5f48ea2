(** Vocabulary for C57. *)
From Coq Require Import Reals.
From Verif Require Import Base RotModel RotSpec UnitSpec ShapeModel PowdModel.
Open Scope R_scope.

(** [v'] is [v] turned by the angle [a] about the direction of [c] (right hand). *)
Definition turned_about (c : vec3) (a : R) (v v' : vec3) : Prop :=
  exists n, norm2 n = 1 /\ c = vscale (sqrt (norm2 c)) n /\
    v' = vadd (vadd (vscale (sdot v n) n) (vscale (cos a) (vsub v (vscale (sdot v n) n)))) (vscale (sin a) (vcross n v)).
(** [c] is parallel to [v], up to the tolerance of the code: |cos| of the angle is within [eps] of 1. *)
Definition nearly_parallel (eps : R) (v c : vec3) : Prop := 1 - eps < Rabs (sdot v c) / sqrt (norm2 v * norm2 c).

(** The cross section of a unit cell of volume [V] for one Debye-Scherrer cone: lambda^3 m F^2 / (4 V sin theta), with lambda = 2 pi/k and
    sin theta = q/(2k). *)
Definition cone_xs (k V q F2 : R) (m : Z) : R := (2 * PI / k) ^ 3 * IZR m * F2 / (4 * V * (q / (2 * k))).
(** The Debye-Waller factor of a peak; zero stands for none. *)
Definition damping (p : peak) : R := if Req_EM_T (pk_DebyeWaller p) 0 then 1 else pk_DebyeWaller p.
(** The scattering coefficient (1/m) of one cone, for cross sections in barn and volumes in cubic angstrom. *)
Definition cone_coefficient (k V : R) (p : peak) : R := 100 * (damping p * cone_xs k V (pk_q p) (pk_F_squared p) (pk_multiplicity p)) / V.
(** A cone is reached by neutrons of wave number [k] >= q/2. *)
Definition reached (k : R) (p : peak) : bool := if Rle_dec (pk_q p / 2) k then true else false.
(** Peaks in the order of q. *)
Definition ordered (l : list peak) : Prop := forall i j, (i <= j < List.length l)%nat -> forall d, pk_q (nth i l d) <= pk_q (nth j l d).
(** The direction at azimuth [phi] on the cone with angle [tt] around [e1], times a speed. *)
Definition on_cone (e1 e2 e3 : vec3) (s tt phi : R) : vec3 :=
  vscale s (vadd (vscale (cos tt) e1) (vscale (sin tt) (vadd (vscale (cos phi) e2) (vscale (sin phi) e3)))).
(** The scattering angle of a cone. *)
Definition two_theta (k : R) (p : peak) : R := 2 * asin (pk_q p / (2 * k)).
(** The sum over the cones that are reached. *)
Fixpoint over_reached (k : R) (f : peak -> R) (l : list peak) : R :=
  match l with [] => 0 | p :: l => (if reached k p then f p else 0) + over_reached k f l end.
(** How many there are. *)
Definition number_reached (k : R) (l : list peak) : nat := List.length (filter (reached k) l).
(** The neutron, without the kernel. *)
Definition outgoing (o : result (powder * KinModel.kevent)) : result KinModel.kevent := match o with Ok (_, e) => Ok e | Err x => Err x end.
