(** Vocabulary for C18-C20: rotations. *)
From Coq Require Import Reals Lra.
From Verif Require Import Base RotModel.
Open Scope R_scope.

(** scalar product, length, distance *)
Definition sdot (a b : vec3) : R := vx a * vx b + vy a * vy b + vz a * vz b.
Definition norm2 (a : vec3) : R := sdot a a.
Definition I3 : mat3 := mkM 1 0 0  0 1 0  0 0 1.
Definition det (m : mat3) : R :=
  m00 m * (m11 m * m22 m - m12 m * m21 m) - m01 m * (m10 m * m22 m - m12 m * m20 m)
  + m02 m * (m10 m * m21 m - m11 m * m20 m).
(** a proper rotation: it maps a right-handed orthonormal frame to another one *)
Definition rotation (m : mat3) : Prop :=
  (forall a b, sdot (dot_mv m a) (dot_mv m b) = sdot a b) /\ det m = 1.

(** Coordinates of a fixed vector in a frame that has been turned by an angle about its x, y, z axis (radians). *)
Definition frame_x (a : R) (v : vec3) : vec3 := mkV (vx v) (cos a * vy v + sin a * vz v) (cos a * vz v - sin a * vy v).
Definition frame_y (a : R) (v : vec3) : vec3 := mkV (cos a * vx v - sin a * vz v) (vy v) (sin a * vx v + cos a * vz v).
Definition frame_z (a : R) (v : vec3) : vec3 := mkV (cos a * vx v + sin a * vy v) (cos a * vy v - sin a * vx v) (vz v).

(** Two neutrons that agree except for position and velocity. *)
Definition same_other (a b : event) : Prop := e_s1 a = e_s1 b /\ e_s2 a = e_s2 b /\ e_t a = e_t b /\ e_p a = e_p b.

(** |a_i - b_i| <= d for all three coordinates *)
Definition vclose (d : R) (a b : vec3) : Prop :=
  Rabs (vx a - vx b) <= d /\ Rabs (vy a - vy b) <= d /\ Rabs (vz a - vz b) <= d.
Definition sum_abs (a : vec3) : R := Rabs (vx a) + Rabs (vy a) + Rabs (vz a).

(** The placement (p, m) is not one for which the code takes a shortcut although it is not exactly the identity. *)
Definition clear_rotation (m : mat3) : Prop := is_almost_I m = true -> m = I3.
Definition clear_placement (p : vec3) (m : mat3) : Prop :=
  clear_rotation m /\ (is_almost_0 p = true -> is_almost_I m = true -> p = mkV 0 0 0).

(** An orientation given by angles, or by a matrix that is a rotation. *)
Definition valid_ori (o : ori) : Prop := match o with Angles _ _ _ => True | Matrix m => rotation m end.
