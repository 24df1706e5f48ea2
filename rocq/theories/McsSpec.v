(** Vocabulary for C77 and C78. *)
From Coq Require Import Reals.
From Verif Require Import Base RotModel RotSpec ShapeModel ShapeSpec ConeSpec.
Open Scope R_scope.

(** The time a line is in a closed body: from [t0] to [t1]. *)
Definition inside_from_to (body : vec3 -> Prop) (r v : vec3) (t0 t1 : R) : Prop := t0 <= t1 /\ forall t, body (on_line r v t) <-> t0 <= t <= t1.
(** The point of a body with its axis along z that stands for a point of the same body with its axis along y. *)
Definition upright (p : vec3) : vec3 := mkV (vz p) (vx p) (vy p).
(** A closed cylinder along y, and the same without its surface. *)
Definition closed_cylinder (r h : R) (p : vec3) : Prop := solid (Cylinder r h) (upright p).
Definition open_cylinder (r h : R) (p : vec3) : Prop := core (Cylinder r h) (upright p).
(** The distance from the axis y, squared. *)
Definition axis_dist2 (p : vec3) : R := vx p * vx p + vz p * vz p.
(** What the bits of [k] say about the ends [t0] and [t1] of a path through an upright cylinder: 2 and 4 for entering by the top and the bottom, 8 and 16 for leaving by
    them, and otherwise the end is on the side. *)
Definition bits_ok (r h : R) (p v : vec3) (t0 t1 : R) (k : Z) : Prop :=
  Z.testbit k 0 = true /\
  (Z.testbit k 1 = true -> vy (on_line p v t0) = h / 2) /\ (Z.testbit k 2 = true -> vy (on_line p v t0) = - h / 2) /\
  (Z.testbit k 3 = true -> vy (on_line p v t1) = h / 2) /\ (Z.testbit k 4 = true -> vy (on_line p v t1) = - h / 2) /\
  (Z.testbit k 1 = false -> Z.testbit k 2 = false -> axis_dist2 (on_line p v t0) = r * r) /\
  (Z.testbit k 3 = false -> Z.testbit k 4 = false -> axis_dist2 (on_line p v t1) = r * r).

(** The rotation by [phi] about the unit vector [e], counterclockwise as seen from its tip. *)
Definition turned (e : vec3) (phi : R) (v : vec3) : vec3 :=
  vadd (vscale (cos phi) v) (vadd (vscale (sin phi) (vcross e v)) (vscale ((1 - cos phi) * sdot e v) e)).
(** Coordinates in a frame that is turned by [phi] about one axis. *)
Definition about_x (phi : R) (p : vec3) : vec3 := mkV (vx p) (cos phi * vy p + sin phi * vz p) (cos phi * vz p - sin phi * vy p).
Definition about_y (phi : R) (p : vec3) : vec3 := mkV (cos phi * vx p - sin phi * vz p) (vy p) (cos phi * vz p + sin phi * vx p).
Definition about_z (phi : R) (p : vec3) : vec3 := mkV (cos phi * vx p + sin phi * vy p) (cos phi * vy p - sin phi * vx p) (vz p).
(** Where directions are aimed at, and the cosine of the half opening of their cone: all directions for radius 0. *)
Definition aim (c : vec3) (r : R) : vec3 := if Req_EM_T r 0 then mkV 0 (sqrt (norm2 c)) 0 else c.
Definition opening (c : vec3) (r : R) : R := if Req_EM_T r 0 then -1 else half_opening c r.
(** The point at [x], [y] of the plane through [c] with axes [n] and [m]. *)
Definition in_plane (c n m : vec3) (x y : R) : vec3 := vadd c (vadd (vscale x n) (vscale y m)).
(** The solid angle times a function of the vector. *)
Definition weigh (G : vec3 -> R) (o : vec3 * R) : R := snd o * G (fst o).
Definition weigh_some (G : vec3 -> R) (o : option (vec3 * R)) : R := match o with Some o => weigh G o | None => 0 end.
Definition weigh_ok (G : vec3 -> R) (o : result (vec3 * R)) : R := match o with Ok o => weigh G o | Err _ => 0 end.
