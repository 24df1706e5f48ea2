(** Orientations, changes of coordinate system.
    packages/mcni/python/mcni/neutron_coordinates_transformers/ (mcstasRotations.py, mcstas.py, utils.py,
    AbstractNeutronCoordinatesTransformer.py), packages/mcni/python/mcni/coordinate_system_transformers/mcstas.py,
    packages/mcni/python/mcni/bindings/boostpython/__init__.py, packages/mcni/lib/neutron/coords_transform.{cc,icc},
    packages/mcni/lib/geometry/{coords_transform.icc,Matrix3.icc,matrix3_operators.h}.

    Numbers are real numbers: rounding is not modelled. *)
From Coq Require Import Reals Lra.
From Verif Require Import Base.
Open Scope R_scope.

(* mcni::Vector3, 3-vectors of numpy: lib/geometry/Vector3.h *)
Record vec3 := mkV { vx : R; vy : R; vz : R }.
(* 3X3 matrices, rows first: lib/geometry/Matrix3.icc:58-67, zeros((3,3)) in mcstasRotations.py:139 *)
Record mat3 := mkM { m00 : R; m01 : R; m02 : R; m10 : R; m11 : R; m12 : R; m20 : R; m21 : R; m22 : R }.

(* operators of Vector3 and of numpy arrays: lib/geometry/Vector3.icc *)
Definition vadd (a b : vec3) : vec3 := mkV (vx a + vx b) (vy a + vy b) (vz a + vz b).
(* subtraction: lib/geometry/Vector3.icc *)
Definition vsub (a b : vec3) : vec3 := mkV (vx a - vx b) (vy a - vy b) (vz a - vz b).
(* dot_mv: lib/geometry/matrix3_operators.h:21-30; numpy.dot(m, v) of mcstas.py:20 *)
Definition dot_mv (m : mat3) (v : vec3) : vec3 :=
  mkV (m00 m * vx v + m01 m * vy v + m02 m * vz v)
      (m10 m * vx v + m11 m * vy v + m12 m * vz v)
      (m20 m * vx v + m21 m * vy v + m22 m * vz v).
(* Matrix3::transpose: lib/geometry/Matrix3.icc:100-111; m.T of numpy *)
Definition transpose (m : mat3) : mat3 :=
  mkM (m00 m) (m10 m) (m20 m) (m01 m) (m11 m) (m21 m) (m02 m) (m12 m) (m22 m).
(* mat(a)*mat(b) of numpy: neutron_coordinates_transformers/mcstas.py:12, coordinate_system_transformers/mcstas.py:30 *)
Definition matmul (a b : mat3) : mat3 :=
  mkM (m00 a * m00 b + m01 a * m10 b + m02 a * m20 b)
      (m00 a * m01 b + m01 a * m11 b + m02 a * m21 b)
      (m00 a * m02 b + m01 a * m12 b + m02 a * m22 b)
      (m10 a * m00 b + m11 a * m10 b + m12 a * m20 b)
      (m10 a * m01 b + m11 a * m11 b + m12 a * m21 b)
      (m10 a * m02 b + m11 a * m12 b + m12 a * m22 b)
      (m20 a * m00 b + m21 a * m10 b + m22 a * m20 b)
      (m20 a * m01 b + m21 a * m11 b + m22 a * m21 b)
      (m20 a * m02 b + m21 a * m12 b + m22 a * m22 b).

(* utils.py:36-43 *)
Definition toradian (a : R) : R := a * PI / 180.
(* utils.py:36-43 *)
Definition todegree (a : R) : R := a * 180 / PI.

(* unit.lower() of a Python string (ASCII): mcstasRotations.py:129, 192 *)
Definition lower_char (c : Ascii.ascii) : Ascii.ascii :=
  let n := Ascii.nat_of_ascii c in
  if (Nat.leb 65 n && Nat.leb n 90)%bool then Ascii.ascii_of_nat (n + 32) else c.
(* in the group above: mcstasRotations.py:129, 192 *)
Fixpoint lower (s : string) : string :=
  match s with EmptyString => EmptyString | String c s' => String (lower_char c) (lower s') end.
(* unit.lower()=='degree' or unit.lower()=='deg': mcstasRotations.py:129, 192 *)
Definition is_degree (unit : string) : bool :=
  (String.eqb (lower unit) "degree" || String.eqb (lower unit) "deg")%bool.

(* _toMatrix: mcstasRotations.py:118-150 *)
Definition toMatrix_ (phx phy phz : R) (unit : string) : mat3 :=
  let phx := if is_degree unit then toradian phx else phx in
  let phy := if is_degree unit then toradian phy else phy in
  let phz := if is_degree unit then toradian phz else phz in
  let cx := cos phx in let sx := sin phx in
  let cy := cos phy in let sy := sin phy in
  let cz := cos phz in let sz := sin phz in
  mkM (cy*cz) (sx*sy*cz + cx*sz) (sx*sz - cx*sy*cz)
      (- cy*sz) (cx*cz - sx*sy*sz) (sx*cz + cx*sy*sz)
      sy (- sx*cy) (cx*cy).

(* what is accepted as an orientation: three angles or a matrix (isMatrix3, isVector3: utils.py:14-33).  Other arguments, for which
   toMatrix raises SyntaxError (mcstasRotations.py:113-114) and toAngles TypeError (166), are not modelled. *)
Inductive ori := Angles (phx phy phz : R) | Matrix (m : mat3).
(* toMatrix: mcstasRotations.py:59-115 *)
Definition toMatrix (o : ori) (unit : string) : mat3 :=
  match o with Matrix m => m | Angles a b c => toMatrix_ a b c unit end.

(* comparisons of floats as booleans *)
Definition Rltb (a b : R) : bool := if Rlt_dec a b then true else false.

(* numpy.arctan2 (used in mcstasRotations.py:170-176), not code of /repo: the angle of the point (x, y), in (-pi, pi] *)
Definition arctan2 (y x : R) : R :=
  if Rltb 0 x then atan (y / x)
  else if Rltb x 0 then (if Rltb y 0 then atan (y / x) - PI else atan (y / x) + PI)
  else if Rltb 0 y then PI / 2 else if Rltb y 0 then - (PI / 2) else 0.

(* numpy.arcsin is Coq's asin on [-1, 1]; outside it is nan (None): mcstasRotations.py:177 *)
Definition arcsin (x : R) : option R :=
  if Rltb 1 x then None else if Rltb x (-1) then None else Some (asin x).

(* 1e-8: mcstasRotations.py:168-186 *)
Definition tol : R := / 100000000.

(* one pass of the loop 180-187 of mcstasRotations.py: does it raise? *)
Definition differs (m1 m : R) : bool :=
  if Rltb (Rabs m) tol then Rltb tol (Rabs (m1 - m)) else Rltb tol (Rabs ((m1 - m) / m)).
(* the loop over all elements: mcstasRotations.py:180-187 *)
Definition conversion_failed (m1 m : mat3) : bool :=
  (differs (m00 m1) (m00 m) || differs (m01 m1) (m01 m) || differs (m02 m1) (m02 m) ||
   differs (m10 m1) (m10 m) || differs (m11 m1) (m11 m) || differs (m12 m1) (m12 m) ||
   differs (m20 m1) (m20 m) || differs (m21 m1) (m21 m) || differs (m22 m1) (m22 m))%bool.

(* toAngles: mcstasRotations.py:152-195.  With |m[2][0]| > 1 the angle y is nan and so are the entries of m1; a comparison with nan is
   False, so the nan angles are returned without an error: None. *)
Definition toAngles (o : ori) (unit : string) : result (option (R * R * R)) :=
  match o with
  | Angles a b c => Ok (Some (a, b, c))                                                   (* 164 *)
  | Matrix m =>
      let '(x, z) :=
        if Rltb (1 - tol) (m20 m) then (0, arctan2 (m01 m) (m11 m))                       (* 168-170 *)
        else if Rltb (m20 m) (tol - 1) then (0, arctan2 (m01 m) (m11 m))                  (* 171-173 *)
        else (arctan2 (- m21 m) (m22 m), arctan2 (- m10 m) (m00 m)) in                    (* 174-176 *)
      match arcsin (m20 m) with                                                           (* 177 *)
      | None => Ok None
      | Some y =>
          let m1 := toMatrix_ x y z "radian" in                                           (* 178 *)
          if conversion_failed m1 m then Err RuntimeError                                 (* 179-191 *)
          else if is_degree unit then Ok (Some (todegree x, todegree y, todegree z))      (* 192-193 *)
          else Ok (Some (x, y, z))                                                        (* 195 *)
      end
  end.

(** ** Relative and absolute positions *)
(* relativePositionOrientation: neutron_coordinates_transformers/mcstas.py:5-21 *)
Definition relativePositionOrientation (p1 : vec3) (o1 : ori) (p2 : vec3) (o2 : ori) : vec3 * mat3 :=
  let rotmat2 := toMatrix o2 "degree" in
  let rotmat1 := toMatrix o1 "degree" in
  let m := matmul rotmat2 (transpose rotmat1) in
  let r12abs := vsub p2 p1 in
  (dot_mv rotmat1 r12abs, m).

(* transformCoordinateSystem: coordinate_system_transformers/mcstas.py:26-31 *)
Definition transformCoordinateSystem (p1 : vec3) (o1 : ori) (relpos : vec3) (relori : ori) : vec3 * mat3 :=
  let o1 := toMatrix o1 "degree" in
  let relori := toMatrix relori "degree" in
  (vadd p1 (dot_mv (transpose o1) relpos), matmul relori o1).

(** ** Neutrons *)
(* mcni::Neutron::Event: lib/neutron/Event.h, State.h, Spin.h *)
Record event := mkE { e_r : vec3; e_v : vec3; e_s1 : R; e_s2 : R; e_t : R; e_p : R }.

(* is_almost_I, is_almost_0: lib/neutron/coords_transform.icc:19-40 *)
Definition small (x : R) : bool := negb (Rltb tol (Rabs x)).
(* lib/neutron/coords_transform.icc:19-40 *)
Definition is_almost_I (m : mat3) : bool :=
  (small (m00 m - 1) && small (m01 m) && small (m02 m) &&
   small (m10 m) && small (m11 m - 1) && small (m12 m) &&
   small (m20 m) && small (m21 m) && small (m22 m - 1))%bool.
(* lib/neutron/coords_transform.icc:19-40 *)
Definition is_almost_0 (v : vec3) : bool := (small (vx v) && small (vy v) && small (vz v))%bool.

(* abs2rel, rel2abs of one event: lib/neutron/coords_transform.icc:43-72, lib/geometry/coords_transform.icc:19-79 *)
Definition abs2rel (ev : event) (p : vec3) (m : mat3) : event :=
  mkE (dot_mv m (vsub (e_r ev) p)) (dot_mv m (e_v ev)) (e_s1 ev) (e_s2 ev) (e_t ev) (e_p ev).
(* without rotation: lib/neutron/coords_transform.icc:43-72 *)
Definition abs2rel_fast (ev : event) (p : vec3) : event :=
  mkE (vsub (e_r ev) p) (e_v ev) (e_s1 ev) (e_s2 ev) (e_t ev) (e_p ev).
(* lib/neutron/coords_transform.icc:43-72, lib/geometry/coords_transform.icc:19-79 *)
Definition rel2abs (ev : event) (p : vec3) (m : mat3) : event :=
  mkE (vadd (dot_mv (transpose m) (e_r ev)) p) (dot_mv (transpose m) (e_v ev)) (e_s1 ev) (e_s2 ev) (e_t ev) (e_p ev).
(* without rotation: lib/neutron/coords_transform.icc:43-72 *)
Definition rel2abs_fast (ev : event) (p : vec3) : event :=
  mkE (vadd (e_r ev) p) (e_v ev) (e_s1 ev) (e_s2 ev) (e_t ev) (e_p ev).

(* abs2rel_batch, rel2abs_batch: lib/neutron/coords_transform.cc:79-108 *)
Definition abs2rel_batch (buffer : list event) (p : vec3) (m : mat3) : list event :=
  if (is_almost_0 p && is_almost_I m)%bool then buffer
  else if is_almost_I m then map (fun ev => abs2rel_fast ev p) buffer
  else map (fun ev => abs2rel ev p m) buffer.
(* lib/neutron/coords_transform.cc:79-108 *)
Definition rel2abs_batch (buffer : list event) (p : vec3) (m : mat3) : list event :=
  if (is_almost_0 p && is_almost_I m)%bool then buffer
  else if is_almost_I m then map (fun ev => rel2abs_fast ev p) buffer
  else map (fun ev => rel2abs ev p m) buffer.

(* AbstractNeutronCoordinatesTransformer.__call__ (:41-59) with applyOffsetRotation of the binding
   (bindings/boostpython/__init__.py:41-48) *)
Definition change_coordinates (neutrons : list event) (oldp : vec3) (oldo : ori) (newp : vec3) (newo : ori) : list event :=
  let '(offset, rotation) := relativePositionOrientation oldp oldo newp newo in
  abs2rel_batch neutrons offset rotation.
