(** Channel numbers of a position-sensitive tube: time of flight and position along the tube.
    packages/mccomponents/lib/kernels/detector/{Tof2Channel.icc,Z2Channel.icc,He3Tube.cc},
    packages/mccomponents/python/mccomponents/detector/ComputationEngineRendererExtension.py.

    Numbers are real numbers: rounding is not modelled. *)
From Coq Require Import Reals Lra.
From Verif Require Import Base RotModel DetModel.
Open Scope R_scope.

(* floor of the C library: Z2Channel.icc:48; the largest integer not above x *)
Definition floorZ (x : R) : Z := Int_part x.
(* conversion of a double to int in C++: Tof2Channel.icc:44, Z2Channel.icc:48.  The fraction is dropped; the behaviour is undefined when the result is
   not in the range of int *)
Definition truncZ (x : R) : Z := if Rlt_dec x 0 then (- floorZ (- x))%Z else floorZ x.
(* the conversion to int with its range: Tof2Channel.icc:44, Z2Channel.icc:48 *)
Definition cint (x : R) : result Z :=
  let z := truncZ x in
  if ((- 2 ^ 31 <=? z) && (z <? 2 ^ 31))%Z%bool then Ok z else Err UndefinedBehaviour.

(* the comparison a <= b of doubles in C++: Tof2Channel.icc:18, 27, 42, Z2Channel.icc:23 *)
Definition Rleb (a b : R) : bool := if Rle_dec a b then true else false.

(* Tof2Channel: Tof2Channel.icc:10-34 *)
Record tof2channel := mkT2C { tofmin : R; tofmax : R; tofstep : R }.
Definition new_tof2channel (tmin tmax tstep : R) : result tof2channel :=
  if Rleb tmax tmin then Err CppException          (* 18-25 *)
  else if Rleb tstep 0 then Err CppException       (* 27-33 *)
  else Ok (mkT2C tmin tmax tstep).
(* operator(): Tof2Channel.icc:37-45 *)
Definition tof_channel (c : tof2channel) (tof : R) : result Z :=
  if (Rltb tof (tofmin c) || Rleb (tofmax c) tof)%bool then Ok (-1)%Z      (* 42 *)
  else cint ((tof - tofmin c) / tofstep c).                                (* 44 *)

(* Z2Channel: Z2Channel.icc:12-38.  The quotient detlength/npixels of line 16 is computed before the tests and is infinite
   or nan for npixels = 0; it is not used then *)
Record z2channel := mkZ2C { pixelheight : R; npixels : Z; axisDirection : vec3; channel0Coords : vec3 }.
Definition new_z2channel (detlength : R) (n : Z) (axis c0 : vec3) : result z2channel :=
  if Rleb detlength 0 then Err CppException         (* 23-29 *)
  else if (n =? 0)%Z then Err CppException          (* 31-37 *)
  else Ok (mkZ2C (detlength / IZR n) n axis c0).
(* the scalar product operator| of vectors: packages/mcni/lib/geometry/Vector3.icc *)
Definition vdot (a b : vec3) : R := vx a * vx b + vy a * vy b + vz a * vz b.
(* operator(): Z2Channel.icc:41-53 *)
Definition z_channel (c : z2channel) (r : vec3) : result Z :=
  let z := vdot (vsub r (channel0Coords c)) (axisDirection c) in           (* 46 *)
  let! n := cint (IZR (floorZ (z / pixelheight c + / 2))) in               (* 48 *)
  if ((n <? 0) || (npixels c <=? n))%Z%bool then Ok (-1)%Z else Ok n.          (* 50-52 *)

(* He3Tube::absorb: He3Tube.cc:38-46; the weight is the opaque word of DetModel.v *)
Definition absorb (dims file : list Z) (tube_channels : list Z) (zc : z2channel) (tc : tof2channel)
  (r : vec3) (t : R) (w : Z) : result (list Z) :=
  let! k := z_channel zc r in
  let! c := tof_channel tc t in
  accept dims file (tube_channels ++ [k; c]) w.

(* numpy.linalg.norm and division of a vector by a number: ComputationEngineRendererExtension.py:113-114 *)
Definition vnorm (a : vec3) : R := sqrt (vdot a a).
(* in the group above: ComputationEngineRendererExtension.py:113-114 *)
Definition vdiv (a : vec3) (l : R) : vec3 := mkV (vx a / l) (vy a / l) (vz a / l).
(* the position channel built by onHe3Tube from the positions of the pixels, in metres:
   ComputationEngineRendererExtension.py:89-91, 108-125.  (Lines 98-106, the test that the pixels are inside the shape of the tube, are not modelled.)  No pixel: pixels[0] raises
   IndexError (109).  One pixel: len1 * npixels / (npixels-1) raises ZeroDivisionError (116). *)
Definition tube_z2channel (pixels : list vec3) : result z2channel :=
  match pixels with
  | [] => Err IndexError
  | p0 :: _ =>
      let n := Z.of_nat (List.length pixels) in
      let axis := vsub (last pixels p0) p0 in                       (* 109-110 *)
      let len1 := vnorm axis in                                     (* 113 *)
      if (n =? 1)%Z then Err ZeroDivisionError                      (* 116 *)
      else new_z2channel (len1 * IZR n / IZR (n - 1)) n (vdiv axis len1) p0    (* 114-125 *)
  end.
