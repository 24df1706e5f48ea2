(** Sources of neutrons: packages/mcni/python/mcni/components/MonochromaticSource.py and NeutronsOnCone_FixedQE.py, and
    pyre_components/MonochromaticSource.py.

    Floats are reals; None is a neutron with nan for its velocity.  [n] is the number of neutrons in the buffer.  The i-th number of a random array is
    the value of a function at i. *)
From Coq Require Import Reals.
From Verif Require Import Base RotModel ChanModel ShapeModel UnitModel.
Open Scope R_scope.

(* members: MonochromaticSource.py:36-41 *)
Record source := mkSrc { s_neutron : event; s_dx : R; s_dy : R; s_dE : R }.
(* arr[:, 0] += (random-0.5)*dx, arr[:, 1] += (random-0.5)*dy: MonochromaticSource.py:63-66 and 95-98 *)
Definition displaced (s : source) (ux uy : R) : event :=
  let ev := s_neutron s in
  RotModel.mkE (mkV (vx (e_r ev) + (ux - 1 / 2) * s_dx s) (vy (e_r ev) + (uy - 1 / 2) * s_dy s) (vz (e_r ev))) (e_v ev) (e_s1 ev) (e_s2 ev) (e_t ev) (e_p ev).
(* arr[:, 3:6] *= scale_factors: MonochromaticSource.py:70-78; [z] is the standard normal number, the sample is E0 + dE z; energy(): lib/neutron/State.icc:37-40 *)
Definition spread (s : source) (z : R) (ev : event) : option event :=
  let E0 := v2E (vnorm (e_v (s_neutron s))) in
  let sample := E0 + s_dE s * z in
  if Reqb E0 0 then None
  else match fsqrt (sample / E0) with
       | None => None
       | Some f => Some (RotModel.mkE (e_r ev) (mkV (vx (e_v ev) * f) (vy (e_v ev) * f) (vz (e_v ev) * f)) (e_s1 ev) (e_s2 ev) (e_t ev) (e_p ev))
       end.
(* the process that __init__ chooses: MonochromaticSource.py:42-47, with _process 53-81, _process_area 86-101, _process_0 105-108; numpy.random.normal refuses
   a negative scale *)
Definition source_process (s : source) (n : nat) (ux uy z : nat -> R) : result (list (option event)) :=
  if Reqb (s_dx s) 0 && Reqb (s_dy s) 0 && Reqb (s_dE s) 0 then Ok (repeat (Some (s_neutron s)) n)
  else if Reqb (s_dE s) 0 then Ok (map (fun i => Some (displaced s (ux i) (uy i))) (seq 0 n))
  else if Rltb (s_dE s) 0 then Err ValueError
  else Ok (map (fun i => spread s (z i) (displaced s (ux i) (uy i))) (seq 0 n)).

(* len(..)==3 and the elements: pyre_components/MonochromaticSource.py:74, 93 *)
Definition three (l : list R) : result vec3 := match l with [x; y; z] => Ok (mkV x y z) | _ => Err AssertionError end.
(* the velocity, nan for a negative energy or a velocity of zero: pyre_components/MonochromaticSource.py:73-86 *)
Definition pyre_velocity (energy : R) (velocity : vec3) : option vec3 :=
  if Reqb energy 0 then Some velocity
  else match py_e2v energy with
       | None => None
       | Some v => if Reqb (vnorm velocity) 0 then None
                   else let f := v / vnorm velocity in Some (mkV (vx velocity * f) (vy velocity * f) (vz velocity * f))
       end.
(* _configure and _init: pyre_components/MonochromaticSource.py:71-115; the spin is that of mcni.neutron, bindings/boostpython/__init__.py:37.  None: nan velocity *)
Definition pyre_source (energy energy_width : R) (velocity position : list R) (width height time probability : R) : result (option source) :=
  let! v := three velocity in
  if Rltb energy_width 0 then Err ValueError
  else let! r := three position in
       Ok (option_map (fun v => mkSrc (RotModel.mkE r v 0 1 time probability) width height energy_width) (pyre_velocity energy v)).

(* members: NeutronsOnCone_FixedQE.py:46-51 *)
Record cone_source := mkConeS { cs_vz : R; cs_vp : R; cs_t0 : R }.
(* __init__: NeutronsOnCone_FixedQE.py:29-52; comparisons with nan fail *)
Definition new_cone_source (Q E Ei L1 : R) : result cone_source :=
  let Ef := Ei - E in
  match py_e2k Ei, py_e2k Ef, py_e2v Ef, py_e2v Ei with
  | Some ki, Some kf, Some vf, Some vi =>
      if Rltb (Rabs (kf - ki)) Q && Rltb Q (ki + kf) then
        let cost := (ki * ki + kf * kf - Q * Q) / 2 / ki / kf in
        let theta := acos cost in
        Ok (mkConeS (vf * cos theta) (vf * sin theta) (L1 / vi))
      else Err AssertionError
  | _, _, _, _ => Err AssertionError
  end.
(* process: NeutronsOnCone_FixedQE.py:55-71 *)
Definition cone_process (s : cone_source) (n : nat) (u : nat -> R) : list event :=
  map (fun i => let phi := u i * 2 * PI in RotModel.mkE (mkV 0 0 0) (mkV (cs_vp s * cos phi) (cs_vp s * sin phi) (cs_vz s)) 0 1 (cs_t0 s) 1) (seq 0 n).
