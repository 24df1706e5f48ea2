(** Model of the conversions between energy, speed, wave number, wavelength (packages/): mcni/lib/neutron/{units_conversion.h,units_conversion.cc},
    mcni/python/mcni/utils/{constants.py,conversion.py}, the expressions of mcni/python/mcni/pyre_components/_ndmonitor.py, the macros of
    legacycomponents/mcstas2/lib/{phys_constants.h,mcstas-r.h}; and of the translation of neutrons to and from MCPL files:
    mcni/lib/neutron/to_mcpl.cc, mcni/python/mcni/neutron_storage/mcpl.py.

    Doubles are reals.  Where a double may be nan the model has [option R], None being nan. *)
From Coq Require Import Reals.
From Verif Require Import Base RotModel ChanModel ShapeModel.
Open Scope R_scope.

(** ** C++ *)

(* physical_constants: units_conversion.h:23-32 *)
Definition neutron_mass : R := 16749286 / 10 ^ 34.
(* in the group above: units_conversion.h:23-32 *)
Definition electron_charge : R := 160217733 / 10 ^ 27.
(* in the group above: units_conversion.h:23-32 *)
Definition hbar : R := 1054571628 / 10 ^ 43.
(* k2v, v2k, sqrte2v, vsq2e: units_conversion.h:45-61 *)
Definition k2v : R := hbar / neutron_mass * 10 ^ 10.
(* in the group above: units_conversion.h:45-61 *)
Definition v2k : R := 1 / k2v.
(* in the group above: units_conversion.h:45-61 *)
Definition sqrte2v : R := sqrt (2 / 1000 * electron_charge / neutron_mass).
(* in the group above: units_conversion.h:45-61 *)
Definition vsq2e : R := neutron_mass / (2 / 1000 * electron_charge).
(* std::sqrt and numpy.sqrt: nan for negative numbers; units_conversion.cc:15, conversion.py:30-31 *)
Definition fsqrt (x : R) : option R := if Rltb x 0 then None else Some (sqrt x).
(* E2v: units_conversion.cc:14-16 *)
Definition E2v (energy : R) : option R := option_map (fun s => s * sqrte2v) (fsqrt energy).
(* v2E: units_conversion.cc:18-20 *)
Definition v2E (velocity : R) : R := velocity * velocity * vsq2e.
(* vsquare2E: units_conversion.cc:22-24 *)
Definition vsquare2E (vsquare : R) : R := vsquare * vsq2e.
(* ksquare2E: units_conversion.cc:26-28 *)
Definition ksquare2E (ksquare : R) : R := vsquare2E (k2v * k2v * ksquare).
(* k2E: units_conversion.cc:30-33 *)
Definition k2E (k : R) : R := ksquare2E (k * k).
(* E2k: units_conversion.cc:35-38 *)
Definition E2k (E : R) : option R := option_map (fun v => v * v2k) (E2v E).

(** ** Python *)

(* constants: constants.py:16-26 *)
Definition py_PI : R := 314159265 / 10 ^ 8.
(* in the group above: constants.py:16-26 *)
Definition py_mN : R := 16749286 / 10 ^ 34.
(* in the group above: constants.py:16-26 *)
Definition py_e : R := 160217733 / 10 ^ 27.
(* in the group above: constants.py:16-26 *)
Definition py_hbar : R := 1054571628 / 10 ^ 43.
(* constants: conversion.py:17-24 *)
Definition py_K2V : R := py_hbar / py_mN * 10 ^ 10.
(* in the group above: conversion.py:17-24 *)
Definition py_V2K : R := 1 / py_K2V.
(* in the group above: conversion.py:17-24 *)
Definition py_SE2V : R := sqrt (2 / 1000 * py_e / py_mN).
(* in the group above: conversion.py:17-24 *)
Definition py_VS2E : R := py_mN / (2 / 1000 * py_e).
(* in the group above: conversion.py:17-24 *)
Definition py_RV2W : R := 2 * py_PI * py_K2V.
(* v2k, e2v, e2k, k2v, v2e, k2e: conversion.py:27-39 *)
Definition py_v2k (vel : R) : R := py_V2K * vel.
(* in the group above: conversion.py:27-39 *)
Definition py_e2v (energy : R) : option R := option_map (fun s => s * py_SE2V) (fsqrt energy).
(* in the group above: conversion.py:27-39 *)
Definition py_e2k (energy : R) : option R := option_map py_v2k (py_e2v energy).
(* in the group above: conversion.py:27-39 *)
Definition py_k2v (k : R) : R := py_K2V * k.
(* in the group above: conversion.py:27-39 *)
Definition py_v2e (v : R) : R := v * v * py_VS2E.
(* in the group above: conversion.py:27-39 *)
Definition py_k2e (k : R) : R := py_v2e (py_k2v k).
(* the quantities energy, w and q of a monitor: _ndmonitor.py:45-56; the wavelength of a neutron at rest is inf *)
Definition nd_energy (v : vec3) : R := py_VS2E * (vx v * vx v + vy v * vy v + vz v * vz v).
(* _ndmonitor.py:45-56 *)
Definition nd_wavelength (v : vec3) : option R :=
  let s := sqrt (vx v * vx v + vy v * vy v + vz v * vz v) in if Req_EM_T s 0 then None else Some (py_RV2W * 1 / s).
(* _ndmonitor.py:45-56 *)
Definition nd_wavevector (v : vec3) : R := py_V2K * sqrt (vx v * vx v + vy v * vy v + vz v * vz v).

(** ** McStas components *)

(* K2V, V2K, SE2V, VS2E of components built with mcstas2.h: phys_constants.h:25-32 *)
Definition ph_K2V : R := 629719 / 1000.
(* in the group above: phys_constants.h:25-32 *)
Definition ph_V2K : R := 158801 / 10 ^ 8.
(* in the group above: phys_constants.h:25-32 *)
Definition ph_SE2V : R := 4373949 / 10 ^ 4.
(* in the group above: phys_constants.h:25-32 *)
Definition ph_VS2E : R := 5227 / 10 ^ 9.
(* the same of the McStas run time: mcstas-r.h:572-579 *)
Definition rt_K2V : R := 629622368 / 10 ^ 6.
(* mcstas-r.h:572-579 *)
Definition rt_V2K : R := 158825361 / 10 ^ 11.
(* mcstas-r.h:572-579 *)
Definition rt_SE2V : R := 437393377 / 10 ^ 6.
(* mcstas-r.h:572-579 *)
Definition rt_VS2E : R := 522703725 / 10 ^ 14.

(** ** MCPL *)

(* mcpl_particle_t, as far as it is written or read: to_mcpl.cc:58-84, mcpl.py:21-36.  Library and file are taken to return the particles written *)
Record particle := mkPt { pt_pdg : Z; pt_position : vec3; pt_ekin : R; pt_direction : option vec3; pt_polarisation : vec3; pt_time : R; pt_weight : R }.
(* the body of the loop of write_mcpl: to_mcpl.cc:56-84; the direction of a neutron at rest is nan *)
Definition to_particle (event : event) : particle :=
  let v := e_v event in
  let vl := vnorm v in
  let ct := cos (e_s1 event) in let st := sin (e_s1 event) in
  let cp := cos (e_s2 event) in let sp := sin (e_s2 event) in
  mkPt 2112 (mkV (vx (e_r event) * 100) (vy (e_r event) * 100) (vz (e_r event) * 100)) (v2E vl / 10 ^ 9)
       (if Req_EM_T vl 0 then None else Some (mkV (vx v / vl) (vy v / vl) (vz v / vl)))
       (mkV (st * sp) ct (st * cp)) (e_t event * 10 ^ 3) (e_p event).
(* write_mcpl: to_mcpl.cc:19-90; mcv2mcpl: mcpl.py:49-54 *)
Definition mcv2mcpl (buffer : list event) : list particle := map to_particle buffer.

(* numpy.arctan2(y,x), signed zeros aside: mcpl.py:31 *)
Definition arctan2 (y x : R) : R :=
  if Rltb 0 x then atan (y / x)
  else if Rltb x 0 then (if Rltb y 0 then atan (y / x) - PI else atan (y / x) + PI)
  else if Rltb 0 y then PI / 2 else if Rltb y 0 then - (PI / 2) else 0.
(* one row of the array made from a block of particles: mcpl.py:20-36; None when there is nan in the velocity *)
Definition of_particle (pb : particle) : option event :=
  let ss := vx (pt_polarisation pb) * vx (pt_polarisation pb) + vy (pt_polarisation pb) * vy (pt_polarisation pb) + vz (pt_polarisation pb) * vz (pt_polarisation pb) in
  let s1 := if Rltb 0 ss then acos (vy (pt_polarisation pb) / sqrt ss) else 0 in
  let s2 := if Rltb 0 ss then arctan2 (vx (pt_polarisation pb)) (vz (pt_polarisation pb)) else 0 in
  match py_e2v (pt_ekin pb * 10 ^ 9), pt_direction pb with
  | Some v, Some d => Some (mkE (mkV (vx (pt_position pb) / 100) (vy (pt_position pb) / 100) (vz (pt_position pb) / 100)) (vscale v d) s1 s2 (pt_time pb / 10 ^ 3) (pt_weight pb))
  | _, _ => None
  end.
(* mcpl2mcv: mcpl.py:14-47.  [blocks] are the blocks in which the library hands out the particles; a file without any raises (concatenate) *)
Definition mcpl2mcv (blocks : list (list particle)) (scale_by_number_of_packets : bool) : result (list (option event)) :=
  match blocks with
  | [] => Err ValueError
  | _ =>
      let arr := map of_particle (List.concat blocks) in
      Ok (if scale_by_number_of_packets
          then map (option_map (fun ev => mkE (e_r ev) (e_v ev) (e_s1 ev) (e_s2 ev) (e_t ev) (e_p ev * INR (List.length arr)))) arr
          else arr)
  end.
