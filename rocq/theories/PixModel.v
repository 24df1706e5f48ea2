(** Absorption coefficients and a detector pixel: packages/mccomponents/lib/homogeneous_scatterer/{InverseVelocityAbsorption.cc,
    InterpolateAbsorptionFromCurve.cc,DGSSXResPixel.cc}, lib/math/search.icc, lib/kernels/detector/He3.cc, lib/kernels/IsotropicKernel.cc,
    python/mccomponents/detector/__init__.py, python/mccomponents/components/DGSSXResPixel.py.

    Doubles are reals.  A division by zero (inf in C++) is None or an error.  A failed assert ends the program: Terminated. *)
From Coq Require Import Reals.
From Verif Require Import Base RotModel ChanModel ShapeModel ScatModel UnitModel CmpsModel.
Open Scope R_scope.

(* InverseVelocityAbsorption::operator(): InverseVelocityAbsorption.cc:14-19 *)
Definition inverse_velocity (mu_at_2200 : R) (ev : event) : option R :=
  let v := vnorm (e_v ev) in if Reqb v 0 then None else Some (mu_at_2200 * (2200 / v)).

(* the asserts in the loop of the constructor: InterpolateAbsorptionFromCurve.cc:16-18 *)
Fixpoint increasing (energies : list R) : bool :=
  match energies with
  | e1 :: ((e2 :: _) as l) => if Rltb e1 e2 then increasing l else false
  | _ => true
  end.
(* the constructor: InterpolateAbsorptionFromCurve.cc:10-19; for empty curves the unsigned limit of the loop wraps around and the elements are read
   beyond the end *)
Definition new_curve (energies mus : list R) : result (list R * list R) :=
  if negb (List.length energies =? List.length mus)%nat then Err Terminated
  else match energies with
       | [] => Err UndefinedBehaviour
       | _ => if increasing energies then Ok (energies, mus) else Err Terminated
       end.
(* the while loop of find_1st_bin_larger_than and what follows: search.icc:18-27.  At its end [start] is [last] or the loop was left with [res] set *)
Fixpoint bisect (fuel : nat) (x : R) (xs : list R) (start last : nat) : result nat :=
  match fuel with
  | O => Err OutOfFuel
  | S fuel =>
      if (start <? last)%nat then
        if (last =? start + 1)%nat then Ok last
        else let middle := ((start + last) / 2)%nat in
             let y := nth middle xs 0 in
             if Reqb y x then Ok middle
             else if Rltb y x then bisect fuel x xs middle last else bisect fuel x xs start middle
      else if (start =? last)%nat then Ok start else Err UndefinedBehaviour
  end.
(* find_1st_bin_larger_than: search.icc:11-28; the length of the interval falls in every round, so that as many rounds as there are values are enough *)
Definition find_1st_bin_larger_than (x : R) (xs : list R) : result nat :=
  match xs with
  | [] => Err UndefinedBehaviour
  | _ => let n := List.length xs in
         if Rleb (nth (n - 1) xs 0) x then Ok n
         else if Rleb x (nth 0 xs 0) then Ok 0%nat
         else bisect n x xs 0 (n - 1)
  end.
(* InterpolateAbsorptionFromCurve::operator(): InterpolateAbsorptionFromCurve.cc:21-35; ev.energy() is v2E of the length of the velocity (State.icc:37-40) *)
Definition interpolate (curve : list R * list R) (ev : event) : result R :=
  let '(energies, mus) := curve in
  let E := v2E (vnorm (e_v ev)) in
  let! index := find_1st_bin_larger_than E energies in
  if (index <=? 0)%nat then Ok (nth 0 mus 0)
  else if (List.length energies <=? index)%nat then Ok (nth (List.length energies - 1) mus 0)
  else let E1 := nth (index - 1) energies 0 in
       let E2 := nth index energies 0 in
       let! ratio := divide (E - E1) (E2 - E1) in
       Ok (ratio * nth index mus 0 + (1 - ratio) * nth (index - 1) mus 0).

(* m_refAbsXS, m_N and absorption_coefficient: He3.cc:19-34; the pressure in pascal.  None for a neutron at rest *)
Definition he3_absorption (pressure : R) (ev : event) : option R :=
  let energy := v2E (vnorm (e_v ev)) in
  if Reqb energy 0 then None
  else Some (5333 / 10 ^ 28 / (1798 / 1000) * sqrt (8181 / 100 / energy) * (pressure * (2414 * 10 ^ 17))).
(* scattering_coefficient: He3.cc:36-40 *)
Definition he3_scattering (pressure : R) (ev : event) : R := 0.
(* he3_absorption_coeff: detector/__init__.py:140-147; the pressure in atmospheres.  math.sqrt of a negative number is an error *)
Definition he3_absorption_coeff (energy pressure : R) : result R :=
  let refAbsXS := 5333 / 10 ^ 28 / (1798 / 1000) in
  let N := pressure * 101325 * (2414 * 10 ^ 17) in
  let! q := divide (8181 / 100) energy in
  if Rltb q 0 then Err ValueError else Ok (refAbsXS * sqrt q * N).
(* he3_transmission_percentage: detector/__init__.py:150-159; the length in cm *)
Definition he3_transmission_percentage (energy pressure length : R) : result R :=
  let length := length * (1 / 100) in
  let! mu := he3_absorption_coeff energy pressure in
  Ok (exp (- mu * length)).

(* IsotropicKernel: absorption_coefficient and scattering_coefficient, IsotropicKernel.cc:36-53 *)
Definition isotropic_absorption (absorption : R) (ev : event) : option R :=
  let v := vnorm (e_v ev) in if Reqb v 0 then None else Some (absorption * (2200 / v)).
(* in the group above: IsotropicKernel.cc:36-53 *)
Definition isotropic_scattering (scattering : R) (ev : event) : R := scattering.
(* IsotropicKernel::S: IsotropicKernel.cc:63-89 *)
Definition isotropic_S (u1 u2 : R) (ev : event) : event :=
  let vi := vnorm (e_v ev) in
  let theta := random u1 0 PI in
  let phi := random u2 0 (PI * 2) in
  let vf := mkV (vi * sin theta * cos phi) (vi * sin theta * sin phi) (vi * cos theta) in
  RotModel.mkE (e_r ev) vf (e_s1 ev) (e_s2 ev) (e_t ev) (e_p ev * (sin theta * (PI / 2))).

(* data of DGSSXResPixel: DGSSXResPixel.cc:42-49 *)
Record pixel := mkPx { px_tof : R; px_pressure : R; px_shape : shape }.
(* std::numeric_limits<double>::epsilon(): DGSSXResPixel.cc:70 *)
Definition epsilon : R := / 2 ^ 52.
(* interact_path1: DGSSXResPixel.cc:52-98 *)
Definition pixel_interact (tol : R) (px : pixel) (ev : event) : result (interaction * event) :=
  let s := px_shape px in
  let! ev := (if loc_eqb (locate_ev tol ev s) Inside then Ok ev else propagate_to_next_incident_surface tol ev s) in
  let! ev :=
    (if Rltb (px_tof px) (e_t ev) then Ok (set_p ev epsilon)
     else let! tof := tof_before_exit tol ev s in
          if Rltb (e_t ev + tof) (px_tof px) then Ok (set_p ev epsilon)
          else let tof1 := px_tof px - e_t ev in
               match he3_absorption (px_pressure px) ev with
               | None => Err ZeroDivisionError
               | Some mu =>
                   let sigma := he3_scattering (px_pressure px) ev in
                   let v := vnorm (e_v ev) in
                   let x := tof1 * v in
                   let distance := tof * v in
                   Ok (scale_p ev (mu * distance * exp (- (mu + sigma) * x)))
               end) in
  let! ev := propagate_to_next_exiting_surface tol ev s in
  Ok (NoInteraction, ev).
(* the pixel as a scatterer: interact_path1, interactM_path1 (DGSSXResPixel.cc:101-108), calculate_attenuation (AbstractNeutronScatterer.cc:61-66) *)
Definition pixel_element (tol : R) (px : pixel) : element :=
  mkEl (px_shape px) (mkV 0 0 0) (mkM 1 0 0 0 1 0 0 0 1) (fun _ _ => Err CppException) (fun _ ev => pixel_interact tol px ev) (fun _ _ => 1).
(* the component: components/DGSSXResPixel.py:18-25 *)
Definition new_pixel (pressure tof radius height : R) : pixel := mkPx tof pressure (Cylinder radius height).
