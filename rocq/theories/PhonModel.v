(** Phonon densities of states, thermal factor, Debye-Waller factor, incoherent one-phonon scattering.
    packages/mccomponents/lib/kernels/sample/phonon/: AbstractDOS.h, LinearlyInterpolatedDOS.{h,icc}, DWFromDOS.{h,icc}, utils.cc,
    IncoherentInelastic.{h,cc}, IncoherentInelastic_EnergyFocusing.cc; packages/mccomponents/lib/math/regression/linear1.h, packages/mccomponents/lib/physics/{statistics.cc,constants.h};
    packages/mccomponents/python/mccomponents/sample/phonon/bindings/BoostPythonBinding.py.
    File names without directory below are relative to the first directory.

    Doubles are reals; random numbers are arguments in [0,1], both ends included (see ScatModel). *)
From Coq Require Import Reals.
From Verif Require Import Base RotModel DetModel ChanModel ShapeModel ScatModel UnitModel KinModel GridModel.
Open Scope R_scope.

(** ** Density of states *)

(* a sum accumulated in a loop: linear1.h:42-46, 52-55, DWFromDOS.icc:42-62 *)
Fixpoint loop_sum (f : nat -> R) (n : nat) : R := match n with O => 0 | S n => loop_sum f n + f n end.
(* linear_regression1: linear1.h:36-57.  The slope c with sserr and sstot, of which R2 is 1 - sserr/sstot *)
Definition linear_regression1 (x y : nat -> R) (N : nat) : result (R * R * R) :=
  let xys := loop_sum (fun i => x i * y i) N in
  let xxs := loop_sum (fun i => x i * x i) N in
  let ys := loop_sum y N in
  let! c := divide xys xxs in
  let yave := ys / INR N in
  let sstot := loop_sum (fun i => (y i - yave) * (y i - yave)) N in
  let sserr := loop_sum (fun i => (y i - c * x i) * (y i - c * x i)) N in
  Ok (c, sserr, sstot).
(* R2 < .9: LinearlyInterpolatedDOS.icc:135.  With sstot = 0, R2 is -inf, or nan if sserr = 0; a comparison with nan is false *)
Definition poor_fit (sserr sstot : R) : bool :=
  if Reqb sstot 0 then negb (Reqb sserr 0) else Rltb (1 - sserr / sstot) (9 / 10).
(* _compute_sod: LinearlyInterpolatedDOS.icc:119-148.  It reads 20 values, whatever the size of m_Z; the "throw;" of line 143 has no
   exception to throw again and ends the process *)
Definition compute_sod (e0 de : R) (m_Z : list R) : result R :=
  if Nat.ltb (List.length m_Z) 20 then Err UndefinedBehaviour
  else
    let! (c, sserr, sstot) := linear_regression1 (fun i => (e0 + de * INR i) * (e0 + de * INR i)) (fun i => nth i m_Z 0) 20 in
    if poor_fit sserr sstot then Err Terminated else Ok c.

(* LinearlyInterpolatedDOS: LinearlyInterpolatedDOS.h:71-73 *)
Record dos := mkDos { d_e0 : R; d_de : R; d_n : nat; d_Z : list R; d_sod : R }.
(* ne-1 for an unsigned int: LinearlyInterpolatedDOS.icc:59 *)
Definition pred_unsigned (ne : nat) : R := match ne with O => 2 ^ 32 - 1 | S m => INR m end.
(* the constructor: LinearlyInterpolatedDOS.icc:56-97, AbstractDOS.h:37-42.  None: the sum of Z is zero, the values become nan or
   infinite, R2 nan, and the constructor returns *)
Definition new_dos (e0 de : R) (ne : nat) (Z : list R) : result (option dos) :=
  if negb (Rltb e0 (e0 + de * pred_unsigned ne)) then Err AssertionError
  else if negb (Nat.eqb ne (List.length Z)) then Err CppException
  else if Nat.ltb ne 2 then Err CppException
  else if Rltb de 0 then Err CppException
  else if Rltb e0 0 then Err CppException
  else
    let area := fold_left Rplus Z 0 * de in
    if Reqb area 0 then if Nat.ltb (List.length Z) 20 then Err UndefinedBehaviour else Ok None
    else
      let m_Z := map (fun z => z / area) Z in
      let! c := compute_sod e0 de m_Z in
      Ok (Some (mkDos e0 de ne m_Z c)).
(* emax: LinearlyInterpolatedDOS.icc:59, 62 *)
Definition d_emax (d : dos) : R := d_e0 d + d_de d * pred_unsigned (d_n d).
(* operator(): AbstractDOS.h:54-59; value: LinearlyInterpolatedDOS.icc:150-158; the axis: 46 *)
Definition dos_at (d : dos) (e : R) : result R :=
  if (Rltb e (d_e0 d) || Rltb (d_emax d) e)%bool then Ok 0
  else if (Rltb e (d_e0 d) || Rleb (d_emax d) e)%bool then Ok 0
  else grid1 (mkAxis (d_e0 d) (d_de d) (d_n d - 1)) (d_Z d) e.
(* dos_fromhistogram and linearlyinterpolateddos: BoostPythonBinding.py:114-136; energies and I of the histogram *)
Definition dos_fromhistogram (energies I : list R) : result (option dos) :=
  match energies with
  | e0 :: e1 :: _ =>
      let n := List.length energies in
      if Nat.ltb (List.length I) n then Err IndexError
      else new_dos e0 (e1 - e0) n (firstn n I)
  | _ => Err IndexError
  end.

(** ** Thermal factor *)

(* Kelvin2meV: packages/mccomponents/lib/physics/constants.h:28 *)
Definition Kelvin2meV : R := 1 / (11605 / 1000).
(* BoseEinsteinDistribution: packages/mccomponents/lib/physics/statistics.cc:21-31.  None: inf or nan.  At T = 0 exp(inf) is inf, its inverse 0 *)
Definition BoseEinsteinDistribution (energy temperature : R) : option R :=
  let energy := if Rltb energy 0 then Rabs energy else energy in
  if Reqb temperature 0 then (if Reqb energy 0 then None else Some 0)
  else
    let x := exp (energy / (temperature * Kelvin2meV)) - 1 in
    if Reqb x 0 then None else Some (1 / x).
(* phonon_bose_factor: utils.cc:29-40 *)
Definition phonon_bose_factor (energy T : R) : option R :=
  if Reqb energy 0 then Some 1
  else option_map (fun n => (if Rltb 0 energy then 1 else 0) + n) (BoseEinsteinDistribution (Rabs energy) T).

(** ** Debye-Waller factor *)

(* hbar: packages/mccomponents/lib/physics/constants.h:21 *)
Definition physics_hbar : R := 105457148 / 10 ^ 42.
(* atomic_mass: packages/mccomponents/lib/physics/constants.h:22 *)
Definition physics_atomic_mass : R := 166053886 / 10 ^ 35.
(* e: packages/mccomponents/lib/physics/constants.h:23 *)
Definition physics_e : R := 160217653 / 10 ^ 27.
(* calc_DW_core: DWFromDOS.icc:25-88.  [Z] is m_dos, without the warnings.  norm_fac is not used in the end, line 80, and left out.
   f[i] is set for the samples that are not skipped; reading one beyond the array has no meaning *)
Definition calc_DW_core (Z : R -> R) (wmin wmax : R) (nSample : nat) (atom_mass T : R) : result R :=
  let dw := (wmax - wmin) / (pred_unsigned nSample + 1 / 10 ^ 8) in
  let w i := dw * INR i + wmin in
  let skipped i := Rltb (w i) (wmax / INR nSample / 100) in
  let f i := match BoseEinsteinDistribution (w i) T with Some n => (2 * n + 1) / w i * Z (w i) | None => 0 end in
  let frac i := if Nat.eqb i (nSample - 1) then 1 / 2 else 1 in
  let core := loop_sum (fun i => if skipped i then 0 else f i * frac i) nSample in
  match find (fun i => negb (skipped i)) (seq 0 nSample) with
  | None => Err Terminated
  | Some first =>
      if Nat.leb nSample (S first) then Err UndefinedBehaviour
      else
        let f0 := f first - (dw * INR first + wmin) * (f (S first) - f first) / dw in
        let core := core + f0 / 2 in
        let core := core / (physics_e * (1 / 10 ^ 3)) in
        let core := core * dw in
        let! k := divide (physics_hbar * physics_hbar / 2 / physics_atomic_mass) atom_mass in
        Ok (core * k * 10 ^ 20)
  end.
(* DW: DWFromDOS.icc:90-106, for a length and for a vector *)
Definition DW (core Q_mag : R) : R := Q_mag * Q_mag * core.
(* DWFromDOS.icc:90-106, for a vector *)
Definition DW_vector (core : R) (Q : vec3) : R := DW core (vnorm Q).

(** ** Incoherent one-phonon scattering *)

(* AtomicScatterer, as far as used: IncoherentInelastic.cc:124-128 *)
Record atom := mkAtom { a_mass : R; a_inc : R; a_abs : R }.
(* get_mass_and_xs: IncoherentInelastic.cc:113-130 *)
Definition get_mass_and_xs (atoms : list atom) : result (R * R * R) :=
  let! mass := divide (fold_left (fun s a => s + a_mass a) atoms 0) (INR (List.length atoms)) in
  Ok (mass, fold_left (fun s a => s + a_inc a) atoms 0, fold_left (fun s a => s + a_abs a) atoms 0).
(* members of IncoherentInelastic: IncoherentInelastic.h:82-93; the density of states and Debye-Waller exponent are arbitrary functions here *)
Record ii_kernel := mkII { ii_mass : R; ii_scattering : R; ii_absorption : R; ii_vol : R; ii_Z : R -> R; ii_sod : R; ii_emax : R; ii_DW : R -> R; ii_T : R }.
(* the constructor: IncoherentInelastic.cc:134-161 *)
Definition new_ii (atoms : list atom) (vol : R) (Z : R -> R) (sod emax : R) (dw : R -> R) (T ave_mass scattering_xs absorption_xs : R) : result ii_kernel :=
  let! (mass, scattering, absorption) := get_mass_and_xs atoms in
  Ok (mkII (if Rltb 0 ave_mass then ave_mass else mass) (if Rltb 0 scattering_xs then scattering_xs else scattering)
           (if Rltb 0 absorption_xs then absorption_xs else absorption) vol Z sod emax dw T).
(* absorption_coefficient, scattering_coefficient: IncoherentInelastic.cc:171-189 *)
Definition ii_absorption_coefficient (k : ii_kernel) (v : R) : result R :=
  let! r := divide (ii_absorption k) (ii_vol k) in let! s := divide 2200 v in Ok (r * s * 100).
(* in the group above: IncoherentInelastic.cc:171-189 *)
Definition ii_scattering_coefficient (k : ii_kernel) : result R :=
  let! r := divide (ii_scattering k) (ii_vol k) in Ok (r * 100).
(* pick_Ef: IncoherentInelastic.cc:93-110; Ef and e_range *)
Definition pick_Ef (u Ei max_omega : R) : R * R :=
  if Rltb max_omega Ei then let e_range := 2 * max_omega in (Ei - max_omega + u * e_range, e_range)
  else let e_range := Ei + max_omega in (u * e_range, e_range).
(* the rest of S, with the direction and the final energy chosen: IncoherentInelastic.cc:222-291, the same in IncoherentInelastic_EnergyFocusing.cc:220-286.
   The weight is nan, and the process ended by the "throw;" at the end, only with a division by zero, an error here *)
Definition ii_weigh (k : ii_kernel) (dir_f : vec3) (E_f e_range : R) (ev : event) : result kevent :=
  let vi := e_v ev in
  let v_i_l := vnorm vi in
  let E_i := v2E v_i_l in
  let omega := E_i - E_f in
  let small_omega := Rltb (Rabs omega) (1 / 100 * ii_emax k) in
  match E2v E_f, phonon_bose_factor omega (ii_T k) with
  | Some v_f_l, Some therm_factor =>
      let v_f := vscale v_f_l dir_f in
      let Q_l := vnorm (vscale v2k (vsub vi v_f)) in
      let dw := exp (- ii_DW k Q_l) in
      let! m := divide 1 (ii_mass k) in
      let! r := divide v_f_l v_i_l in
      let! last := if small_omega then Ok (ii_sod k * (ii_T k * Kelvin2meV) * k2E Q_l)      (* 1/beta is T*Kelvin2meV, at T = 0 too *)
                   else let! q := divide (k2E Q_l) (Rabs omega) in Ok (therm_factor * ii_Z k (Rabs omega) * q) in
      Ok (with_pv ev (e_p ev * e_range * m * r * dw * last) (Some v_f))
  | _, _ => Err UndefinedBehaviour
  end.
(* S: IncoherentInelastic.cc:192-292 *)
Definition II_S (k : ii_kernel) (u1 u2 u3 : R) (ev : event) : result kevent :=
  match normalize (choose_direction u1 u2) with
  | None => Err UndefinedBehaviour
  | Some dir_f => let '(E_f, e_range) := pick_Ef u3 (v2E (vnorm (e_v ev))) (ii_emax k) in ii_weigh k dir_f E_f e_range ev
  end.
(* pick_Ef of the kernel with focusing: IncoherentInelastic_EnergyFocusing.cc:83-102; None: prob_factor and Ef are -1 *)
Definition pick_Ef_focusing (m_Ef m_dEf : R) (u Ei max_omega : R) : option (R * R) :=
  let Efmax := m_Ef + m_dEf / 2 in
  if (Rltb max_omega (Ei - Efmax) || Rltb (Ei - Efmax) 0)%bool then None
  else Some (m_Ef + (u - 1 / 2) * m_dEf, m_dEf).
(* S of the kernel with focusing: IncoherentInelastic_EnergyFocusing.cc:186-287 *)
Definition II_focusing_S (k : ii_kernel) (m_Ef m_dEf : R) (u1 u2 u3 : R) (ev : event) : result kevent :=
  match normalize (choose_direction u1 u2) with
  | None => Err UndefinedBehaviour
  | Some dir_f =>
      match pick_Ef_focusing m_Ef m_dEf u3 (v2E (vnorm (e_v ev))) (ii_emax k) with
      | None => Ok (with_pv ev (-1) (Some (e_v ev)))
      | Some (E_f, e_range) => if Rltb E_f 0 then Ok (with_pv ev (-1) (Some (e_v ev))) else ii_weigh k dir_f E_f e_range ev
      end
  end.
