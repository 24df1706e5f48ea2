(** Interpolation on evenly spaced grids; phonon dispersions on a grid, in other coordinates, periodic.
    packages/mccomponents/lib/kernels/sample/phonon/: LinearlyInterpolatableAxis.h, interpolate.h, LinearlyInterpolatedGridData_{1D,3D}.icc,
    NNGridData_3D.icc, LinearlyInterpolated{Dispersion,Polarization}OnGrid_3D.icc, ChangeCoordinateSystem_forDispersion_3D.{h,cc},
    PeriodicDispersion_3D.{h,cc}; packages/mccomponents/python/mccomponents/sample/phonon/bindings/BoostPythonBinding.py.
    File names without directory below are relative to the first directory.

    Numbers are real numbers: rounding is not modelled.  An unsigned int is a nat: sizes and indices are below 2^32 in the code. *)
From Coq Require Import Reals Lra.
From Verif Require Import Base RotModel DetModel ChanModel ShapeModel.
Open Scope R_scope.

(* LinearlyInterpolatableAxis: LinearlyInterpolatableAxis.h:23-34.  The ticks are start, start+step, ..., start+n*step *)
Record axis := mkAxis { a_start : R; a_step : R; a_n : nat }.

(* (value-axis.start)/axis.step: LinearlyInterpolatedGridData_1D.icc:34, LinearlyInterpolatedGridData_3D.icc:33, NNGridData_3D.icc:33.
   With a step of zero the quotient is an infinity, refused by the comparisons of the lines that follow, or nan, accepted
   by them; the conversion of nan to an unsigned int then has no defined meaning *)
Definition ratio (a : axis) (value : R) : result R :=
  if Reqb (a_step a) 0 then if Reqb value (a_start a) then Err UndefinedBehaviour else Err CppException
  else Ok ((value - a_start a) / a_step a).
(* r<0 || r >= axis.n: LinearlyInterpolatedGridData_1D.icc:35, LinearlyInterpolatedGridData_3D.icc:34, NNGridData_3D.icc:34 *)
Definition off_axis (a : axis) (r : R) : bool := (Rltb r 0 || Rleb (INR (a_n a)) r)%bool.
(* std::abs(x) < 1e-7: LinearlyInterpolatedGridData_3D.icc:35-36, NNGridData_3D.icc:35, 46 *)
Definition tiny (x : R) : bool := Rltb (Rabs x) (/ 10 ^ 7).
(* index = std::floor(r); remainder = r - index: LinearlyInterpolatedGridData_1D.icc:43-45, LinearlyInterpolatedGridData_3D.icc:47-49,
   NNGridData_3D.icc:48-50 *)
Definition split_at (r : R) : nat * R := let index := Z.to_nat (floorZ r) in (index, r - INR index).

(* value2index_and_remainder: LinearlyInterpolatedGridData_1D.icc:28-46 *)
Definition index_1D (a : axis) (value : R) : result (nat * R) :=
  let! r := ratio a value in
  if off_axis a r then Err CppException else Ok (split_at r).
(* value2index_and_remainder: LinearlyInterpolatedGridData_3D.icc:27-50 *)
Definition index_3D (a : axis) (value : R) : result (nat * R) :=
  let! r := ratio a value in
  if off_axis a r then
    if tiny r then Ok (split_at 0)                              (* 35 *)
    else if tiny (r - INR (a_n a)) then Ok (split_at 0)         (* 36 *)
    else Err CppException                                       (* 43 *)
  else Ok (split_at r).
(* value2index_and_remainder: NNGridData_3D.icc:27-51 *)
Definition index_NN (a : axis) (value : R) : result (nat * R) :=
  let! r := ratio a value in
  let! r := if off_axis a r then if tiny r then Ok 0 else Err CppException else Ok r in     (* 34-43 *)
  Ok (split_at (if tiny (r - INR (a_n a)) then 0 else r)).                                  (* 46-50 *)

(* interp1D_01: interpolate.h:78-83 *)
Definition interp1D_01 (y0 y1 x : R) : R := y0 + x * (y1 - y0).
(* interp3D_01: interpolate.h:129-154 *)
Definition interp3D_01 (u000 u100 u010 u001 u011 u101 u110 u111 x y z : R) : R :=
  let a := u000 in let b := u100 - a in let c := u010 - a in let d := u001 - a in
  let e := u011 - a - c - d in let f := u101 - a - b - d in let g := u110 - a - b - c in
  let h := u111 - a - b - c - d - e - f - g in
  a + b * x + c * y + d * z + e * y * z + f * x * z + g * x * y + h * x * y * z.

(* operator[] of a std::vector, not checked: LinearlyInterpolatedGridData_1D.icc:89-90 *)
Definition vget (data : list R) (i : nat) : result R :=
  match nth_error data i with Some y => Ok y | None => Err UndefinedBehaviour end.
(* LinearlyInterpolatedGridData_1D::operator(): LinearlyInterpolatedGridData_1D.icc:74-93.  The test of the constructor, lines 57-67, has no
   effect: operator[] of a std::vector does not throw *)
Definition grid1 (a : axis) (data : list R) (x : R) : result R :=
  let! (nx, rx) := index_1D a x in
  let! y0 := vget data nx in
  let! y1 := vget data (S nx) in
  Ok (interp1D_01 y0 y1 rx).

(* NdArraySlice of the histogram package (external): three-dimensional data with its shape *)
Record array3 := mkA3 { s0 : nat; s1 : nat; s2 : nat; cell3 : nat -> nat -> nat -> R }.
(* getitem: LinearlyInterpolatedGridData_3D.icc:52-58, NNGridData_3D.icc:53-59.  Assumed of the external array: an index outside of the shape throws *)
Definition getitem (d : array3) (x y z : nat) : result R :=
  if (Nat.ltb x (s0 d) && Nat.ltb y (s1 d) && Nat.ltb z (s2 d))%bool then Ok (cell3 d x y z) else Err CppException.

(* LinearlyInterpolatedGridData_3D and NNGridData_3D: the axes and the data, LinearlyInterpolatedGridData_3D.h:62-63, NNGridData_3D.h:63-64 *)
Record grid3 := mkG3 { g_x : axis; g_y : axis; g_z : axis; g_data : array3 }.
(* the constructors: LinearlyInterpolatedGridData_3D.icc:62-88, NNGridData_3D.icc:63-89 *)
Definition new_grid3 (x y z : axis) (data : array3) : result grid3 :=
  match getitem data (a_n x) (a_n y) (a_n z) with
  | Ok _ => Ok (mkG3 x y z data)
  | Err _ => Err CppException
  end.
(* LinearlyInterpolatedGridData_3D::operator(): LinearlyInterpolatedGridData_3D.icc:94-128 *)
Definition linear3 (g : grid3) (x y z : R) : result R :=
  let! (nx, rx) := index_3D (g_x g) x in
  let! (ny, ry) := index_3D (g_y g) y in
  let! (nz, rz) := index_3D (g_z g) z in
  let d := g_data g in
  let! u000 := getitem d nx ny nz in
  let! u100 := getitem d (S nx) ny nz in
  let! u010 := getitem d nx (S ny) nz in
  let! u001 := getitem d nx ny (S nz) in
  let! u011 := getitem d nx (S ny) (S nz) in
  let! u101 := getitem d (S nx) ny (S nz) in
  let! u110 := getitem d (S nx) (S ny) nz in
  let! u111 := getitem d (S nx) (S ny) (S nz) in
  Ok (interp3D_01 u000 u100 u010 u001 u011 u101 u110 u111 rx ry rz).
(* nx+(rx>0.5?1:0): NNGridData_3D.icc:118 *)
Definition rounded (nr : nat * R) : nat := if Rltb (/ 2) (snd nr) then S (fst nr) else fst nr.
(* NNGridData_3D::operator(): NNGridData_3D.icc:95-119 *)
Definition nearest3 (g : grid3) (x y z : R) : result R :=
  let! nx := index_NN (g_x g) x in
  let! ny := index_NN (g_y g) y in
  let! nz := index_NN (g_z g) z in
  getitem (g_data g) (rounded nx) (rounded ny) (rounded nz).

(** ** Dispersions *)

(* complex numbers and complex vectors: AbstractDispersion_3D.h:36-37 *)
Definition complex := (R * R)%type.
(* a complex vector: AbstractDispersion_3D.h:36-37 *)
Definition epsilon := (complex * complex * complex)%type.

(* AbstractDispersion_3D: AbstractDispersion_3D.h:30-54 *)
Record dispersion := mkDisp {
  nAtoms : nat; nBranches : nat;
  energy : nat -> vec3 -> result R;
  polarization : nat -> nat -> vec3 -> result epsilon;
  min_energy : nat -> result R;
  max_energy : nat -> result R }.

(* the arrays of energies and of polarisations with their shapes: BoostPythonBinding.py:195-199, LinearlyInterpolatedDispersionOnGrid_3D.h:31-35 *)
Record array4 := mkA4 { e0 : nat; e1 : nat; e2 : nat; e3 : nat; cell4 : nat -> nat -> nat -> nat -> R }.
(* in the group above: BoostPythonBinding.py:195-199, LinearlyInterpolatedDispersionOnGrid_3D.h:31-35 *)
Record array7 := mkA7 { p0 : nat; p1 : nat; p2 : nat; p3 : nat; p4 : nat; p5 : nat; p6 : nat;
                        cell7 : nat -> nat -> nat -> nat -> nat -> nat -> nat -> R }.
(* slice( E_data, indexes ) with the last index fixed: LinearlyInterpolatedDispersionOnGrid_3D.icc:79-87 *)
Definition slice4 (e : array4) (branch : nat) : array3 := mkA3 (e0 e) (e1 e) (e2 e) (fun x y z => cell4 e x y z branch).
(* slice( epsilon_data, indexes ) with branch and atom fixed, then component and part: LinearlyInterpolatedDispersionOnGrid_3D.icc:66-75,
   LinearlyInterpolatedPolarizationOnGrid_3D.icc:25-44 *)
Definition slice7 (p : array7) (branch atom component part : nat) : array3 :=
  mkA3 (p0 p) (p1 p) (p2 p) (fun x y z => cell7 p x y z branch atom component part).

(* LinearlyInterpolatedPolarizationOnGrid_3D: constructor and operator(), LinearlyInterpolatedPolarizationOnGrid_3D.icc:19-46, 59-71.
   The interpolation is that of NNGridData_3D: LinearlyInterpolatedPolarizationOnGrid_3D.h:55-56 *)
Definition polarization_at (x y z : axis) (p : array7) (branch atom : nat) (q : vec3) : result epsilon :=
  let part c r := let! g := new_grid3 x y z (slice7 p branch atom c r) in nearest3 g (vx q) (vy q) (vz q) in
  let! xr := part 0%nat 0%nat in let! xi := part 0%nat 1%nat in
  let! yr := part 1%nat 0%nat in let! yi := part 1%nat 1%nat in
  let! zr := part 2%nat 0%nat in let! zi := part 2%nat 1%nat in
  Ok ((xr, xi), (yr, yi), (zr, zi)).
(* m_Evsbranch[ branch ]->interpolated(k.x, k.y, k.z): LinearlyInterpolatedDispersionOnGrid_3D.icc:83-87, 118 *)
Definition energy_at (x y z : axis) (e : array4) (branch : nat) (k : vec3) : result R :=
  let! g := new_grid3 x y z (slice4 e branch) in linear3 g (vx k) (vy k) (vz k).
(* m_polvsbranchatom, m_Evsbranch, m_min_energies, m_max_energies are std::vectors: operator[] beyond their size has no defined meaning:
   LinearlyInterpolatedDispersionOnGrid_3D.icc:109, 118, LinearlyInterpolatedDispersionOnGrid_3D.h:62-63 *)
Definition checked {A} (b : bool) (r : result A) : result A := if b then r else Err UndefinedBehaviour.
(* LinearlyInterpolatedDispersionOnGrid_3D: LinearlyInterpolatedDispersionOnGrid_3D.icc:21-119, number of branches AbstractDispersion_3D.cc:18-22.
   The assertions of lines 33-46 are compiled in.  The loop of lines 57-64 builds a message and drops it.  In the code the
   interpolators are built, and their shapes checked, by the constructor; the model checks them at each use: after the
   assertions the check cannot fail.  branch*nAtoms+atom of line 109 stays in the vector for some atoms beyond nAtoms,
   reading another branch: the model has no such atoms *)
Definition dispersion_on_grid (natoms : nat) (x y z : axis) (p : array7) (e : array4) (mins maxs : list R) : result dispersion :=
  let nbranches := (3 * natoms)%nat in
  if negb (Nat.eqb (p0 p) (S (a_n x)) && Nat.eqb (p1 p) (S (a_n y)) && Nat.eqb (p2 p) (S (a_n z)) && Nat.eqb (p3 p) nbranches
           && Nat.eqb (p4 p) natoms && Nat.eqb (p5 p) 3 && Nat.eqb (p6 p) 2
           && Nat.eqb (e0 e) (S (a_n x)) && Nat.eqb (e1 e) (S (a_n y)) && Nat.eqb (e2 e) (S (a_n z)) && Nat.eqb (e3 e) nbranches)%bool
  then Err AssertionError
  else if negb (Nat.eqb (List.length mins) nbranches && Nat.eqb (List.length maxs) nbranches)%bool then Err CppException
  else Ok (mkDisp natoms nbranches
             (fun b k => checked (Nat.ltb b nbranches) (energy_at x y z e b k))
             (fun b a k => checked (Nat.ltb b nbranches && Nat.ltb a natoms)%bool (polarization_at x y z p b a k))
             (fun b => vget mins b) (fun b => vget maxs b)).

(* ChangeCoordinateSystem_forDispersion_3D: ChangeCoordinateSystem_forDispersion_3D.cc:38-100, .h:43-48 there *)
Definition change_coordinates (core : dispersion) (m : mat3) : dispersion :=
  mkDisp (nAtoms core) (nBranches core)
    (fun b k => energy core b (dot_mv m k))
    (fun b a k => polarization core b a (dot_mv m k))
    (min_energy core) (max_energy core).

(* decimal_part: PeriodicDispersion_3D.cc:18-23 *)
Definition decimal_part (num : R) : R := num - IZR (floorZ num).
(* get_inversions: packages/mcni/lib/geometry/Vector3.icc:165-180.  None: the volume is zero and the division of line 175 gives infinity *)
Definition get_inversions (x y z : vec3) : option (vec3 * vec3 * vec3) :=
  let yXz := vcross y z in let zXx := vcross z x in let xXy := vcross x y in
  let vol := vdot x yXz in
  if Reqb vol 0 then None
  else let scale := 1 / vol in Some (vscale scale yXz, vscale scale zXx, vscale scale xXy).
(* PeriodicDispersion_3D::Details::reducedQ: PeriodicDispersion_3D.cc:57-67.  None: nan *)
Definition reducedQ (b1 b2 b3 : vec3) (Q : vec3) : option vec3 :=
  match get_inversions b1 b2 b3 with
  | None => None
  | Some (a1, a2, a3) =>
      let c1 := vdot a1 Q in let c2 := vdot a2 Q in let c3 := vdot a3 Q in
      Some (vadd (vadd (vscale (decimal_part c1) b1) (vscale (decimal_part c2) b2)) (vscale (decimal_part c3) b3))
  end.
(* what a dispersion does with nan is not modelled: the grid of LinearlyInterpolatedGridData_3D.icc:34-47 converts it to an unsigned int *)
Definition at_reduced {A} (q : option vec3) (f : vec3 -> result A) : result A :=
  match q with Some q => f q | None => Err UndefinedBehaviour end.
(* PeriodicDispersion_3D: PeriodicDispersion_3D.cc:88-122, PeriodicDispersion_3D.h:46-52 *)
Definition periodic (core : dispersion) (b1 b2 b3 : vec3) : dispersion :=
  mkDisp (nAtoms core) (nBranches core)
    (fun b k => at_reduced (reducedQ b1 b2 b3 k) (energy core b))
    (fun b a k => at_reduced (reducedQ b1 b2 b3 k) (polarization core b a))
    (min_energy core) (max_energy core).

(** ** The Python factory *)

(* linearlyinterpolatableaxis(0, 1./(n-1), n-1): BoostPythonBinding.py:204-207, 151-158.  n = 0: -1 is refused as an unsigned int
   (an OverflowError, here TypeError) *)
Definition unit_axis (n : nat) : result axis :=
  match n with
  | O => Err TypeError
  | S O => Err ZeroDivisionError
  | S m => Ok (mkAxis 0 (1 / INR m) m)
  end.
(* all indices of the first three dimensions: E_view.shape = -1, E_npyarr.shape[-1], BoostPythonBinding.py:212 *)
Definition indices (e : array4) : list (nat * nat * nat) := list_prod (list_prod (seq 0 (e0 e)) (seq 0 (e1 e))) (seq 0 (e2 e)).
(* one column of E_view: BoostPythonBinding.py:212-213 *)
Definition column (e : array4) (b : nat) : list R := map (fun '(x, y, z) => cell4 e x y z b) (indices e).
(* np.min and np.max of a column: BoostPythonBinding.py:213; they raise for an empty one *)
Definition extremum (f : R -> R -> R) (l : list R) : result R :=
  match l with [] => Err ValueError | x :: l' => Ok (fold_left f l' x) end.
(* np.min(E_view, axis=0), np.max(E_view, axis=0): BoostPythonBinding.py:213-215 *)
Fixpoint mapM {A B} (f : A -> result B) (l : list A) : result (list B) :=
  match l with [] => Ok [] | a :: l' => let! b := f a in let! r := mapM f l' in Ok (b :: r) end.
(* in the group above: BoostPythonBinding.py:213-215 *)
Definition extrema (f : R -> R -> R) (e : array4) : result (list R) :=
  mapM (fun b => extremum f (column e b)) (seq 0 (e3 e)).
(* nl.inv( np.array([b1, b2, b3]).T ): BoostPythonBinding.py:221-222.  numpy is external: assumed to return the inverse, written here with
   the cofactors, and to raise for a singular matrix (LinAlgError, here ValueError) *)
Definition inverse_of_columns (b1 b2 b3 : vec3) : result mat3 :=
  match get_inversions b1 b2 b3 with
  | None => Err ValueError
  | Some (a1, a2, a3) => Ok (mkM (vx a1) (vy a1) (vz a1) (vx a2) (vy a2) (vz a2) (vx a3) (vy a3) (vz a3))
  end.
(* linearlyinterpolateddispersion_3d: BoostPythonBinding.py:187-224; Qaxes are pairs of a reciprocal vector and a number of points *)
Definition linearlyinterpolateddispersion_3d (natoms : nat) (Q1 Q2 Q3 : vec3 * nat) (p : array7) (e : array4) : result dispersion :=
  let! x := unit_axis (snd Q1) in
  let! y := unit_axis (snd Q2) in
  let! z := unit_axis (snd Q3) in
  let! mins := extrema Rmin e in
  let! maxs := extrema Rmax e in
  let! disp := dispersion_on_grid natoms x y z p e mins maxs in
  let! m := inverse_of_columns (fst Q1) (fst Q2) (fst Q3) in
  Ok (change_coordinates disp m).
(* periodicdispersion_fromidf: packages/mccomponents/python/mccomponents/sample/phonon/__init__.py:90-97, rendered by
   ComputationEngineRendererExtension.py:350-363 there and BoostPythonBinding.py:161-171 *)
Definition periodicdispersion_fromidf (natoms : nat) (Q1 Q2 Q3 : vec3 * nat) (p : array7) (e : array4) : result dispersion :=
  let! core := linearlyinterpolateddispersion_3d natoms Q1 Q2 Q3 p e in
  Ok (periodic core (fst Q1) (fst Q2) (fst Q3)).
