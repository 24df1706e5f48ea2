(** Vocabulary for C76. *)
From Coq Require Import Reals.
From Verif Require Import Base RotModel RotSpec ShapeModel.
Open Scope R_scope.

(** The wavelength in Angstrom of a neutron of energy [E] in meV. *)
Definition wavelength (E : R) : R := sqrt (8181 / 100 / E).
(** The inverse absorption length in helium at the given pressure (in pascal): number of atoms per volume, times 5333 barn at 1.798 Angstrom
    in proportion to the wavelength. *)
Definition he3_inverse_length (pressure E : R) : R := pressure * (2414 * 10 ^ 17) * (5333 * / 10 ^ 28) * (wavelength E / (1798 / 1000)).
(** The direction with polar angle [theta] and azimuth [phi]. *)
Definition polar (theta phi : R) : vec3 := mkV (sin theta * cos phi) (sin theta * sin phi) (cos theta).
(** Strictly rising values. *)
Definition rising (l : list R) : Prop := forall i j, (i < j < List.length l)%nat -> nth i l 0 < nth j l 0.
(** The straight line through two points. *)
Definition line_through (x1 y1 x2 y2 x : R) : R := y1 + (y2 - y1) * ((x - x1) / (x2 - x1)).
