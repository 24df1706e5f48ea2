(** Vocabulary for C69 and C70. *)
From Coq Require Import Reals.
From Verif Require Import Base RotModel RotSpec GridModel UnitSpec PhonSpec ConeSpec CohModel.
Open Scope R_scope.

(** [q] is the wave vector of a neutron of velocity [v]. *)
Definition wave_vector (q v : vec3) : Prop := is_wavenumber (vx q) (vx v) /\ is_wavenumber (vy q) (vy v) /\ is_wavenumber (vz q) (vz v).
(** The energy that the phonons of a branch have at the wave vector a neutron loses, less the energy it loses or gains. *)
Definition excess (d : disp) (b : nat) (v v' : vec3) (x : R) : Prop :=
  exists Ei Ef q, is_energy Ei (speed v) /\ is_energy Ef (speed v') /\ wave_vector q (vsub v v') /\ x = en d b q - Rabs (Ei - Ef).
(** Energy and momentum go to a phonon of the branch, or come from one. *)
Definition conserved (d : disp) (b : nat) (v v' : vec3) : Prop := excess d b v v' 0.

(** The sum over the atoms of b/sqrt(M) exp(i Q.d) (Q.e), real and imaginary part: Squires, Introduction to the Theory of Thermal Neutron
    Scattering, (3.120).  [e] are the displacements of the atoms in the phonon. *)
Fixpoint structure_factor (Q : vec3) (e : list epsilon) (atoms : list catom) : R * R :=
  match e, atoms with
  | (x, y, z) :: e, a :: atoms =>
      let s := structure_factor Q e atoms in
      let f := ca_b a / sqrt (ca_mass a) in
      let p := sdot Q (ca_position a) in
      let re := vx Q * fst x + vy Q * fst y + vz Q * fst z in
      let im := vx Q * snd x + vy Q * snd y + vz Q * snd z in
      (f * (cos p * re - sin p * im) + fst s, f * (cos p * im + sin p * re) + snd s)
  | _, _ => (0, 0)
  end.
(** The square of the length of a displacement. *)
Definition length2 (e : epsilon) : R :=
  let '(x, y, z) := e in fst x ^ 2 + snd x ^ 2 + fst y ^ 2 + snd y ^ 2 + fst z ^ 2 + snd z ^ 2.
(** The displacement made [c] times longer. *)
Definition stretched (c : R) (e : epsilon) : epsilon :=
  let '(x, y, z) := e in ((c * fst x, c * snd x), (c * fst y, c * snd y), (c * fst z, c * snd z)).
(** The energy of a neutron whose squared wave number is [x]. *)
Definition recoil (x e : R) : Prop := exists k s, x = k ^ 2 /\ is_wavenumber k s /\ is_energy e s.
(** The factors of the cross section of one phonon but the Jacobian, relative to the cross section [sigma] (barn) of the cell. *)
Definition one_phonon_factor (F : R * R) (sigma omega T ki kf dw w : R) : Prop :=
  exists r f, recoil ((fst F ^ 2 + snd F ^ 2) / (100 * sigma)) r /\ thermal omega T f /\ w = r / Rabs omega * (kf / ki) * exp (- dw) * f.
(** The solid angle of the directions to a target disk, of all directions without a positive radius. *)
Definition target_solid (target : vec3) (radius : R) : R := if Rle_dec radius 0 then 4 * PI else 2 * PI * (1 - half_opening target radius).
(** Displacements of the atoms of a cell in a phonon of the branch [b], each made a unit vector. *)
Definition unit_displacements (d : disp) (b : nat) (q : vec3) (n : nat) : list epsilon :=
  map (fun j => stretched (/ sqrt (length2 (pol d b j q))) (pol d b j q)) (seq 0 n).
