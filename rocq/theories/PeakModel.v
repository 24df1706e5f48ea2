(** Model of the list of diffraction peaks of a structure: packages/mccomponents/python/mccomponents/sample/diffraction/calcpeaks.py, and of the length q of
    parsers/laz.py there.

    Doubles are reals; integers hkl and the integer matrices of symmetry operations stay integers (numpy has them as doubles).  The structure, a diffpy object,
    is what the code uses of it: recbase, the matrices R of sg.symop_list, and for each atom its occupancy, scattering length, the B factor of
    AtomicScattering(element).B(T) and its place. *)
From Coq Require Import Reals.
From Verif Require Import Base RotModel.
Open Scope Z_scope.

(* hkl = h,k,l: calcpeaks.py:32 *)
Notation hkl := (Z * Z * Z)%type (only parsing).
(* symop.R: calcpeaks.py:95, rows *)
Notation zmat := ((Z * Z * Z) * (Z * Z * Z) * (Z * Z * Z))%type (only parsing).
(* np.dot(symop.R, hkl): calcpeaks.py:95 *)
Definition zrow (r v : hkl) : Z := let '(a, b, c) := r in let '(h, k, l) := v in a * h + b * k + c * l.
(* in the group above: calcpeaks.py:95 *)
Definition zapply (m : zmat) (v : hkl) : hkl := let '(r0, r1, r2) := m in (zrow r0 v, zrow r1 v, zrow r2 v).
(* np.isclose(a, b, atol=1e-7), with the default rtol=1e-5, of integers: |a-b| <= 1e-7 + 1e-5 |b|.  calcpeaks.py:98 *)
Definition zclose (a b : Z) : bool := 10 ^ 7 * Z.abs (a - b) <=? 1 + 100 * Z.abs b.
(* np.isclose(v1, v2, atol=1e-7).all(): calcpeaks.py:98 *)
Definition vclose (v1 v2 : hkl) : bool := let '(a, b, c) := v1 in let '(d, e, f) := v2 in zclose a d && zclose b e && zclose c f.
(* equivalent_hkls: calcpeaks.py:92-105 *)
Definition equivalent_hkls (v : hkl) (symops : list zmat) : list hkl :=
  fold_left (fun vs R => let v1 := zapply R v in if existsb (vclose v1) vs then vs else vs ++ [v1]) symops [].
(* multiplicity: calcpeaks.py:88-89 *)
Definition multiplicity (v : hkl) (symops : list zmat) : Z := Z.of_nat (List.length (equivalent_hkls v symops)).

(* one atom: atom.occupancy, neutron.b_c, AtomicScattering(element).B(T), atom.xyz of calcpeaks.py:71-78 *)
Record atom := mkAtom { occupancy : R; b_c : R; B_T : R; xyz : vec3 }.
(* structure: calcpeaks.py:8, 24, 40, 66 *)
Record structure := mkSt { recbase : mat3; symops : list zmat; atoms : list atom }.

Open Scope R_scope.
(* hkl as a numpy array: calcpeaks.py:60, 79, 84 *)
Definition realv (v : hkl) : vec3 := let '(h, k, l) := v in mkV (IZR h) (IZR k) (IZR l).
(* np.sqrt(np.dot(q,q)), np.linalg.norm: calcpeaks.py:61, 85 *)
Definition norm (v : vec3) : R := sqrt (vx v * vx v + vy v * vy v + vz v * vz v).
(* 1./np.linalg.norm(np.dot(recbase, hkl)): calcpeaks.py:82-85; None is inf *)
Definition d_spacing (recb : mat3) (v : hkl) : option R := let n := norm (dot_mv recb (realv v)) in if Req_EM_T n 0 then None else Some (1 / n).
(* d1 < min_dspacing: calcpeaks.py:25, 29, 34 *)
Definition below (d : option R) (m : R) : bool := match d with None => false | Some x => Rltb x m end.
(* 2*np.pi*(h*rb[0] + k*rb[1] + l*rb[2]) with the rows of m: calcpeaks.py:60, laz.py:139 *)
Definition q_rows (m : mat3) (v : hkl) : vec3 :=
  let '(h, k, l) := v in
  mkV (2 * PI * (IZR h * m00 m + IZR k * m10 m + IZR l * m20 m)) (2 * PI * (IZR h * m01 m + IZR k * m11 m + IZR l * m21 m)) (2 * PI * (IZR h * m02 m + IZR k * m12 m + IZR l * m22 m)).
(* q: calcpeaks.py:56-61 *)
Definition q_of (recb : mat3) (v : hkl) : R := norm (q_rows (transpose recb) v).
(* _q of the parser of .laz files: parsers/laz.py:134-140, not transposed *)
Definition laz_q (recb : mat3) (v : hkl) : R := norm (q_rows recb v).

(* complex numbers: calcpeaks.py:79 *)
Definition cplx := (R * R)%type.
(* np.abs(F): calcpeaks.py:46, 50 *)
Definition cabs (z : cplx) : R := sqrt (fst z * fst z + snd z * snd z).
(* np.dot(hkl, position): calcpeaks.py:79 *)
Definition vdot3 (a b : vec3) : R := vx a * vx b + vy a * vy b + vz a * vz b.
(* F_i: calcpeaks.py:69-79; B/4/d/d is 0 for d = inf *)
Definition F_i (recb : mat3) (v : hkl) (a : atom) : cplx :=
  let dw := match d_spacing recb v with None => 0 | Some d => B_T a / 4 / d / d end in
  let phase := 2 * PI * vdot3 (realv v) (xyz a) in
  (occupancy a * b_c a * (exp (- dw) * cos phase), occupancy a * b_c a * (exp (- dw) * sin phase)).
(* F: calcpeaks.py:63-67 *)
Definition F_of (s : structure) (v : hkl) : cplx := fold_left (fun z a => let f := F_i (recbase s) v a in (fst z + fst f, snd z + snd f)) (atoms s) (0, 0).

(* Peak: calcpeaks.py:51-52 *)
Record peak := mkPeak { p_hkl : hkl; p_d : option R; p_q : R; p_F : cplx; p_F2 : R; p_mult : Z }.
(* np.isclose(d1*q1, 2*np.pi): calcpeaks.py:48; inf times q is inf or nan *)
Definition dq_close (d : option R) (q : R) : bool :=
  match d with None => false | Some d => if Rle_dec (Rabs (d * q - 2 * PI)) (/ 100000000 + / 100000 * Rabs (2 * PI)) then true else false end.

(* range(lo, hi): calcpeaks.py:22, 26, 30 *)
Definition zrange (lo hi : Z) : list Z := map (fun i => (lo + Z.of_nat i)%Z) (seq 0 (Z.to_nat (hi - lo))).
(* d(...) < min_dspacing with min_dspacing None or a number: calcpeaks.py:23-25, 27-29, 33-35 *)
Definition pruned (recb : mat3) (dmin : option R) (v : hkl) : bool := match dmin with None => false | Some m => below (d_spacing recb v) m end.
(* the three loops, up to the list of equivalents: calcpeaks.py:22-35 *)
Definition candidates (recb : mat3) (dmin : option R) (lo hi : Z) : list hkl :=
  flat_map (fun h => if pruned recb dmin (h, 0, 0)%Z then [] else
    flat_map (fun k => if pruned recb dmin (0, k, 0)%Z then [] else
      flat_map (fun l => if ((h =? 0) && (k =? 0) && (l =? 0))%Z then [] else if pruned recb dmin (h, k, l) then [] else [(h, k, l)]) (zrange lo hi)) (zrange lo hi)) (zrange lo hi).
(* hkl1 in skip: calcpeaks.py:39 *)
Definition hkl_eqb (a b : hkl) : bool := let '(h, k, l) := a in let '(h', k', l') := b in ((h =? h') && (k =? k') && (l =? l'))%Z.
(* type: calcpeaks.py:8, 10, 15, 17 *)
Inductive ptype := Powder | SingleCrystal | OtherType.
(* the body of the innermost loop from the list of equivalents on: calcpeaks.py:36-52.  The generator is run to its end *)
Fixpoint peaks_from (s : structure) (powder : bool) (skip : list hkl) (cs : list hkl) : result (list peak) :=
  match cs with
  | [] => Ok []
  | v :: cs =>
      if powder && existsb (hkl_eqb v) skip then peaks_from s powder skip cs
      else let skip := if powder then equivalent_hkls v (symops s) ++ skip else skip in
           let F1 := F_of s v in
           let d1 := d_spacing (recbase s) v in
           let q1 := q_of (recbase s) v in
           if dq_close d1 q1 then
             let! ps := peaks_from s powder skip cs in
             Ok (if Rltb (/ 10000000) (cabs F1) then mkPeak v d1 q1 F1 (cabs F1 ^ 2 / 100) (multiplicity v (symops s)) :: ps else ps)
           else Err AssertionError
  end.
(* iter_peaks: calcpeaks.py:8-53 *)
Definition iter_peaks (s : structure) (max_index : Z) (dmin : option R) (t : ptype) : result (list peak) :=
  match t with
  | Powder => peaks_from s true [] (candidates (recbase s) dmin 0 (max_index + 1))
  | SingleCrystal => peaks_from s false [] (candidates (recbase s) dmin (- max_index) (max_index + 1))
  | OtherType => Err ValueError
  end.
