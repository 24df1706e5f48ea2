(** Coherent scattering by one phonon: packages/mccomponents/lib/kernels/sample/phonon/{CoherentInelastic_SingleXtal.cc,
    CoherentInelastic_PolyXtal.cc,Omega_minus_deltaE.cc,scattering_length.icc,generateQ.icc}.

    Doubles are reals; None is inf or nan.  Random numbers are arguments in [0,1].  Dispersions throw nothing here: they are functions. *)
From Coq Require Import Reals.
From Verif Require Import Base RotModel ChanModel ShapeModel ScatModel UnitModel KinModel PowdModel PhonModel GridModel RootModel ConeModel.
Open Scope R_scope.

(* AbstractDispersion_3D, as far as used: AbstractDispersion_3D.h:30-54; not the dispersions that throw *)
Record disp := mkD { nBr : nat; en : nat -> vec3 -> R; pol : nat -> nat -> vec3 -> epsilon; min_en : nat -> R }.
(* AtomicScatterer, as far as used: AtomicScatterer.h:50-57 *)
Record catom := mkCA { ca_position : vec3; ca_mass : R; ca_b : R; ca_coh : R; ca_abs : R }.

(* a sum, a product of complex numbers: std::complex, as used in scattering_length.icc:55-57 *)
Definition cadd (a b : complex) : complex := (fst a + fst b, snd a + snd b).
(* in the group above: scattering_length.icc:55-57 *)
Definition cmul (a b : complex) : complex := (fst a * fst b - snd a * snd b, fst a * snd b + snd a * fst b).
(* a vector and a complex vector, (Q|eps): packages/mcni/lib/geometry/Vector3.cc:48-57 *)
Definition dot_eps (Q : vec3) (e : epsilon) : complex :=
  let '(x, y, z) := e in (vx Q * fst x + vy Q * fst y + vz Q * fst z, vx Q * snd x + vy Q * snd y + vz Q * snd z).
(* (eps|eps).real(): Vector3.cc:48-51, scattering_length.icc:42 *)
Definition eps2 (e : epsilon) : R := let '(x, y, z) := e in fst x * fst x + snd x * snd x + (fst y * fst y + snd y * snd y) + (fst z * fst z + snd z * snd z).
(* c1, the term of one atom: scattering_length.icc:40-56; a division by zero or the root of a negative mass is nan *)
Definition atom_term (Q : vec3) (e : epsilon) (a : catom) : option complex :=
  let epslen := sqrt (eps2 e) in
  if (Reqb epslen 0 || Rleb (ca_mass a) 0)%bool then None
  else
    let qdote := (fst (dot_eps Q e) / epslen, snd (dot_eps Q e) / epslen) in
    let qdotd := vdot Q (ca_position a) in
    let f := ca_b a / sqrt (ca_mass a) in
    Some (cmul (f * cos qdotd, f * sin qdotd) qdote).
(* sum_of_scattering_length: scattering_length.icc:21-74; the second argument is the number of the first atom of the list *)
Fixpoint sum_of_scattering_length (Q : vec3) (i : nat) (e : nat -> epsilon) (atoms : list catom) : option complex :=
  match atoms with
  | [] => Some (0, 0)
  | a :: l => match atom_term Q (e i) a, sum_of_scattering_length Q (S i) e l with Some c, Some s => Some (cadd c s) | _, _ => None end
  end.
(* std::norm: CoherentInelastic_SingleXtal.cc:283, CoherentInelastic_PolyXtal.cc:358 *)
Definition cnorm (c : complex) : R := fst c * fst c + snd c * snd c.

(** ** Single crystals *)

(* members of CoherentInelastic_SingleXtal: CoherentInelastic_SingleXtal.h:102-118; the roots finder is FindRootsEvenly with ZRidd, as in
   packages/mccomponents/python/mccomponents/sample/phonon/bindings/BoostPythonBinding.py:338-341 *)
Record single := mkSX { sx_disp : disp; sx_atoms : list catom; sx_DW : R -> R; sx_T : R; sx_vol : R; sx_scattering : R; sx_absorption : R;
  sx_xacc : R; sx_nSteps : nat; sx_DV : R; sx_target : vec3; sx_radius : R }.
(* the constructor: CoherentInelastic_SingleXtal.cc:99-129 *)
Definition new_single (d : disp) (atoms : list catom) (vol : R) (dw : R -> R) (T DV xacc : R) (nSteps : nat) (target : vec3) (radius : R) : single :=
  mkSX d atoms dw T vol (fold_left (fun s a => s + ca_coh a) atoms 0) (fold_left (fun s a => s + ca_abs a) atoms 0) xacc nSteps DV target radius.
(* absorption_coefficient, scattering_coefficient: CoherentInelastic_SingleXtal.cc:320-338 *)
Definition sx_absorption_coefficient (k : single) (v : vec3) : option R :=
  if (Reqb (sx_vol k) 0 || Reqb (vnorm v) 0)%bool then None else Some (sx_absorption k / sx_vol k * 100 * (2200 / vnorm v)).
(* in the group above: CoherentInelastic_SingleXtal.cc:320-338 *)
Definition sx_scattering_coefficient (k : single) : option R := if Reqb (sx_vol k) 0 then None else Some (sx_scattering k / sx_vol k * 100).
(* Omega_q_minus_deltaE::evaluate: Omega_minus_deltaE.cc:40-68 *)
Definition omega_minus_deltaE (d : disp) (branch : nat) (vf_dir vi : vec3) (abs_vi vf : R) : R :=
  let res_phonon := en d branch (vscale v2k (vsub vi (vscale vf vf_dir))) in
  let res_neutron := vsquare2E (Rabs (abs_vi * abs_vi - vf * vf)) in
  res_phonon - res_neutron.
(* pick_v_f: CoherentInelastic_SingleXtal.cc:132-192; None: no root, it returns true.  Otherwise the final velocity and the product of the
   factors it adds *)
Definition pick_v_f (k : single) (branch : nat) (vf_dir vi : vec3) (u : R) : option (option vec3 * option R) :=
  let v_i_l := vnorm vi in
  let f := omega_minus_deltaE (sx_disp k) branch vf_dir vi v_i_l in
  match find_roots_evenly (ZRidd_solve (sx_xacc k)) (sx_nSteps k) 0 (v_i_l * 2) f with
  | [] => None
  | vf_list =>
      let nf := List.length vf_list in
      let v_f_l := nth (random_index u nf) vf_list 0 in
      let v_f := option_map (vscale v_f_l) (normalize vf_dir) in
      let delta_v := sx_DV k * v_i_l in
      let f1 := f (v_f_l - delta_v) in
      let f2 := f (v_f_l + delta_v) in
      Some (v_f,
            if Reqb (2 * delta_v) 0 then None
            else let Jacobi := Rabs (f2 - f1) / (2 * delta_v) in
                 if Reqb Jacobi 0 then None else Some (INR nf * (2 * vsq2e * v_f_l / Jacobi)))
  end.
(* good_branches: CoherentInelastic_SingleXtal.cc:222-229 *)
Definition good_branches (d : disp) (E_i : R) : list nat := filter (fun br => Rltb (min_en d br) (E_i * (15 / 10))) (seq 0 (nBr d)).
(* the random numbers of one run of the loop: for the direction, the branch and the root: CoherentInelastic_SingleXtal.cc:237-243 *)
Record draw := mkDraw { dr_1 : R; dr_2 : R; dr_branch : R; dr_root : R }.
(* the loop: CoherentInelastic_SingleXtal.cc:235-245; [left] is the number of runs left, [i] the number of the run.  None: every run failed.
   random(0,0) is a remainder by zero *)
Fixpoint choose_state (k : single) (good : list nat) (vi : vec3) (draws : nat -> draw) (left i : nat) : result (option (option R * nat * (option vec3 * option R))) :=
  match left with
  | O => Ok None
  | S left' =>
      match choose_scattering_direction (dr_1 (draws i)) (dr_2 (draws i)) (sx_target k) (sx_radius k) with
      | (dir, solid_angle) =>
          match good, match dir with None => None | Some d => normalize d end with
          | [], _ => Err UndefinedBehaviour
          | _, None => Err UndefinedBehaviour
          | _, Some dir =>
              let branch := nth (random_index (dr_branch (draws i)) (List.length good)) good O in
              match pick_v_f k branch dir vi (dr_root (draws i)) with
              | None => choose_state k good vi draws left' (S i)
              | Some r => Ok (Some (solid_angle, branch, r))
              end
          end
      end
  end.
(* Niters: CoherentInelastic_SingleXtal.cc:233 *)
Definition Niters : nat := 100.
(* the factors after the loop: CoherentInelastic_SingleXtal.cc:256-304; the product of those but solid_angle and the number of branches *)
Definition later_factors (k : single) (branch : nat) (vi vf : vec3) : option R :=
  let v_i_l := vnorm vi in
  let v_f_l := vnorm vf in
  let omega := v2E v_i_l - v2E v_f_l in
  let Q := vscale v2k (vsub vi vf) in
  let k_i_l := v2k * v_i_l in
  let k_f_l := v2k * v_f_l in
  match sum_of_scattering_length Q 0 (fun i => pol (sx_disp k) branch i Q) (sx_atoms k), phonon_bose_factor omega (sx_T k) with
  | Some sclen, Some therm_factor =>
      if (Reqb (sx_scattering k) 0 || Reqb omega 0 || Reqb k_i_l 0)%bool then None
      else
        let norm_of_slsum := cnorm sclen / 10 ^ 30 / (sx_scattering k * (1 / 10 ^ 28)) in
        Some (ksquare2E norm_of_slsum / Rabs omega * (k_f_l / k_i_l) * exp (- sx_DW k (vnorm Q)) * therm_factor)
  | _, _ => None
  end.
(* pick_a_final_state: CoherentInelastic_SingleXtal.cc:195-310; the velocity and the probability afterwards *)
Definition pick_a_final_state (k : single) (draws : nat -> draw) (ev : event) : result (option vec3 * option R) :=
  let vi := e_v ev in
  let good := good_branches (sx_disp k) (v2E (vnorm vi)) in
  let! o := choose_state k good vi draws Niters 0 in
  match o with
  | None => Ok (Some vi, Some (e_p ev))
  | Some (solid_angle, branch, (None, _)) => Ok (None, None)
  | Some (solid_angle, branch, (Some vf, factor)) =>
      Ok (Some vf,
          match factor, solid_angle, later_factors k branch vi vf with
          | Some a, Some b, Some c => Some (e_p ev * (a * b * INR (List.length good) * c))
          | _, _, _ => None
          end)
  end.

(** ** Powders *)

(* members of CoherentInelastic_PolyXtal: CoherentInelastic_PolyXtal.h:78-95 *)
Record poly := mkPX { px_disp : disp; px_atoms : list catom; px_vol : R; px_DW : R -> R; px_T : R; px_max_omega : R; px_min_omega : R; px_epsilon : R;
  px_scattering : R; px_absorption : R }.
(* the constructor: CoherentInelastic_PolyXtal.cc:228-266; the assert is on the number of atoms *)
Definition new_poly (natoms : nat) (d : disp) (atoms : list catom) (a b c : vec3) (dw : R -> R) (T max_omega min_omega eps : R) : result poly :=
  if negb (Nat.eqb (List.length atoms) natoms) then Err Terminated
  else
    let vol := vdot a (vcross b c) in
    Ok (mkPX d atoms (if Rltb vol 0 then vol * -1 else vol) dw T max_omega min_omega eps
             (fold_left (fun s a => s + ca_coh a) atoms 0) (fold_left (fun s a => s + ca_abs a) atoms 0)).
(* absorption_coefficient, scattering_coefficient: CoherentInelastic_PolyXtal.cc:276-294 *)
Definition px_absorption_coefficient (k : poly) (v : vec3) : option R :=
  if (Reqb (px_vol k) 0 || Reqb (vnorm v) 0)%bool then None else Some (px_absorption k / px_vol k * (2200 / vnorm v) * 100).
(* in the group above: CoherentInelastic_PolyXtal.cc:276-294 *)
Definition px_scattering_coefficient (k : poly) : option R := if Reqb (px_vol k) 0 then None else Some (px_scattering k / px_vol k * 100).
(* Details::pick_v_f: CoherentInelastic_PolyXtal.cc:95-144; None is nan *)
Definition px_pick_v_f (eps : R) (v_i : vec3) (v_f_l v_Q_l u : R) : option vec3 :=
  let v_i_l := vnorm v_i in
  if Reqb (2 * v_i_l * v_f_l) 0 then None
  else
    let cos_theta := (v_i_l * v_i_l + v_f_l * v_f_l - v_Q_l * v_Q_l) / (2 * v_i_l * v_f_l) in
    let cos_theta_sq := if Rltb 1 (cos_theta * cos_theta) then 1 else cos_theta * cos_theta in
    let sin_theta := sqrt (1 - cos_theta_sq) in
    let phi := random u 0 (2 * physics_pi) in
    match axes_fixed eps v_i with
    | None => None
    | Some (e1, e2, e3) =>
        Some (vscale v_f_l (vadd (vadd (vscale (sin_theta * cos phi) e2) (vscale (sin_theta * sin phi) e3)) (vscale cos_theta e1)))
    end.
(* Details::pickQ: CoherentInelastic_PolyXtal.cc:147-159, Q_inCube: generateQ.icc:18-32; None is nan *)
Definition pickQ (max_omega Ei u1 u2 u3 : R) : option vec3 :=
  match E2k Ei, E2k (Ei + max_omega) with
  | Some a, Some b => let Qmax := a + b in Some (mkV (random u1 (- Qmax) Qmax) (random u2 (- Qmax) Qmax) (random u3 (- Qmax) Qmax))
  | _, _ => None
  end.
(* Details::pick_Ef: CoherentInelastic_PolyXtal.cc:194-210 *)
Definition px_pick_Ef (u Ei omega : R) : R := if Rltb omega Ei then (if Rleb (/ 2) u then Ei + omega else Ei - omega) else Ei + omega.
(* the condition of the loop, false if v_f_l is nan: CoherentInelastic_PolyXtal.cc:188 *)
Definition bad_Q (v_i_l v_Q_l : R) (v_f_l : option R) : bool :=
  match v_f_l with None => false | Some v_f_l => (Rltb v_Q_l (Rabs (v_i_l - v_f_l)) || Rltb (v_i_l + v_f_l) v_Q_l)%bool end.
(* Details::pick_a_valid_Q_vector: CoherentInelastic_PolyXtal.cc:162-191.  [last] are E_f and v_f_l, None as long as they have no value: "continue"
   leads to the condition, which reads them.  One element of the list of random numbers for each run of the loop *)
Fixpoint pick_a_valid_Q_vector (k : poly) (branch : nat) (E_i v_i_l : R) (draws : list draw) (last : option (R * option R)) : result (vec3 * R * option R) :=
  match draws with
  | [] => Err OutOfFuel
  | d :: draws' =>
      match pickQ (px_max_omega k) E_i (dr_1 d) (dr_2 d) (dr_branch d) with
      | None => Err UndefinedBehaviour
      | Some Q =>
          let v_Q_l := k2v * vnorm Q in
          let omega := en (px_disp k) branch Q in
          let now := if Rltb omega (px_min_omega k) then last
                     else let E_f := px_pick_Ef (dr_root d) E_i omega in Some (E_f, E2v E_f) in
          match now with
          | None => Err UndefinedBehaviour
          | Some (E_f, v_f_l) => if bad_Q v_i_l v_Q_l v_f_l then pick_a_valid_Q_vector k branch E_i v_i_l draws' now else Ok (Q, E_f, v_f_l)
          end
      end
  end.
(* Details::calc_AccessibleReciVol: CoherentInelastic_PolyXtal.cc:213-225; None is nan, or q = 0 *)
Definition calc_AccessibleReciVol (max_omega Ei : R) : option R :=
  match E2k max_omega, E2k Ei with
  | Some q, Some ki =>
      if Reqb q 0 then None
      else
        let x := ki / q in
        match E2k (Ei + max_omega / (1 + 76 / 10 * x ^ 4)) with
        | None => None
        | Some b => let Q1 := ki + b in Some (4 / 3 * physics_pi * Q1 * Q1 * Q1)
        end
  | _, _ => None
  end.
(* S: CoherentInelastic_PolyXtal.cc:297-389; the velocity and the probability afterwards.  [u] for the branch, [u'] for the azimuth *)
Definition px_S (k : poly) (u u' : R) (draws : list draw) (ev : event) : result (option vec3 * option R) :=
  let v_i_l := vnorm (e_v ev) in
  let E_i := v2E v_i_l in
  if Nat.eqb (nBr (px_disp k)) 0 then Err UndefinedBehaviour
  else
    let branch := random_index u (nBr (px_disp k)) in
    let! (Q, E_f, v_f_l) := pick_a_valid_Q_vector k branch E_i v_i_l draws None in
    match v_f_l with
    | None => Ok (None, None)
    | Some v_f_l =>
        let omega := E_i - E_f in
        let v_Q_l := k2v * vnorm Q in
        let v_f := px_pick_v_f (px_epsilon k) (e_v ev) v_f_l v_Q_l u' in
        let k_i_l := v2k * v_i_l in
        let k_f_l := v2k * v_f_l in
        let Q_l := v2k * v_Q_l in
        match phonon_bose_factor omega (px_T k), sum_of_scattering_length Q 0 (fun i => pol (px_disp k) branch i Q) (px_atoms k),
              calc_AccessibleReciVol (px_max_omega k) E_i with
        | Some therm_factor, Some sclen, Some vol =>
            if (Reqb (px_scattering k) 0 || Reqb omega 0 || Reqb k_i_l 0 || Reqb k_f_l 0 || Reqb Q_l 0)%bool then Ok (v_f, None)
            else
              let norm_of_slsum := cnorm sclen * (1 / 10 ^ 30 * 4 * physics_pi) / (px_scattering k * (1 / 10 ^ 28)) in
              let twice := if Rltb omega E_i then 2 else 1 in
              Ok (v_f, Some (e_p ev * INR (nBr (px_disp k)) * twice * ksquare2E norm_of_slsum / Rabs omega * exp (- px_DW k Q_l) * (k_f_l / k_i_l)
                             * therm_factor * (1 / k_i_l / k_f_l / Q_l) * vol / (8 * physics_pi)))
        | _, _, _ => Ok (v_f, None)
        end
    end.
