(** Model of powder diffraction: packages/mccomponents/lib/kernels/sample/diffraction/SimplePowderDiffractionKernel.{h,cc} (cited as Kernel.cc),
    SimplePowderDiffractionData.h, packages/mcni/lib/geometry/utils.icc, packages/mccomponents/python/mccomponents/sample/diffraction/powder.py.

    Doubles are reals; mcni::PI is pi.  Random numbers are arguments in [0,1], both ends included (see ScatModel); those that are not drawn are not
    used.  None is a number or a velocity that is inf or nan. *)
From Coq Require Import Reals.
From Verif Require Import Base RotModel ChanModel ShapeModel ScatModel UnitModel KinModel.
Open Scope R_scope.

(* rotate: packages/mcni/lib/geometry/utils.icc:16-47; the default of epsilon is in utils.h:22.  [angle] None is nan *)
Definition rotate (epsilon : R) (v c : vec3) (angle : option R) : option vec3 :=
  match normalize c with
  | None => None
  | Some c1 =>
      let v_pl := vscale (vdot v c1) c1 in
      if Reqb (vnorm v) 0 then None
      else if Rltb (Rabs (1 - vnorm v_pl / vnorm v)) epsilon then Some v
      else
        let v_pp := vsub v v_pl in
        match normalize v_pp, angle with
        | Some e_pp, Some angle =>
            let t := vcross e_pp c1 in
            let v_pp_r := vscale (vnorm v_pp) (vsub (vscale (cos angle) e_pp) (vscale (sin angle) t)) in
            Some (vadd v_pp_r v_pl)
        | _, _ => None
        end
  end.
(* math::random(size_t, size_t): packages/mccomponents/lib/math/random.cc:30-33, with min = 0 *)
Definition random_index (u : R) (n : nat) : nat := Nat.modulo (Z.to_nat (truncZ (random u 0 (INR n)))) n.
(* std::asin: nan outside [-1,1]; Kernel.cc:233, 243 *)
Definition std_asin (x : R) : option R := if (Rltb x (-1) || Rltb 1 x)%bool then None else Some (asin x).

(* SimplePowderDiffractionData::Peak: SimplePowderDiffractionData.h:20-30 *)
Record peak := mkPeak { pk_q : R; pk_F_squared : R; pk_multiplicity : Z; pk_line_width : R; pk_DebyeWaller : R }.
(* SimplePowderDiffractionData: SimplePowderDiffractionData.h:19-63; of the members those the kernel uses *)
Record powder_data := mkPD { pd_peaks : list peak; pd_volume : R; pd_absorption : R }.
(* the kernel: Kernel.cc:23-50 and SimplePowderDiffractionKernel.h:54-58.  Unused members left out; pack is 1, XsectionFactor 100 *)
Record powder := mkPow { pw_q_v : list R; pw_w_v : list R; pw_s_v2 : list R; pw_absorption_coeff : R; pw_volume : R; pw_d_phi : R }.

(* my_s_v2[i]: Kernel.cc:77-82 *)
Definition peak_s_v2 (unitcell_volume : R) (p : peak) : option R :=
  if (Reqb unitcell_volume 0 || Reqb (pk_q p) 0)%bool then None
  else Some (4 * PI * PI * PI * 1 * (if Reqb (pk_DebyeWaller p) 0 then 1 else pk_DebyeWaller p) / unitcell_volume / (v2k * v2k)
             * (IZR (pk_multiplicity p) * pk_F_squared p / pk_q p) * 100).
(* assert(q_v[i-1] <= q_v[i]): Kernel.cc:91 *)
Fixpoint ascending (l : list R) : bool :=
  match l with a :: (b :: _) as l => (Rleb a b && ascending l)%bool | _ => true end.
(* an array of numbers that are numbers *)
Fixpoint all_some (l : list (option R)) : option (list R) :=
  match l with [] => Some [] | Some x :: l => option_map (cons x) (all_some l) | None :: _ => None end.
(* the constructor: Kernel.cc:55-112, 145-149.  A failed assertion ends the process (unless compiled without assertions) *)
Definition new_powder (data : powder_data) (d_phi : R) : result (option powder) :=
  let V := pd_volume data in
  let q_v := map (fun p => pk_q p * k2v) (pd_peaks data) in
  if negb (ascending q_v) then Err Terminated
  else Ok (match all_some (map (peak_s_v2 V) (pd_peaks data)) with
           | None => None
           | Some s => if Reqb V 0 then None
                       else Some (mkPow q_v (map pk_line_width (pd_peaks data)) s (1 * pd_absorption data / V * 100) V d_phi)
           end).
(* scattering_xs: Kernel.cc:123-142 *)
Definition powder_xs (k : powder) (v : vec3) : option R :=
  let v_l := vnorm v in
  let xs_v2 := fold_left (fun xs p => if Rleb (fst p / 2) v_l then xs + snd p else xs) (combine (pw_q_v k) (pw_s_v2 k)) 0 in
  if Reqb v_l 0 then None else Some (xs_v2 / (v_l * v_l)).
(* absorption_coefficient: Kernel.cc:152-159 *)
Definition powder_absorption (k : powder) (v : vec3) : option R :=
  let v_l := vnorm v in if Reqb v_l 0 then None else Some (pw_absorption_coeff k * 2200 / v_l).
(* scattering_coefficient: Kernel.cc:162-169 *)
Definition powder_scattering (k : powder) (v : vec3) : option R := option_map (fun xs => xs / pw_volume k) (powder_xs k v).

(* the loop from peakindex = 1: Kernel.cc:212-215; [l] are q_v[1], q_v[2], ... *)
Fixpoint scatterable (v : R) (l : list R) : nat :=
  match l with [] => 1 | q :: l => if Rltb v (q / 2) then 1 else S (scatterable v l) end.
(* alpha0: Kernel.cc:236-265; the second component is m_d_phi afterwards.  An angle that is nan is None *)
Definition azimuth (d_phi theta u : R) : option R * R :=
  let whole := Some (PI * random u (-1) 1) in
  if Reqb d_phi 0 then (whole, d_phi)
  else
    let s := sin (d_phi * (PI / 180) / 2) in
    if Reqb (sin (2 * theta)) 0 then (if Reqb s 0 then (None, d_phi) else (whole, 0))          (* nan, or inf > 1 *)
    else
      let arg := s / sin (2 * theta) in
      if (Rltb arg (-1) || Rltb 1 arg)%bool then (whole, 0)
      else
        let alpha := Rabs (2 * asin arg) in
        let alpha0 := 2 * random u 0 1 * alpha in
        (Some (if Rltb alpha alpha0 then PI + (alpha0 - 15 / 10 * alpha) else alpha0 - 5 / 10 * alpha), d_phi).
(* scatter: Kernel.cc:179-310.  Random numbers: choice of the peak, width of the peak, place on the cone *)
Definition powder_scatter (k : powder) (u_peak u_width u_azimuth : R) (ev : event) : result (powder * kevent) :=
  let vel := e_v ev in
  let v := vnorm vel in
  match pw_q_v k with
  | [] => Err UndefinedBehaviour                                                              (* q_v[0] of an empty array *)
  | q0 :: qs =>
      if Rltb v (q0 / 2) then Ok (k, with_pv ev (-1) (Some vel))
      else if Reqb v 0 then Ok (k, with_pv ev (-1) None)
      else
        let Npeaks := scatterable v qs in
        let i := if Nat.ltb 1 Npeaks then random_index u_peak Npeaks else 0%nat in
        let q := nth i (pw_q_v k) 0 in
        let w := nth i (pw_w_v k) 0 in
        let arg := if Reqb w 0 then q / (2 * v) else q * (1 + w * random u_width (-1) 1) / (2 * v) in
        let scatter_xs := nth i (pw_s_v2 k) 0 / (v * v) * INR Npeaks in
        match std_asin arg with
        | None => Ok (k, with_pv ev (-1) None)
        | Some theta =>
            let '(alpha0, d_phi) := azimuth (pw_d_phi k) theta u_azimuth in
            let k' := mkPow (pw_q_v k) (pw_w_v k) (pw_s_v2 k) (pw_absorption_coeff k) (pw_volume k) d_phi in
            let n := if Rltb (Rabs (vdot (mkV 1 0 0) vel)) (Rabs (vdot (mkV 0 0 1) vel)) then mkV 1 0 0 else mkV 0 0 1 in
            let tmp_v := vcross vel n in
            let vout := match rotate (1 / 10 ^ 7) vel tmp_v (Some (2 * theta)) with
                        | None => None
                        | Some vout => rotate (1 / 10 ^ 7) vout vel alpha0
                        end in
            match vout with
            | None => Ok (k', with_pv ev (-1) None)
            | Some vout => Ok (k', with_pv ev (e_p ev * (scatter_xs / pw_volume k)) (Some vout))
            end
        end
  end.

(* one term of the sum: powder.py:60-65; None is a division by zero *)
Definition cone_term (k l ucvol : R) (p : peak) : option R :=
  if Rltb (2 * k) (pk_q p) then Some 0
  else
    let sinthetaover2 := pk_q p / 2 / k in
    if (Reqb ucvol 0 || Reqb sinthetaover2 0)%bool then None
    else Some (l ^ 3 / ucvol / 4 / sinthetaover2 * pk_F_squared p * IZR (pk_multiplicity p)).
(* total_scattering_cross_section: powder.py:29-67 *)
Definition total_scattering_cross_section (Ei : R) (ucvol : R) (peaks : list peak) : option R :=
  match py_e2k Ei with
  | None => None
  | Some k => if Reqb k 0 then None
              else option_map (fun l => fold_left Rplus l 0) (all_some (map (cone_term k (PI * 2 / k) ucvol) peaks))
  end.
