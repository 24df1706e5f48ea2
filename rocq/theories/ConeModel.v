(** Directions in a cone (packages/mccomponents/lib/math/random/geometry.cc, kernels/sample/phonon/TargetCone.cc) and two kernels that use
    them: kernels/sample/SANS/SpheresKernel.cc and kernels/sample/DGSSXResKernel.cc.

    Doubles are reals; mcni::PI is pi.  Random numbers are arguments in [0,1].  None is nan. *)
From Coq Require Import Reals.
From Verif Require Import Base RotModel ChanModel ShapeModel ScatModel UnitModel KinModel PowdModel.
Open Scope R_scope.

(* costheta_max: geometry.cc:39-41; None is 0/0 *)
Definition costheta_max (target_dir : vec3) (target_radius : R) : option R :=
  let l2 := vdot target_dir target_dir in
  if Reqb (target_radius * target_radius + l2) 0 then None
  else let c := sqrt (l2 / (target_radius * target_radius + l2)) in Some (if Rltb target_radius 0 then c * -1 else c).
(* n and u: geometry.cc:49-56 *)
Definition normal_of (target_dir : vec3) : vec3 :=
  if (Reqb (vx target_dir) 0 && Reqb (vz target_dir) 0)%bool then mkV 1 0 0 else mkV (- vz target_dir) 0 (vx target_dir).
(* in the group above: geometry.cc:49-56 *)
Definition axis_of (target_dir : vec3) : vec3 := vcross target_dir (normal_of target_dir).
(* choose_direction: geometry.cc:31-61; the direction and the solid angle.  The argument of acos is in [-1,1].  rotate is called with its
   default epsilon *)
Definition choose_direction_to (u1 u2 : R) (target_dir : vec3) (target_radius : R) : option vec3 * option R :=
  match costheta_max target_dir target_radius with
  | None => (None, None)
  | Some cm =>
      let solidangle := 2 * PI * (1 - cm) in
      let theta := acos (random u1 cm 1) in
      let phi := random u2 0 (2 * PI) in
      let dir := match rotate (1 / 10 ^ 7) target_dir (axis_of target_dir) (Some theta) with
                 | None => None
                 | Some dir => rotate (1 / 10 ^ 7) dir target_dir (Some phi)
                 end in
      (dir, Some solidangle)
  end.
(* choose_scattering_direction: TargetCone.cc:34-43 *)
Definition choose_scattering_direction (u1 u2 : R) (direction : vec3) (radius : R) : option vec3 * option R :=
  if Rleb radius 0 then (Some (choose_direction u1 u2), Some (4 * PI)) else choose_direction_to u1 u2 direction radius.

(* members of SANSSpheresKernel: SpheresKernel.h:38-43, SpheresKernel.cc:21-38; m_max_angle_tan is not kept, it is tan m_max_angle.  [max_angle] in degrees *)
Record sans := mkSANS { sn_absorption : R; sn_R : R; sn_phi : R; sn_delta_rho : R; sn_max_angle : R; sn_solidangle : R }.
(* in the group above: SpheresKernel.h:38-43, SpheresKernel.cc:21-38 *)
Definition new_sans (absorption R0 phi delta_rho max_angle : R) : sans :=
  mkSANS absorption R0 phi delta_rho (max_angle / 180 * PI) (2 * PI * (1 - cos (max_angle / 180 * PI))).
(* absorption_coefficient: SpheresKernel.cc:41-46; None is a division by zero *)
Definition sans_absorption (k : sans) (v : vec3) : option R := if Reqb (vnorm v) 0 then None else Some (sn_absorption k * (2200 / vnorm v)).
(* scattering_coefficient: SpheresKernel.cc:49-60 *)
Definition sans_scattering (k : sans) (v : vec3) : option R :=
  if Reqb (v2k * vnorm v) 0 then None
  else let wl := 2 * PI / (v2k * vnorm v) in Some (3 / 2 * sn_phi k * sn_delta_rho k * sn_delta_rho k * wl * wl * sn_R k).
(* the form factor f: SpheresKernel.cc:90-91; None is 0/0 *)
Definition form_factor (qR : R) : option R := if Reqb qR 0 then None else Some (3 * (sin qR - qR * cos qR) / qR / qR / qR).
(* S: SpheresKernel.cc:66-98; the velocity and the probability, None is nan *)
Definition sans_S (k : sans) (u1 u2 : R) (ev : event) : option vec3 * option R :=
  let vi := vnorm (e_v ev) in
  let ki := v2k * vi in
  let vec_ki := vscale v2k (e_v ev) in
  match fst (choose_direction_to u1 u2 vec_ki (tan (sn_max_angle k) * ki)) with
  | None => (None, None)
  | Some vec_kf =>
      let prob_factor := sn_solidangle k / 4 / PI in
      let q := vnorm (vsub vec_ki vec_kf) in
      (Some (vscale k2v vec_kf),
       match form_factor (q * sn_R k) with
       | None => None
       | Some f => Some (e_p ev * (prob_factor * (2 / 9 / PI * sn_R k * sn_R k * ki * ki * f * f)))
       end)
  end.

(* members of DGSSXResKernel: DGSSXResKernel.cc:36-51 *)
Record dgs := mkDGS { dg_position : vec3; dg_radius : R; dg_tof : R; dg_dtof : R; dg_absorption : R; dg_scattering : R }.
(* absorption_coefficient, scattering_coefficient: DGSSXResKernel.cc:54-71 *)
Definition dgs_absorption (k : dgs) (v : vec3) : option R := if Reqb (vnorm v) 0 then None else Some (dg_absorption k * (2200 / vnorm v)).
(* in the group above: DGSSXResKernel.cc:54-71 *)
Definition dgs_scattering (k : dgs) (v : vec3) : R := dg_scattering k.
(* S: DGSSXResKernel.cc:82-119; the velocity and the probability, None is inf or nan *)
Definition dgs_S (k : dgs) (u1 u2 u3 : R) (ev : event) : option vec3 * option R :=
  let displacement := vsub (dg_position k) (e_r ev) in
  match choose_direction_to u1 u2 displacement (dg_radius k) with
  | (vf_dir, solid_angle) =>
      let vf_dir := match vf_dir with None => None | Some d => normalize d end in
      let tof := random u3 (dg_tof k - dg_dtof k / 2) (dg_tof k + dg_dtof k / 2) in
      if Reqb (tof - e_t ev) 0 then (None, None)
      else
        let vf := vnorm displacement / (tof - e_t ev) in
        let vf_vec := option_map (vscale vf) vf_dir in
        let Ef := v2E vf in
        (vf_vec,
         match solid_angle with
         | None => None
         | Some solid_angle =>
             if (Reqb tof 0 || Reqb (vnorm (e_v ev)) 0)%bool then None
             else
               let dE_over_dt := 2 * Ef / tof in
               let prob := solid_angle / 4 / PI * dg_dtof k * dE_over_dt in
               let vf_over_vi := vf / vnorm (e_v ev) in
               Some (e_p ev * (prob * vf_over_vi))
         end)
  end.
