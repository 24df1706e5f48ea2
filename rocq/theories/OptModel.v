(** Neutrons in beamline components of McStas: propagation with and without gravity, slit, beamstop, collimator and disk choppers.
    packages/legacycomponents/mcstas2/lib/{propagators.h,tracing_macros.h,Component.h,Component.cc,Gravity.h,Gravity.cc,geometry.cc},
    packages/legacycomponents/mcstas2/share/McStas-Components/optics/{Arm,Slit,Beamstop,Collimator_linear,DiskChopper,DiskChopper_v2}.comp.

    Numbers are real numbers: rounding is not modelled.  Random numbers are arguments.  A division by zero (inf or nan) is ZeroDivisionError.
    exit() is Terminated. *)
From Coq Require Import Reals Lra.
From Verif Require Import Base RotModel ChanModel ShapeModel.
Open Scope R_scope.

(* the arguments of trace: Component.h:44-49; x,y,z are [r_pos], vx,vy,vz are [r_vel] *)
Record ray := mkRay { r_pos : vec3; r_vel : vec3; r_t : R; r_s1 : R; r_s2 : R; r_p : R }.

(* ABSORB: tracing_macros.h:33, p=-1 and return.  In the functions of propagators.h it returns to the component, which carries on; in the trace of a
   component it ends the trace *)
Definition absorb (r : ray) : ray := mkRay (r_pos r) (r_vel r) (r_t r) (r_s1 r) (r_s2 r) (-1).
(* an assignment to p: Collimator_linear.comp:81, 89, DiskChopper.comp:172, DiskChopper_v2.comp:156 *)
Definition with_p (r : ray) (p : R) : ray := mkRay (r_pos r) (r_vel r) (r_t r) (r_s1 r) (r_s2 r) p.
(* an assignment to t: DiskChopper.comp:171, DiskChopper_v2.comp:154 *)
Definition with_t (r : ray) (t : R) : ray := mkRay (r_pos r) (r_vel r) t (r_s1 r) (r_s2 r) (r_p r).

(* Gravity: Gravity.h:20-31, the acceleration for a direction; amplitude 9.8: Gravity.cc:18 *)
Definition gravity (dir : vec3) : vec3 := mkV (vx dir * (98 / 10)) (vy dir * (98 / 10)) (vz dir * (98 / 10)).

(* prop_dt_nogravity: propagators.h:27-37 *)
Definition prop_dt_nogravity (dt : R) (r : ray) : ray :=
  mkRay (mkV (vx (r_pos r) + vx (r_vel r) * dt) (vy (r_pos r) + vy (r_vel r) * dt) (vz (r_pos r) + vz (r_vel r) * dt))
        (r_vel r) (r_t r + dt) (r_s1 r) (r_s2 r) (r_p r).
(* prop_dt_withgravity: propagators.h:40-53 *)
Definition prop_dt_withgravity (dt : R) (a : vec3) (r : ray) : ray :=
  mkRay (mkV (vx (r_pos r) + (vx (r_vel r) * dt + vx a * dt * dt / 2))
             (vy (r_pos r) + (vy (r_vel r) * dt + vy a * dt * dt / 2))
             (vz (r_pos r) + (vz (r_vel r) * dt + vz a * dt * dt / 2)))
        (mkV (vx (r_vel r) + vx a * dt) (vy (r_vel r) + vy a * dt) (vz (r_vel r) + vz a * dt))
        (r_t r + dt) (r_s1 r) (r_s2 r) (r_p r).
(* prop_dt: propagators.h:55-71.  The component is given by its acceleration: None when gravity is off (Component.cc:21-53) *)
Definition prop_dt (dt : R) (g : option vec3) (r : ray) : ray :=
  if Rltb dt (- / 10 ^ 15) then absorb r                                       (* 64-66 *)
  else match g with Some a => prop_dt_withgravity dt a r | None => prop_dt_nogravity dt r end.

(* plane_intersect_Gfast: geometry.cc:574-615; the value and Idt.  dt0 is set only for B <> 0, and is read only then *)
Definition plane_intersect_Gfast (A B C : R) : Z * R :=
  let dt0 := - C / B in
  if Rltb (Rabs A) (/ 10 ^ 10) then (if Reqb B 0 then (0%Z, 0) else (3%Z, dt0))  (* 587-592 *)
  else
    let D := B * B - 4 * A * C in
    if Rleb 0 D then
      let sD := sqrt D in
      let dt1 := (- B + sD) / 2 / A in
      let dt2 := (- B - sD) / 2 / A in
      let ret := if Reqb B 0 then (if Rleb dt1 dt2 then 1 else 2)%Z
                 else (if Rltb (Rabs (dt0 - dt1)) (Rabs (dt0 - dt2)) then 1 else 2)%Z in
      (ret, if (ret =? 1)%Z then dt1 else dt2)
    else (0%Z, 0).

(* prop_z0_nogravity: propagators.h:75-85 *)
Definition prop_z0_nogravity (r : ray) : ray :=
  if Reqb (vz (r_vel r)) 0 then absorb r else prop_dt_nogravity (- vz (r_pos r) / vz (r_vel r)) r.
(* prop_z0_withgravity: propagators.h:87-98 *)
Definition prop_z0_withgravity (a : vec3) (r : ray) : ray :=
  let '(ret, dt) := plane_intersect_Gfast (- vz a / 2) (- vz (r_vel r)) (- vz (r_pos r)) in
  if (negb (ret =? 0)%Z && Rltb 0 dt)%bool then prop_dt_withgravity dt a r else absorb r.
(* prop_z0: propagators.h:100-111 *)
Definition prop_z0 (g : option vec3) (r : ray) : ray :=
  match g with Some a => prop_z0_withgravity a r | None => prop_z0_nogravity r end.

(* prop_x0_nogravity: propagators.h:115-125 *)
Definition prop_x0_nogravity (r : ray) : ray :=
  if Reqb (vx (r_vel r)) 0 then absorb r else prop_dt_nogravity (- vx (r_pos r) / vx (r_vel r)) r.
(* prop_x0_withgravity: propagators.h:127-138 *)
Definition prop_x0_withgravity (a : vec3) (r : ray) : ray :=
  let '(ret, dt) := plane_intersect_Gfast (- vx a / 2) (- vx (r_vel r)) (- vx (r_pos r)) in
  if (negb (ret =? 0)%Z && Rltb 0 dt)%bool then prop_dt_withgravity dt a r else absorb r.
(* prop_x0: propagators.h:140-151 *)
Definition prop_x0 (g : option vec3) (r : ray) : ray :=
  match g with Some a => prop_x0_withgravity a r | None => prop_x0_nogravity r end.

(* Arm: Arm.comp:37-39, an empty trace *)
Definition arm_trace (r : ray) : ray := r.

(* parameters of Slit and Beamstop: Slit.comp:46, Beamstop.comp:44 *)
Record opening := mkOp { xmin : R; xmax : R; ymin : R; ymax : R; radius : R }.
(* Slit, INITIALIZE: Slit.comp:49-56 *)
Definition slit_init (o : opening) (width height : R) : result opening :=
  let o := if Rltb 0 width then mkOp (- (width / 2)) (width / 2) (ymin o) (ymax o) (radius o) else o in
  let o := if Rltb 0 height then mkOp (xmin o) (xmax o) (- (height / 2)) (height / 2) (radius o) else o in
  if (Reqb (xmin o) 0 && Reqb (xmax o) 0 && Reqb (ymin o) 0 && Reqb (ymax o) 0 && Reqb (radius o) 0)%bool then Err Terminated else Ok o.
(* Slit, TRACE: Slit.comp:58-69 *)
Definition slit_trace (g : option vec3) (o : opening) (cut : R) (r : ray) : ray :=
  let r := prop_z0 g r in
  let x := vx (r_pos r) in
  let y := vy (r_pos r) in
  if ((Reqb (radius o) 0 && (Rltb x (xmin o) || Rltb (xmax o) x || Rltb y (ymin o) || Rltb (ymax o) y))
      || (negb (Reqb (radius o) 0) && Rltb (radius o * radius o) (x * x + y * y)))%bool then absorb r
  else if Rltb (r_p r) cut then absorb r else r.

(* Beamstop, INITIALIZE: Beamstop.comp:48-53; the single & binds less than == and gives the same as && *)
Definition beamstop_init (o : opening) : result opening :=
  if (Reqb (xmin o) 0 && Reqb (xmax o) 0 && Reqb (ymin o) 0 && Reqb (ymax o) 0 && Reqb (radius o) 0)%bool then Err Terminated else Ok o.
(* Beamstop, TRACE: Beamstop.comp:55-79.  ALLOW_BACKPROP sets a variable that nothing reads *)
Definition beamstop_trace (g : option vec3) (o : opening) (r : ray) : ray :=
  let saved := r in
  let r := prop_z0 g r in
  let x := vx (r_pos r) in
  let y := vy (r_pos r) in
  if ((negb (Reqb (radius o) 0) && Rleb (x * x + y * y) (radius o * radius o))
      || (Reqb (radius o) 0 && (Rltb (xmin o) x && Rltb x (xmax o) && Rltb (ymin o) y && Rltb y (ymax o))))%bool then absorb r
  else saved.

(* a / b of C++, inf and nan as an error: Collimator_linear.comp:70, 77, 81, 85, 89 *)
Definition quot (a b : R) : result R := if Reqb b 0 then Err ZeroDivisionError else Ok (a / b).

(* Collimator_linear, INITIALIZE: Collimator_linear.comp:58-62, MIN2RAD: phys_constants.h:22 *)
Definition slope_of (divergence : R) : R := tan (PI / (180 * 60) * divergence).
(* the test of lines 68 and 72 of Collimator_linear.comp *)
Definition outside (o : opening) (r : ray) : bool :=
  (Rltb (vx (r_pos r)) (xmin o) || Rltb (xmax o) (vx (r_pos r)) || Rltb (vy (r_pos r)) (ymin o) || Rltb (ymax o) (vy (r_pos r)))%bool.
(* Collimator_linear, TRACE: Collimator_linear.comp:63-92 *)
Definition collimator_trace (g : option vec3) (o : opening) (len slope slopeV transmission : R) (r : ray) : result ray :=
  let r := prop_z0 g r in
  if outside o r then Ok (absorb r)                                            (* 68-69 *)
  else
    let! dt := quot len (vz (r_vel r)) in                                      (* 70 *)
    let r := prop_dt dt g r in
    if outside o r then Ok (absorb r)                                          (* 72-73 *)
    else
      let horizontal :=                                                        (* 75-83 *)
        if Rltb 0 slope then
          let! q := quot (vx (r_vel r)) (vz (r_vel r)) in
          if Rltb slope (Rabs q) then Ok (absorb r, true)
          else Ok (with_p r (r_p r * (transmission * (1 - Rabs q / slope))), false)
        else Ok (r, false) in
      let! h := horizontal in
      let '(r, ended) := h in
      if ended then Ok r
      else if Rltb 0 slopeV then                                               (* 84-91 *)
        let! q := quot (vy (r_vel r)) (vz (r_vel r)) in
        if Rltb slopeV (Rabs q) then Ok (absorb r)
        else Ok (with_p r (r_p r * (transmission * (1 - Rabs q / slopeV))))
      else Ok r.

(* fmod of the C library for b > 0: DiskChopper.comp:178, 180, DiskChopper_v2.comp:163 *)
Definition fmod (a b : R) : R := a - IZR (truncZ (a / b)) * b.

(* parameters after INITIALIZE: DiskChopper.comp:66-73, DiskChopper_v2.comp:60-69.  Angles in rad *)
Record chopper := mkChop {
  c_radius : R; c_height : R; c_delta_y : R; c_omega : R; c_n : R; c_theta0 : R; c_delay : R; c_jitter : R; c_first : bool; c_npulse : R; c_absout : bool;
  c_Tg : R; c_To : R; c_Tc : R }.

(* DiskChopper, INITIALIZE: DiskChopper.comp:75-149.  asin of a number above 1 is nan in C, here ValueError; a radius of 0 is then refused by line 96, here before
   the asin.  IsFirst and compat are given as booleans.  phi_0 is not read by TRACE *)
Definition chopper_init (theta_0 rad h omega n j theta_1 t_0 : R) (IsFirst : bool) (n_pulse : R) (abs_out : bool) (phi_0 w wc : R) (compat : bool) : result chopper :=
  let height := if Reqb h 0 then rad else h in                                   (* 78-82 *)
  if Rleb rad 0 then Err Terminated else
  let! theta_0 := if Reqb w 0 then Ok theta_0 else match arcsin ((w / 2) / rad) with Some a => Ok (2 * (180 / PI) * a) | None => Err ValueError end in
  let! theta_1 := if Reqb wc 0 then Ok theta_1 else match arcsin ((wc / 2) / rad) with Some a => Ok (2 * (180 / PI) * a) | None => Err ValueError end in
  let delta_y := if compat then rad else rad - height / 2 in                     (* 90-94 *)
  if (Rleb n 0 || Rltb theta_0 0)%bool then Err Terminated                     (* 96-98 *)
  else if Rleb 360 (n * theta_0) then Err Terminated                           (* 99-101 *)
  else if Rleb theta_0 theta_1 then Err Terminated                             (* 102-104 *)
  else if (negb (Reqb h 0) && Rltb rad h)%bool then Err Terminated             (* 105-107 *)
  else if (IsFirst && Rleb n_pulse 0)%bool then Err Terminated                 (* 108-110 *)
  else
    let omega := if Reqb omega 0 then / 10 ^ 15 else omega in                    (* 111-114 *)
    let theta_1 := if IsFirst then 0 else theta_1 in                             (* 119-122 *)
    let theta_0 := theta_0 * (PI / 180) in
    let theta_1 := theta_1 * (PI / 180) in
    let t_0 := t_0 * (omega / Rabs omega) in                                     (* 129 *)
    let t_0 := if Reqb phi_0 0 then t_0 else omega * (phi_0 * (PI / 180)) / (omega * omega) in  (* 130-139 *)
    Ok (mkChop rad height delta_y omega n theta_0 t_0 j IsFirst n_pulse abs_out (2 * PI / Rabs omega / n) (theta_0 / Rabs omega) (theta_1 / Rabs omega)).

(* DiskChopper, TRACE: DiskChopper.comp:151-184.  [u] is the value of randpm1, [k] of randnorm, [w] of rand01.  yprime is set before PROP_Z0 (156, 157) *)
Definition chopper_trace (g : option vec3) (c : chopper) (u k w : R) (r : ray) : ray :=
  let yprime := vy (r_pos r) + c_delta_y c in
  let r := prop_z0 g r in
  let x := vx (r_pos r) in
  if (Rltb (c_radius c * c_radius c) (x * x + yprime * yprime) && c_absout c)%bool then absorb r          (* 160-162 *)
  else if Rltb (x * x + yprime * yprime) ((c_radius c - c_height c) * (c_radius c - c_height c)) then absorb r  (* 164-166 *)
  else if c_first c then                                                                              (* 169-173 *)
    let t := arctan2 x yprime / c_omega c + c_To c * u / 2 - c_delay c + c_jitter c * k + IZR (floorZ (c_npulse c * w)) * c_Tg c in
    with_p (with_t r t) (r_p r * (c_n c * c_theta0 c / 2 / PI))
  else
    let toff := Rabs (r_t r - arctan2 x yprime / c_omega c - c_delay c + c_jitter c * k) in                 (* 176 *)
    if Rltb (fmod (toff + c_Tc c / 2) (c_Tg c)) (c_Tc c) then absorb r                                    (* 178 *)
    else if Rltb (c_To c) (fmod (toff + c_To c / 2) (c_Tg c)) then absorb r                               (* 180 *)
    else r.

(* DiskChopper_v2, INITIALIZE: DiskChopper_v2.comp:71-132.  asin of a number above 1, or of a quotient by 0, is nan in C, here ValueError *)
Definition chopper2_init (theta_0 rad yheight nu nslit jitter delay : R) (isfirst : bool) (n_pulse : R) (abs_out : bool) (phase xwidth : R) : result chopper :=
  let height := if Reqb yheight 0 then rad else yheight in                       (* 74-78 *)
  let delta_y := rad - height / 2 in
  let omega := 2 * PI * nu in
  let! theta_0 := if (negb (Reqb xwidth 0) && Reqb theta_0 0 && negb (Reqb rad 0))%bool
                  then (if Reqb delta_y 0 then Err ValueError
                        else match arcsin (xwidth / 2 / delta_y) with Some a => Ok (2 * (180 / PI) * a) | None => Err ValueError end)
                  else Ok theta_0 in                                           (* 81 *)
  if (Rleb nslit 0 || Rleb theta_0 0 || Rleb rad 0)%bool then Err Terminated
  else if Rleb 360 (nslit * theta_0) then Err Terminated
  else if (negb (Reqb yheight 0) && Rltb rad yheight)%bool then Err Terminated
  else if (isfirst && Rleb n_pulse 0)%bool then Err Terminated
  else
    let omega := if Reqb omega 0 then / 10 ^ 15 else omega in
    let theta_0 := theta_0 * (PI / 180) in
    let delay := if Reqb phase 0 then delay else phase * (PI / 180) / Rabs omega in   (* 107-116 *)
    Ok (mkChop rad height delta_y omega nslit theta_0 delay jitter isfirst n_pulse abs_out (2 * PI / Rabs omega / nslit) (theta_0 / Rabs omega) 0).

(* DiskChopper_v2, TRACE: DiskChopper_v2.comp:134-167.  No random number is drawn when the jitter is 0 or there is one pulse *)
Definition chopper2_trace (g : option vec3) (c : chopper) (u k w : R) (r : ray) : ray :=
  let r := prop_z0 g r in
  let x := vx (r_pos r) in
  let yprime := vy (r_pos r) + c_delta_y c in
  let jit := if Reqb (c_jitter c) 0 then 0 else c_jitter c * k in
  if (c_absout c && Rltb (c_radius c * c_radius c) (x * x + yprime * yprime))%bool then absorb r          (* 142-144 *)
  else if Rltb (x * x + yprime * yprime) ((c_radius c - c_height c) * (c_radius c - c_height c)) then absorb r  (* 146-148 *)
  else if c_first c then                                                                              (* 151-157 *)
    let t := arctan2 x yprime / c_omega c + c_To c * u / 2 + c_delay c + jit
             + (if Rltb 1 (c_npulse c) then IZR (floorZ (c_npulse c * w)) * c_Tg c else 0) in
    with_p (with_t r t) (r_p r * (c_n c * c_theta0 c / 2 / PI))
  else
    let toff := Rabs (r_t r - arctan2 x yprime / c_omega c - c_delay c - jit) in                          (* 160 *)
    if Rltb (c_To c) (fmod (toff + c_To c / 2) (c_Tg c)) then absorb r else r.                             (* 163 *)
