(** Velocity selectors: packages/legacycomponents/mcstas2/share/McStas-Components/optics/{V_selector,Selector}.comp.

    Numbers are real numbers: rounding is not modelled.  The random number is an argument.  A division by zero (inf or nan) is ZeroDivisionError.  Gravity is the
    argument g of OptModel.  An ABSORB inside PROP_DT or PROP_Z0 does not end the trace. *)
From Coq Require Import Reals.
From Verif Require Import Base RotModel ChanModel ShapeModel OptModel.
Open Scope R_scope.

(* the parameters of V_selector: V_selector.comp:53 *)
Record vselector := mkVsel { v_width : R; v_height : R; v_l0 : R; v_r0 : R; v_phi : R; v_l1 : R; v_tb : R; v_rot : R; v_nb : R }.
(* omega: V_selector.comp:63-64 *)
Definition v_omega (c : vselector) : R := v_rot c * (2 * PI / 60).
(* phi_rad: V_selector.comp:65 *)
Definition v_phi_rad (c : vselector) : R := v_phi c * (PI / 180).
(* the aperture: V_selector.comp:73, 88; true when outside *)
Definition v_outside (c : vselector) (r : ray) : bool :=
  (Rltb (vx (r_pos r)) (- v_width c / 2) || Rltb (v_width c / 2) (vx (r_pos r)) || Rltb (vy (r_pos r)) (- v_height c / 2) || Rltb (v_height c / 2) (vy (r_pos r)))%bool.
(* r_i and r_f: V_selector.comp:78, 83; act_radius: Selector.comp:80 *)
Definition axis_radius (r0 : R) (r : ray) : R := sqrt (vx (r_pos r) * vx (r_pos r) + (vy (r_pos r) + r0) * (vy (r_pos r) + r0)).
(* theta_i and theta_f: V_selector.comp:79, 84; n_angle_in and n_angle_out in rad: Selector.comp:79, 93 *)
Definition axis_angle (r0 : R) (r : ray) : R := arctan2 (vx (r_pos r)) (vy (r_pos r) + r0).
(* TRACE: V_selector.comp:67-100 *)
Definition vselector_trace (g : option vec3) (c : vselector) (r : ray) : result ray :=
  let v := vz (r_vel r) in
  if Reqb v 0 then Ok (absorb r)                                               (* 69-70 *)
  else
    let r := prop_dt ((- v_l0 c / 2 - vz (r_pos r)) / v) g r in
    if v_outside c r then Ok (absorb r)
    else
      let! r := (if Reqb (2 * vz (r_vel r)) 0 then Err ZeroDivisionError else Ok (prop_dt ((v_l0 c - v_l1 c) / (2 * vz (r_vel r))) g r)) in
      let r_i := axis_radius (v_r0 c) r in
      let theta_i := axis_angle (v_r0 c) r in
      let! r := (if Reqb (vz (r_vel r)) 0 then Err ZeroDivisionError else Ok (prop_dt (v_l1 c / vz (r_vel r)) g r)) in
      let r_f := axis_radius (v_r0 c) r in
      let theta_f := axis_angle (v_r0 c) r in
      let! r := (if Reqb (2 * vz (r_vel r)) 0 then Err ZeroDivisionError else Ok (prop_dt ((v_l0 c - v_l1 c) / (2 * vz (r_vel r))) g r)) in
      if v_outside c r then Ok (absorb r)
      else
        let r_mean := (r_i + r_f) / 2 in
        let d_s_phi := theta_f - theta_i in
        if (Reqb r_mean 0 || Reqb (vz (r_vel r)) 0)%bool then Err ZeroDivisionError
        else
          let A := v_nb c / (2 * PI) * (v_tb c / r_mean + Rabs (v_phi_rad c + d_s_phi - v_omega c * v_l1 c / vz (r_vel r))) in
          if Rleb 1 A then Ok (absorb r) else Ok (with_p r (r_p r * (1 - A))).

(* the parameters of Selector: Selector.comp:60 *)
Record selector := mkSel { s_frame : opening; s_len : R; s_num : R; s_width : R; s_radius : R; s_alfa : R; s_feq : R }.
(* the frame: Selector.comp:72, 88; true when outside *)
Definition s_outside (c : selector) (r : ray) : bool :=
  let o := s_frame c in
  (Rltb (vx (r_pos r)) (xmin o) || Rltb (xmax o) (vx (r_pos r)) || Rltb (vy (r_pos r)) (ymin o) || Rltb (ymax o) (vy (r_pos r)))%bool.
(* TRACE: Selector.comp:62-101.  E (71) is not used *)
Definition selector_trace (g : option vec3) (c : selector) (u : R) (r : ray) : result ray :=
  let r := prop_z0 g r in
  if s_outside c r then Ok (absorb r)
  else
    if Reqb (vz (r_vel r)) 0 then Err ZeroDivisionError
    else
      let dt := s_len c / vz (r_vel r) in
      let n_angle_in := axis_angle (s_radius c) r * (180 / PI) in
      let act_radius := axis_radius (s_radius c) r in
      if (Reqb act_radius 0 || Reqb (s_num c) 0)%bool then Err ZeroDivisionError
      else
        let closed_angle := s_width c / act_radius * (180 / PI) in
        let open_angle := 360 / s_num c - closed_angle in
        let sel_phase := open_angle * u in
        if Reqb (closed_angle + open_angle) 0 then Err ZeroDivisionError
        else
          let r := with_p r (r_p r * (open_angle / (closed_angle + open_angle))) in
          let r := prop_dt dt g r in
          if s_outside c r then Ok (absorb r)
          else
            let n_angle_out := axis_angle (s_radius c) r * (180 / PI) in
            let sel_phase := sel_phase + s_feq c * dt * 360 - s_alfa c in
            if (Rltb n_angle_out (n_angle_in - sel_phase) || Rltb (n_angle_in - sel_phase + open_angle) n_angle_out)%bool then Ok (absorb r) else Ok r.
