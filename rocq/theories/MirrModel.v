(** A single mirror plate: packages/legacycomponents/mcstas2/share/McStas-Components/optics/Mirror.comp, with lib/{phys_constants.h,tracing_macros.h}.

    Numbers are real numbers: rounding is not modelled.  The random number is an argument. *)
From Coq Require Import Reals.
From Verif Require Import Base RotModel ChanModel ShapeModel OptModel GuidModel.
Open Scope R_scope.

(* the parameters: Mirror.comp:58-59; [p_table] is Table_Value of the file when reflect is given (82-85, 111-112), an arbitrary function *)
Record plate := mkPlate { p_xlength : R; p_yheight : R; p_R0 : R; p_Qc : R; p_alpha : R; p_m : R; p_W : R; p_center : bool; p_transmit : bool; p_table : option (R -> R) }.
(* intersect: Mirror.comp:100-102 *)
Definition plate_hit (c : plate) (x y : R) : bool :=
  if p_center c then (Rleb (- p_xlength c / 2) x && Rleb x (p_xlength c / 2) && Rleb (- p_yheight c / 2) y && Rleb y (p_yheight c / 2))%bool
  else (Rleb 0 x && Rleb x (p_xlength c) && Rleb 0 y && Rleb y (p_yheight c))%bool.
(* B before it is clipped: Mirror.comp:111-122.  For W = 0 the argument is -inf when q < m Qc, with tanh = -1, and inf when q > m Qc; nan (q = m Qc) fails arg < 10 *)
Definition plate_B (c : plate) (q : R) : R :=
  match p_table c with
  | Some f => f q
  | None =>
      if Rltb (p_Qc c) q then
        if Reqb (p_W c) 0 then (if Rltb q (p_m c * p_Qc c) then p_R0 c * (1 / 2 * (1 - -1) * (1 - p_alpha c * (q - p_Qc c))) else 0)
        else let arg := (q - p_m c * p_Qc c) / p_W c in
             if Rltb arg 10 then p_R0 c * (1 / 2 * (1 - tanh arg) * (1 - p_alpha c * (q - p_Qc c))) else 0
      else p_R0 c
  end.
(* B: Mirror.comp:123-124 *)
Definition clip (B : R) : R := if Rltb B 0 then 0 else if Rltb 1 B then 1 else B.
(* TRACE: Mirror.comp:88-143 *)
Definition plate_trace (c : plate) (u : R) (r : ray) : ray :=
  let v := r_vel r in
  if Reqb (vz v) 0 then r
  else
    let dt := - vz (r_pos r) / vz v in
    if Rltb dt 0 then r
    else
      let x := vx (r_pos r) + vx v * dt in
      let y := vy (r_pos r) + vy v * dt in
      if plate_hit c x y then
        let q := Rabs (2 * vz v * V2Q) in
        let back := mkRay (mkV x y 0) (mkV (vx v) (vy v) (- vz v)) (r_t r + dt) (r_s1 r) (r_s2 r) (r_p r) in
        let through := mkRay (mkV x y 0) v (r_t r + dt) (r_s1 r) (r_s2 r) (r_p r) in
        if Reqb (p_m c) 0 then absorb back                                     (* 109-110 *)
        else
          let B := clip (plate_B c q) in
          if p_transmit c then (if (Reqb B 0 || Rleb B u)%bool then through else back)   (* 132 *)
          else if Reqb B 0 then absorb back else with_p back (r_p r * B)       (* 127-128 *)
      else r.                                                                  (* 137-141 *)
