(** The neutron guide of McStas: packages/legacycomponents/mcstas2/share/McStas-Components/optics/Guide.comp.

    Numbers are real numbers: rounding is not modelled.  An infinite time is None.  exit() is Terminated.  The loop of TRACE has no bound in C; here it
    has fuel, and OutOfFuel stands for a loop that has not ended yet. *)
From Coq Require Import Reals List.
From Verif Require Import Base RotModel ChanModel ShapeModel OptModel.
Import ListNotations.
Open Scope R_scope.

(* parameters: Guide.comp:62-63; [g_table] is the value of column 1 of the table in the file [reflect] as a function of q (Table_Value, 201), None without file *)
Record guide := mkG { g_w1 : R; g_h1 : R; g_w2 : R; g_h2 : R; g_l : R; g_R0 : R; g_Qc : R; g_alpha : R; g_m : R; g_W : R; g_table : option (R -> R) }.
(* INITIALIZE: Guide.comp:84-103; the table is read beforehand, a warning is left out *)
Definition guide_init (G : guide) : result guide :=
  match g_table G with
  | Some _ => Ok G
  | None => if (Rltb (g_W G) 0 || Rltb (g_R0 G) 0 || Rltb (g_Qc G) 0 || Rltb (g_m G) 0)%bool then Err Terminated else Ok G
  end.
(* ww, hh, whalf, hhalf: Guide.comp:116-117 *)
Definition ww (G : guide) : R := / 2 * (g_w2 G - g_w1 G).
(* Guide.comp:116-117 *)
Definition hh (G : guide) : R := / 2 * (g_h2 G - g_h1 G).
(* Guide.comp:116-117 *)
Definition whalf (G : guide) : R := / 2 * g_w1 G.
(* Guide.comp:116-117 *)
Definition hhalf (G : guide) : R := / 2 * g_h1 G.

(* the mirrors, i = 1, 2, 3, 4: Guide.comp:165-195 *)
Inductive mirror := MLeft | MRight | MLower | MUpper.
(* vdotn_v1, vdotn_v2, vdotn_h1, vdotn_h2: Guide.comp:130-135 *)
Definition vdotn (G : guide) (k : mirror) (r : ray) : R :=
  let av := g_l G * vx (r_vel r) in
  let bv := ww G * vz (r_vel r) in
  let ah := g_l G * vy (r_vel r) in
  let bh := hh G * vz (r_vel r) in
  match k with MLeft => bv + av | MRight => bv - av | MLower => bh + ah | MUpper => bh - ah end.
(* cv1 - cv2, cv1 + cv2, ch1 - ch2, ch1 + ch2: Guide.comp:137-138, 142, 147, 152, 157 *)
Definition cdotn (G : guide) (k : mirror) (r : ray) : R :=
  let cv1 := - whalf G * g_l G - vz (r_pos r) * ww G in
  let cv2 := vx (r_pos r) * g_l G in
  let ch1 := - hhalf G * g_l G - vz (r_pos r) * hh G in
  let ch2 := vy (r_pos r) * g_l G in
  match k with MLeft => cv1 - cv2 | MRight => cv1 + cv2 | MLower => ch1 - ch2 | MUpper => ch1 + ch2 end.
(* a < b with b possibly infinite: Guide.comp:142, 147, 152, 157 *)
Definition below (a : R) (b : option R) : bool := match b with Some u => Rltb a u | None => true end.
(* one of the four ifs: Guide.comp:142-161 *)
Definition attempt (G : guide) (r : ray) (acc : option R * option mirror) (k : mirror) : option R * option mirror :=
  if Rltb (vdotn G k r) 0 then
    let t2 := cdotn G k r / vdotn G k r in
    if below t2 (fst acc) then (Some t2, Some k) else acc
  else acc.
(* the mirror that is hit first and the time, None when the guide is left: Guide.comp:140-163.  For vz = 0 the quotient of line 140 is inf when z < l, otherwise
   -inf or nan, and no time is less than these *)
Definition first_hit (G : guide) (r : ray) : option (R * mirror) :=
  let search t1 := match fold_left (attempt G r) [MLeft; MRight; MLower; MUpper] (t1, None) with
                   | (Some t, Some k) => Some (t, k)
                   | _ => None
                   end in
  if Reqb (vz (r_vel r)) 0 then (if Rltb (vz (r_pos r)) (g_l G) then search None else None)
  else search (Some ((g_l G - vz (r_pos r)) / vz (r_vel r))).

(* an assignment to the velocity: Guide.comp:171-172, 178-179, 185-186, 192-193 *)
Definition with_v (r : ray) (v : vec3) : ray := mkRay (r_pos r) v (r_t r) (r_s1 r) (r_s2 r) (r_p r).
(* V2Q: phys_constants.h:30 *)
Definition V2Q : R := 158801 / 100000000.
(* the switch: Guide.comp:165-195; q and the neutron.  vdotn is that of before PROP_DT, which changes no velocity without gravity *)
Definition reflect (G : guide) (k : mirror) (vdotn : R) (r : ray) : R * ray :=
  let v := r_vel r in
  match k with
  | MLeft => let nlen2 := g_l G * g_l G + ww G * ww G in let d := 2 * vdotn / nlen2 in
      (V2Q * (-2) * vdotn / sqrt nlen2, with_v r (mkV (vx v - d * g_l G) (vy v) (vz v - d * ww G)))
  | MRight => let nlen2 := g_l G * g_l G + ww G * ww G in let d := 2 * vdotn / nlen2 in
      (V2Q * (-2) * vdotn / sqrt nlen2, with_v r (mkV (vx v + d * g_l G) (vy v) (vz v - d * ww G)))
  | MLower => let nlen2 := g_l G * g_l G + hh G * hh G in let d := 2 * vdotn / nlen2 in
      (V2Q * (-2) * vdotn / sqrt nlen2, with_v r (mkV (vx v) (vy v - d * g_l G) (vz v - d * hh G)))
  | MUpper => let nlen2 := g_l G * g_l G + hh G * hh G in let d := 2 * vdotn / nlen2 in
      (V2Q * (-2) * vdotn / sqrt nlen2, with_v r (mkV (vx v) (vy v + d * g_l G) (vz v - d * hh G)))
  end.
(* the reflectivity, None for ABSORB: Guide.comp:197-212.  For W = 0 the argument is -inf when q < m Qc, with tanh = -1, otherwise inf or nan *)
Definition reflectivity (G : guide) (q : R) : option R :=
  if Reqb (g_m G) 0 then None
  else match g_table G with
  | Some f => Some (f q)
  | None =>
      if Rltb (g_Qc G) q then
        if Reqb (g_W G) 0 then
          (if Rltb q (g_m G * g_Qc G) then Some (/ 2 * (1 - -1) * (1 - g_alpha G * (q - g_Qc G)) * g_R0 G) else None)
        else
          let arg := (q - g_m G * g_Qc G) / g_W G in
          if Rltb arg 10 then Some (/ 2 * (1 - tanh arg) * (1 - g_alpha G * (q - g_Qc G)) * g_R0 G) else None
      else Some (1 * g_R0 G)
  end.
(* the loop: Guide.comp:127-215 *)
Fixpoint guide_loop (fuel : nat) (g : option vec3) (G : guide) (r : ray) : result ray :=
  match fuel with
  | O => Err OutOfFuel
  | S fuel' =>
      match first_hit G r with
      | None => Ok r                                                           (* 162-163 *)
      | Some (t, k) =>
          let '(q, r') := reflect G k (vdotn G k r) (prop_dt t g r) in
          match reflectivity G q with
          | None => Ok (absorb r')
          | Some f => guide_loop fuel' g G (with_p r' (r_p r' * f))              (* 213 *)
          end
      end
  end.
(* TRACE: Guide.comp:105-216 *)
Definition guide_trace (fuel : nat) (g : option vec3) (G : guide) (r : ray) : result ray :=
  let r := prop_z0 g r in
  if (Rleb (vx (r_pos r)) (- whalf G) || Rleb (whalf G) (vx (r_pos r)) || Rleb (vy (r_pos r)) (- hhalf G) || Rleb (hhalf G) (vy (r_pos r)))%bool
  then Ok (absorb r)                                                           (* 125-126 *)
  else guide_loop fuel g G r.
