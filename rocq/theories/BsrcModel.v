(** Sources of McStas: packages/legacycomponents/mcstas2/share/McStas-Components/sources/{Source_simple,Moderator,Source_div,Source_Maxwell_3}.comp,
    with lib/{geometry.cc,geometry.h,phys_constants.h,random_numbers.h,misc_macros.h}.

    Numbers are real numbers: rounding is not modelled.  Random numbers are arguments: [u] for random() divided by MC_RAND_MAX + 1, [g] for randnorm().
    A division by zero or log 0 (inf or nan) is ZeroDivisionError, the root of a negative number (nan) ValueError.  exit() is Terminated. *)
From Coq Require Import Reals.
From Verif Require Import Base RotModel ChanModel ShapeModel McsModel OptModel.
Open Scope R_scope.

(* SE2V: phys_constants.h:31 *)
Definition SE2V : R := 4373949 / 10000.
(* K2V: phys_constants.h:27 (AA2MS, 25) *)
Definition K2V : R := 629719 / 1000.
(* DEG2RAD: phys_constants.h:23 *)
Definition DEG2RAD : R := PI / 180.
(* mcget_ncount(): misc_macros.h:30 *)
Definition ncount : R := 1.
(* norotation, which is ROT_A_CURRENT_COMP: geometry.cc:26, geometry.h:42 *)
Definition norotation : mat3 := mkM 1 0 0 0 1 0 0 0 1.

(* the call of randvec_target_rect: Source_simple.comp:107-108, Moderator.comp:73-74, Source_Maxwell_3.comp:99-100; xf, yf and the solid angle.
   randvec_target_rect of lib/geometry.cc:748-813 is the same as that of mcstas_compact/randvec.cc *)
Definition aim (u1 u2 dist xw yh : R) : result (R * R * R) :=
  match randvec_target_rect u1 u2 (mkV 0 0 dist) xw yh norotation with
  | None => Err ZeroDivisionError
  | Some (o, pdir) => Ok (vx o, vy o, pdir)
  end.
(* the velocity: Source_simple.comp:110-112, 132-134, Moderator.comp:76-78, 85-87, Source_Maxwell_3.comp:102-104, 110-112 *)
Definition launch (v dist x y xf yf : R) : result vec3 :=
  let dx := xf - x in
  let dy := yf - y in
  let rf := sqrt (dx * dx + dy * dy + dist * dist) in
  if Reqb rf 0 then Err ZeroDivisionError else Ok (mkV (v * dx / rf) (v * dy / rf) (v * dist / rf)).
(* a point on a disk: Source_simple.comp:102-105, Moderator.comp:68-71 *)
Definition disk_point (u1 u2 radius : R) : R * R :=
  let chi := 2 * PI * u1 in
  let r := sqrt u2 * radius in
  (r * cos chi, r * sin chi).
(* sqrt(E)*SE2V: Source_simple.comp:122, Moderator.comp:83, Source_div.comp:98 *)
Definition speed_of_energy (E : R) : result R := if Rltb E 0 then Err ValueError else Ok (sqrt E * SE2V).
(* K2V*(2*PI/Lambda): Source_simple.comp:129, Source_Maxwell_3.comp:107-108 *)
Definition speed_of_wavelength (l : R) : result R := if Reqb l 0 then Err ZeroDivisionError else Ok (K2V * (2 * PI / l)).

(* the parameters of Source_simple: Source_simple.comp:56 *)
Record simple := mkSimple { i_radius : R; i_height : R; i_width : R; i_dist : R; i_xw : R; i_yh : R; i_E0 : R; i_dE : R; i_Lambda0 : R; i_dLambda : R;
                            i_flux : R; i_gauss : bool }.
(* the test of energy and wavelength: Source_simple.comp:81-82, Source_div.comp:77-78; true for an error *)
Definition bad_band (E0 dE L0 dL : R) : bool :=
  ((Reqb L0 0 && Reqb dL 0 && (Rleb E0 0 || Rltb dE 0 || Rleb (E0 - dE) 0)) || (Reqb E0 0 && Reqb dE 0 && (Rleb L0 0 || Rltb dL 0 || Rleb (L0 - dL) 0)))%bool.
(* INITIALIZE: Source_simple.comp:64-90; square and pmul *)
Definition simple_init (c : simple) : result (bool * R) :=
  let! p := (if (negb (Reqb (i_radius c) 0) && Reqb (i_height c) 0 && Reqb (i_width c) 0)%bool then Ok (false, PI * i_radius c * i_radius c)       (* 68-70 *)
             else if (Reqb (i_radius c) 0 && negb (Reqb (i_height c) 0) && negb (Reqb (i_width c) 0))%bool then Ok (true, i_width c * i_height c) (* 71-73 *)
             else Err Terminated) in                                                                                                          (* 74-77 *)
  let '(square, srcArea) := p in
  let pmul := i_flux c * 10 ^ 4 * srcArea / ncount in
  if (Rleb srcArea 0 || Rltb (i_dist c) 0 || Rltb (i_xw c) 0 || Rltb (i_yh c) 0 || bad_band (i_E0 c) (i_dE c) (i_Lambda0 c) (i_dLambda c))%bool then Err Terminated
  else Ok (square, pmul).
(* v: Source_simple.comp:116-130 *)
Definition simple_speed (c : simple) (u g : R) : result R :=
  if Reqb (i_Lambda0 c) 0 then speed_of_energy (if i_gauss c then i_E0 c + g * i_dE c else i_E0 c + i_dE c * randpm1 u)
  else speed_of_wavelength (if i_gauss c then g * i_dLambda c else i_Lambda0 c + i_dLambda c * randpm1 u).
(* TRACE: Source_simple.comp:91-137; [n] is the neutron that comes in *)
Definition simple_trace (c : simple) (square : bool) (pmul : R) (u1 u2 u3 u4 u5 g : R) (n : ray) : result ray :=
  let '(x, y) := if square then (i_width c * (u1 - 1 / 2), i_height c * (u2 - 1 / 2)) else disk_point u1 u2 (i_radius c) in
  let! a := aim u3 u4 (i_dist c) (i_xw c) (i_yh c) in
  let '(xf, yf, pdir) := a in
  let! v := simple_speed c u5 g in
  let! w := launch v (i_dist c) x y xf yf in
  Ok (mkRay (mkV x y 0) w 0 (r_s1 n) (r_s2 n) (pdir * pmul)).

(* the parameters of Moderator: Moderator.comp:43 *)
Record moderator := mkModerator { o_radius : R; o_E0 : R; o_E1 : R; o_dist : R; o_xw : R; o_yh : R; o_t0 : R; o_Ec : R; o_gam : R }.
(* INITIALIZE: Moderator.comp:51-60; p_in *)
Definition moderator_init (c : moderator) : result R :=
  if (Rltb (o_radius c) 0 || Rltb (o_E0 c) 0 || Rltb (o_E1 c) 0 || Rleb (o_dist c) 0 || Rltb (o_xw c) 0 || Rltb (o_yh c) 0 || Rltb (o_Ec c) 0 || Rleb (o_gam c) 0)%bool
  then Err Terminated else Ok (1 / (4 * PI)).
(* tauv: Moderator.comp:89-97.  gam is not 0 after INITIALIZE *)
Definition tauv (c : moderator) (E : R) : R :=
  if Rltb E (o_Ec c) then o_t0 c
  else let tmp := (E - o_Ec c) / o_gam c in o_t0 c / (1 + tmp * tmp).
(* TRACE: Moderator.comp:61-100 *)
Definition moderator_trace (c : moderator) (p_in : R) (u1 u2 u3 u4 u5 u6 : R) (n : ray) : result ray :=
  let '(x, y) := disk_point u1 u2 (o_radius c) in
  let! a := aim u3 u4 (o_dist c) (o_xw c) (o_yh c) in
  let '(xf, yf, pdir) := a in
  let E := o_E0 c + (o_E1 c - o_E0 c) * u5 in
  let! v := speed_of_energy E in
  let! w := launch v (o_dist c) x y xf yf in
  if Reqb u6 0 then Err ZeroDivisionError                                                (* log 0 *)
  else Ok (mkRay (mkV x y 0) w (- tauv c E * ln u6 * / 10 ^ 6) (r_s1 n) (r_s2 n) (pdir * p_in)).

(* the parameters of Source_div: Source_div.comp:63; [d_gauss] is gauss==1 *)
Record divsource := mkDiv { d_width : R; d_height : R; d_hdiv : R; d_vdiv : R; d_E0 : R; d_dE : R; d_Lambda0 : R; d_dLambda : R; d_gauss : bool }.
(* sigmah and sigmav: Source_div.comp:72-73 *)
Definition sigma_of (div : R) : R := DEG2RAD * div / (2 * sqrt (2 * ln 2)).
(* INITIALIZE: Source_div.comp:70-84; p_init *)
Definition div_init (c : divsource) : result R :=
  if (Rltb (d_width c) 0 || Rltb (d_height c) 0 || Rltb (d_hdiv c) 0 || Rltb (d_vdiv c) 0 || bad_band (d_E0 c) (d_dE c) (d_Lambda0 c) (d_dLambda c))%bool
  then Err Terminated else Ok (1 / ncount).
(* v: Source_div.comp:96-107.  lambda is not 0 when Lambda0 > |dLambda| and the random number is in [0,1] *)
Definition div_speed (c : divsource) (u : R) : result R :=
  if (Rltb 0 (d_E0 c) && Rltb (Rabs (d_dE c)) (d_E0 c))%bool then speed_of_energy (d_E0 c + d_dE c * randpm1 u)
  else if (Rltb 0 (d_Lambda0 c) && Rltb (Rabs (d_dLambda c)) (d_Lambda0 c))%bool then
    let lambda := d_Lambda0 c + d_dLambda c * randpm1 u in
    if Reqb lambda 0 then Err ZeroDivisionError else Ok (3956036 / 1000 / lambda)
  else Err Terminated.
(* tan: Source_div.comp:118-119 *)
Definition tangent (theta : R) : result R := if Reqb (cos theta) 0 then Err ZeroDivisionError else Ok (sin theta / cos theta).
(* TRACE: Source_div.comp:85-125 *)
Definition div_trace (c : divsource) (p_init : R) (u1 u2 u3 u4 u5 g1 g2 : R) (n : ray) : result ray :=
  let x := randpm1 u1 * d_width c / 2 in
  let y := randpm1 u2 * d_height c / 2 in
  let! v := div_speed c u3 in
  let thetah := if d_gauss c then g1 * sigma_of (d_hdiv c) else randpm1 u4 * d_hdiv c * DEG2RAD in
  let thetav := if d_gauss c then g2 * sigma_of (d_vdiv c) else randpm1 u5 * d_vdiv c * DEG2RAD in
  let! tan_h := tangent thetah in
  let! tan_v := tangent thetav in
  let vz := v / sqrt (1 + tan_v * tan_v + tan_h * tan_h) in
  Ok (mkRay (mkV x y 0) (mkV (tan_h * vz) (tan_v * vz) vz) 0 (r_s1 n) (r_s2 n) p_init).

(* the parameters of Source_Maxwell_3: Source_Maxwell_3.comp:57-58 *)
Record maxwell := mkMaxwell { x_size : R; x_height : R; x_width : R; x_low : R; x_high : R; x_dist : R; x_xw : R; x_yh : R;
                              x_T1 : R; x_T2 : R; x_T3 : R; x_I1 : R; x_I2 : R; x_I3 : R }.
(* INITIALIZE: Source_Maxwell_3.comp:68-88; w_source, h_source, l_range and w_mult *)
Definition maxwell_init (c : maxwell) : result (R * R * R * R) :=
  let '(w_source, h_source) := if Rltb 0 (x_size c) then (x_size c, x_size c) else (x_width c, x_height c) in
  let l_range := x_high c - x_low c in
  let w_mult := w_source * h_source * 10 ^ 4 * l_range * (1 / ncount) in
  if (Rltb w_source 0 || Rltb h_source 0 || Rleb (x_low c) 0 || Rleb (x_high c) 0 || Rleb (x_dist c) 0 || Rleb (x_T1 c) 0 || Rleb (x_T2 c) 0 || Rleb (x_T3 c) 0)%bool
  then Err Terminated else Ok (w_source, h_source, l_range, w_mult).
(* M1, M2 and M3: Source_Maxwell_3.comp:121-127.  T and l are not 0 after INITIALIZE *)
Definition maxwellian (T l : R) : R :=
  let a := 949 / T in 2 * a * a * exp (- a / (l * l)) / (l * l * l * l * l).
(* TRACE: Source_Maxwell_3.comp:90-131; p is multiplied *)
Definition maxwell_trace (c : maxwell) (st : R * R * R * R) (u1 u2 u3 u4 u5 : R) (n : ray) : result ray :=
  let '(w_source, h_source, l_range, w_mult) := st in
  let x := 1 / 2 * w_source * randpm1 u1 in
  let y := 1 / 2 * h_source * randpm1 u2 in
  let! a := aim u3 u4 (x_dist c) (x_xw c) (x_yh c) in
  let '(xf, yf, w_focus) := a in
  let lambda := x_low c + l_range * u5 in
  let! v := speed_of_wavelength lambda in
  let! w := launch v (x_dist c) x y xf yf in
  let p := r_p n * (w_mult * w_focus) in
  let p := p * (x_I1 c * maxwellian (x_T1 c) lambda + x_I2 c * maxwellian (x_T2 c) lambda + x_I3 c * maxwellian (x_T3 c) lambda) in
  Ok (mkRay (mkV x y 0) w 0 (r_s1 n) (r_s2 n) p).
