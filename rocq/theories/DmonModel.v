(** Two-dimensional and divergence monitors of McStas: packages/legacycomponents/mcstas2/share/McStas-Components/monitors/{Divergence_monitor,Hdiv_monitor,
    DivLambda_monitor,DivPos_monitor,TOFLambda_monitor}.comp.  The area is area_init of BmonModel (lines 83-91 of Divergence_monitor.comp, 69-77 of Hdiv_monitor.comp,
    86-94 of DivLambda_monitor.comp, 83-91 of DivPos_monitor.comp and of TOFLambda_monitor.comp), the arrays are [empty] with as many elements as malloc gets.

    Numbers are real numbers: rounding is not modelled.  A division by zero is ZeroDivisionError, an access outside of an array UndefinedBehaviour. *)
From Coq Require Import Reals List.
From Verif Require Import Base RotModel ChanModel ShapeModel OptModel BmonModel.
Import ListNotations.
Open Scope R_scope.

(* RAD2DEG*atan2(v,vz): Divergence_monitor.comp:110-111, Hdiv_monitor.comp:96, DivLambda_monitor.comp:115, DivPos_monitor.comp:109; RAD2DEG: phys_constants.h:24 *)
Definition div_deg (v w : R) : R := 180 / PI * arctan2 v w.
(* div < maxdiv && div > -maxdiv: Divergence_monitor.comp:112-113, Hdiv_monitor.comp:97, DivLambda_monitor.comp:116, DivPos_monitor.comp:110 *)
Definition div_in (d maxdiv : R) : bool := (Rltb d maxdiv && Rltb (- maxdiv) d)%bool.
(* floor((div + maxdiv)*n/(2.0*maxdiv)): Divergence_monitor.comp:115-116, Hdiv_monitor.comp:99, DivLambda_monitor.comp:119, DivPos_monitor.comp:113 *)
Definition div_bin (d maxdiv n : R) : result Z := let! q := quot ((d + maxdiv) * n) (2 * maxdiv) in cint (IZR (floorZ q)).

(* Divergence_monitor, TRACE: Divergence_monitor.comp:102-123; element_2Darr: 60-66 *)
Definition div_trace (g : option vec3) (o : opening) (nh nv : Z) (h_maxdiv v_maxdiv : R) (h : list cell) (r : ray) : result (list cell * ray) :=
  let r := prop_z0 g r in
  if in_area o r then
    let h_div := div_deg (vx (r_vel r)) (vz (r_vel r)) in
    let v_div := div_deg (vy (r_vel r)) (vz (r_vel r)) in
    if (div_in h_div h_maxdiv && div_in v_div v_maxdiv)%bool then
      let! i := div_bin h_div h_maxdiv (IZR nh) in
      let! j := div_bin v_div v_maxdiv (IZR nv) in
      let! h := tally h (j + i * nv) (r_p r) in Ok (h, r)
    else Ok (h, r)
  else Ok (h, r).
(* Hdiv_monitor, TRACE: Hdiv_monitor.comp:88-106 *)
Definition hdiv_trace (g : option vec3) (o : opening) (nh : Z) (h_maxdiv : R) (h : list cell) (r : ray) : result (list cell * ray) :=
  let r := prop_z0 g r in
  if in_area o r then
    let h_div := div_deg (vx (r_vel r)) (vz (r_vel r)) in
    if div_in h_div h_maxdiv then
      let! i := div_bin h_div h_maxdiv (IZR nh) in
      let! h := tally h i (r_p r) in Ok (h, r)
    else Ok (h, r)
  else Ok (h, r).
(* DivLambda_monitor, TRACE: DivLambda_monitor.comp:104-126; element_2Darr: 61-67 *)
Definition divlambda_trace (g : option vec3) (o : opening) (nlam ndiv : Z) (maxdiv lambda_0 lambda_1 : R) (h : list cell) (r : ray) : result (list cell * ray) :=
  let r := prop_z0 g r in
  let! lambda := quot (2 * PI / V2K) (sqrt (v2 r)) in
  if (in_area o r && Rltb lambda_0 lambda && Rltb lambda lambda_1)%bool then
    let d := div_deg (vx (r_vel r)) (vz (r_vel r)) in
    if div_in d maxdiv then
      let! i := bin lambda lambda_0 lambda_1 (IZR nlam) in
      let! j := div_bin d maxdiv (IZR ndiv) in
      let! h := tally h (j + i * ndiv) (r_p r) in Ok (h, r)
    else Ok (h, r)
  else Ok (h, r).
(* DivPos_monitor, TRACE: DivPos_monitor.comp:101-120; element_2Darr: 59-65 *)
Definition divpos_trace (g : option vec3) (o : opening) (npos ndiv : Z) (maxdiv : R) (h : list cell) (r : ray) : result (list cell * ray) :=
  let r := prop_z0 g r in
  if in_area o r then
    let d := div_deg (vx (r_vel r)) (vz (r_vel r)) in
    if div_in d maxdiv then
      let! i := bin (vx (r_pos r)) (xmin o) (xmax o) (IZR npos) in
      let! j := div_bin d maxdiv (IZR ndiv) in
      let! h := tally h (j + i * ndiv) (r_p r) in Ok (h, r)
    else Ok (h, r)
  else Ok (h, r).
(* TOFLambda_monitor, TRACE: TOFLambda_monitor.comp:103-124; tt_0, tt_1: 93-94; element_2Darr: 58-64 *)
Definition toflambda_trace (g : option vec3) (o : opening) (nlam nt : Z) (t_0 t_1 lambda_0 lambda_1 : R) (h : list cell) (r : ray) : result (list cell * ray) :=
  let tt_0 := t_0 * / 1000000 in
  let tt_1 := t_1 * / 1000000 in
  let r := prop_z0 g r in
  let! lambda := quot (2 * PI / V2K) (sqrt (v2 r)) in
  if (in_area o r && Rltb lambda_0 lambda && Rltb lambda lambda_1)%bool then
    if (Rltb (r_t r) tt_1 && Rltb tt_0 (r_t r))%bool then
      let! i := bin lambda lambda_0 lambda_1 (IZR nlam) in
      let! j := bin (r_t r) tt_0 tt_1 (IZR nt) in
      let! h := tally h (i + j * nlam) (r_p r) in Ok (h, r)
    else Ok (h, r)
  else Ok (h, r).
