(** Monitors of McStas: packages/legacycomponents/mcstas2/share/McStas-Components/monitors/{Monitor,E_monitor,L_monitor,TOF_monitor,TOF_monitor2,PSD_monitor,
    PSDlin_monitor,EPSD_monitor}.comp.

    Numbers are real numbers: rounding is not modelled.  A division by zero is ZeroDivisionError, an access outside of an array UndefinedBehaviour.
    throw is CppException, exit() is Terminated.  Messages are left out. *)
From Coq Require Import Reals List.
From Verif Require Import Base RotModel ChanModel ShapeModel OptModel.
Import ListNotations.
Open Scope R_scope.

(* one element of the arrays for number, weight and square of the weight: E_monitor.comp:58-59, PSD_monitor.comp:76 *)
Record cell := mkCell { c_N : R; c_p : R; c_p2 : R }.
(* the arrays after INITIALIZE: E_monitor.comp:87-92, L_monitor.comp:78-83, TOF_monitor.comp:78-83, PSD_monitor.comp:96-102 *)
Definition empty (n : nat) : list cell := repeat (mkCell 0 0 0) n.
(* the three statements on element i: E_monitor.comp:118-120, L_monitor.comp:97-99, TOF_monitor.comp:108-110, PSD_monitor.comp:113-115 *)
Definition add (c : cell) (p : R) : cell := mkCell (c_N c + 1) (c_p c + p) (c_p2 c + p * p).
(* p added to element i: E_monitor.comp:118-120, L_monitor.comp:97-99, TOF_monitor.comp:108-110, PSD_monitor.comp:113-115 *)
Fixpoint add_at (h : list cell) (i : nat) (p : R) : list cell :=
  match h, i with
  | [], _ => []
  | c :: h', O => add c p :: h'
  | c :: h', S i' => c :: add_at h' i' p
  end.
(* the same statements with the index checked (outside of the array the behaviour is undefined): E_monitor.comp:118-120, L_monitor.comp:97-99, TOF_monitor.comp:108-110, PSD_monitor.comp:113-115 *)
Definition tally (h : list cell) (i : Z) (p : R) : result (list cell) :=
  if ((i <? 0) || (Z.of_nat (List.length h) <=? i))%Z%bool then Err UndefinedBehaviour else Ok (add_at h (Z.to_nat i) p).

(* the area: Monitor.comp:60-68, E_monitor.comp:74-82 (there exit instead of throw: [e] is what is raised), L_monitor.comp:68-76, TOF_monitor.comp:68-76,
   PSD_monitor.comp:86-94, PSDlin_monitor.comp:66-74, EPSD_monitor.comp:83-91.  The radius of [opening] is not used *)
Definition area_init (e : exn) (xmin xmax ymin ymax xwidth yheight : R) : result opening :=
  let '(xmin, xmax) := if Rltb 0 xwidth then (- (xwidth / 2), xwidth / 2) else (xmin, xmax) in
  let '(ymin, ymax) := if Rltb 0 yheight then (- (yheight / 2), yheight / 2) else (ymin, ymax) in
  if (Rleb xmax xmin || Rleb ymax ymin)%bool then Err e else Ok (mkOp xmin xmax ymin ymax 0).
(* the test of line 73 of Monitor.comp, 106 of E_monitor.comp, 91 of L_monitor.comp, 102 of TOF_monitor.comp, 109 of PSD_monitor.comp *)
Definition in_area (o : opening) (r : ray) : bool :=
  (Rltb (xmin o) (vx (r_pos r)) && Rltb (vx (r_pos r)) (xmax o) && Rltb (ymin o) (vy (r_pos r)) && Rltb (vy (r_pos r)) (ymax o))%bool.
(* vx*vx + vy*vy + vz*vz: E_monitor.comp:108, L_monitor.comp:93, EPSD_monitor.comp:108 *)
Definition v2 (r : ray) : R := vx (r_vel r) * vx (r_vel r) + vy (r_vel r) * vy (r_vel r) + vz (r_vel r) * vz (r_vel r).
(* i = floor((a - lo)*n/(hi - lo)): E_monitor.comp:114, L_monitor.comp:94, PSD_monitor.comp:111-112, PSDlin_monitor.comp:90, EPSD_monitor.comp:112-113 *)
Definition bin (a lo hi n : R) : result Z := let! q := quot ((a - lo) * n) (hi - lo) in cint (IZR (floorZ q)).

(* VS2E and V2K: phys_constants.h:26, 28, 32 *)
Definition VS2E : R := 5227 / 1000000000.
(* phys_constants.h:26, 28, 32 *)
Definition V2K : R := 158801 / 100000000.

(* Monitor, TRACE: Monitor.comp:70-80 *)
Definition monitor_trace (g : option vec3) (o : opening) (c : cell) (r : ray) : cell * ray :=
  let r := prop_z0 g r in (if in_area o r then add c (r_p r) else c, r).

(* E_monitor: arrays and S_p, S_pE, S_pE2: E_monitor.comp:58-60 *)
Record emon := mkE { e_cells : list cell; S_p : R; S_pE : R; S_pE2 : R }.
(* E_monitor, INITIALIZE: E_monitor.comp:62-94 *)
Definition e_init (nchan : Z) (xmin xmax ymin ymax xwidth yheight : R) : result (opening * emon) :=
  if (nchan <=? 0)%Z then Err CppException
  else let! o := area_init Terminated xmin xmax ymin ymax xwidth yheight in Ok (o, mkE (empty (Z.to_nat nchan)) 0 0 0).
(* E_monitor, TRACE: E_monitor.comp:95-124 *)
Definition e_trace (g : option vec3) (o : opening) (nchan : Z) (Emin Emax : R) (m : emon) (r : ray) : result (emon * ray) :=
  let r := prop_z0 g r in
  if in_area o r then
    let E := VS2E * v2 r in
    let m := mkE (e_cells m) (S_p m + r_p r) (S_pE m + r_p r * E) (S_pE2 m + r_p r * E * E) in
    let! i := bin E Emin Emax (IZR nchan) in
    if ((0 <=? i) && (i <? nchan))%Z%bool
    then let! h := tally (e_cells m) i (r_p r) in Ok (mkE h (S_p m) (S_pE m) (S_pE2 m), r)
    else Ok (m, r)
  else Ok (m, r).
(* E_monitor, SAVE: E_monitor.comp:134-135, the mean and the square of the width; the width is the root of the latter *)
Definition e_stats (m : emon) : option (R * R) :=
  if Reqb (S_p m) 0 then None else Some (S_pE m / S_p m, S_pE2 m / S_p m - S_pE m * S_pE m / (S_p m * S_p m)).

(* L_monitor, TRACE: L_monitor.comp:85-103 *)
Definition l_trace (g : option vec3) (o : opening) (nchan : Z) (Lmin Lmax : R) (h : list cell) (r : ray) : result (list cell * ray) :=
  let r := prop_z0 g r in
  if in_area o r then
    let! L := quot (2 * PI / V2K) (sqrt (v2 r)) in
    let! i := bin L Lmin Lmax (IZR nchan) in
    if ((0 <=? i) && (i <? nchan))%Z%bool then let! h := tally h i (r_p r) in Ok (h, r) else Ok (h, r)
  else Ok (h, r).

(* i = floor((a - lo)/step), then the ends: TOF_monitor.comp:104-106, TOF_monitor2.comp:78-85 *)
Definition clamped (a lo step : R) (nchan : Z) : result Z :=
  let! q := quot (a - lo) step in
  let! i := cint (IZR (floorZ q)) in
  let i := if (nchan <=? i)%Z then (nchan - 1)%Z else i in
  Ok (if (i <? 0)%Z then 0%Z else i).
(* t_min, t_max, delta_t of TOF_monitor: TOF_monitor.comp:84-95 *)
Definition tof_times (nchan : Z) (t0 t1 dt : R) : R * R * R :=
  if Reqb t1 0 then (0, IZR nchan * dt + t0, dt) else (t0, t1, (t1 - t0) / IZR nchan).
(* TOF_monitor, TRACE: TOF_monitor.comp:97-113 *)
Definition tof_trace (g : option vec3) (o : opening) (nchan : Z) (t_min delta_t : R) (h : list cell) (r : ray) : result (list cell * ray) :=
  let r := prop_z0 g r in
  if in_area o r then
    let! i := clamped (1000000 * r_t r) t_min delta_t nchan in
    let! h := tally h i (r_p r) in Ok (h, r)
  else Ok (h, r).
(* TOF_monitor2, TRACE: TOF_monitor2.comp:68-91; a division of tmax-tmin by nchan = 0 is not reached with nchan > 0 *)
Definition tof2_trace (g : option vec3) (o : opening) (nchan : Z) (tmin tmax : R) (h : list cell) (r : ray) : result (list cell * ray) :=
  let dt := (tmax - tmin) / IZR nchan in
  let r := prop_z0 g r in
  if in_area o r then
    let! i := clamped (r_t r) tmin dt nchan in
    let! h := tally h i (r_p r) in Ok (h, r)
  else Ok (h, r).

(* PSDlin_monitor, TRACE: PSDlin_monitor.comp:83-100 *)
Definition psdlin_trace (g : option vec3) (o : opening) (nx : Z) (h : list cell) (r : ray) : result (list cell * ray) :=
  let r := prop_z0 g r in
  if in_area o r then
    let! i := bin (vx (r_pos r)) (xmin o) (xmax o) (IZR nx) in
    if ((nx <=? i) || (i <? 0))%Z%bool then Err Terminated
    else let! h := tally h i (r_p r) in Ok (h, r)
  else Ok (h, r).
(* PSD_monitor, TRACE: PSD_monitor.comp:104-118, element_2Darr: 61-64; the arrays have nx*ny elements (82-84) *)
Definition psd_trace (g : option vec3) (o : opening) (nx ny : Z) (h : list cell) (r : ray) : result (list cell * ray) :=
  let r := prop_z0 g r in
  if in_area o r then
    let! i := bin (vx (r_pos r)) (xmin o) (xmax o) (IZR nx) in
    let! j := bin (vy (r_pos r)) (ymin o) (ymax o) (IZR ny) in
    let! h := tally h (j + i * ny) (r_p r) in Ok (h, r)
  else Ok (h, r).
(* EPSD_monitor, TRACE: EPSD_monitor.comp:101-118, element_2Darr: 59-62 *)
Definition epsd_trace (g : option vec3) (o : opening) (nx nE : Z) (Emin Emax : R) (h : list cell) (r : ray) : result (list cell * ray) :=
  let r := prop_z0 g r in
  let E := VS2E * v2 r in
  if (in_area o r && Rltb Emin E && Rltb E Emax)%bool then
    let! i := bin (vx (r_pos r)) (xmin o) (xmax o) (IZR nx) in
    let! j := bin E Emin Emax (IZR nE) in
    let! h := tally h (j + i * nE) (r_p r) in Ok (h, r)
  else Ok (h, r).

(* one call of trace for each neutron: mcni/lib/mcni/process_neutron_events.cc:39-54 (order after an absorption: not modelled), legacycomponents/mcstas2/lib/mcni_integration/Component.h:55-66; only the calls, not what is done
   with absorbed neutrons *)
Fixpoint run {A : Type} (trace : A -> ray -> result (A * ray)) (a : A) (rs : list ray) : result (A * list ray) :=
  match rs with
  | [] => Ok (a, [])
  | r :: rs' => let! x := trace a r in let! y := run trace (fst x) rs' in Ok (fst y, snd x :: snd y)
  end.
