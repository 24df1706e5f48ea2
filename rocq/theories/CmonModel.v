(** Cylindrical monitors of McStas: packages/legacycomponents/mcstas2/share/McStas-Components/monitors/{TOF_cylPSD_monitor,PSDcyl_monitor,Monitor_4PI}.comp.
    The arrays are [empty] of BmonModel with as many elements as malloc gets (TOF_cylPSD_monitor.comp:72-84, PSDcyl_monitor.comp:75-85).

    Numbers are real numbers: rounding is not modelled.  A division by zero is ZeroDivisionError, an access outside of an array UndefinedBehaviour, exit() is Terminated. *)
From Coq Require Import Reals List.
From Verif Require Import Base RotModel ChanModel ShapeModel OptModel BmonModel McsModel.
Import ListNotations.
Open Scope R_scope.

(* (int) floor(x), from double: TOF_cylPSD_monitor.comp:111, PSDcyl_monitor.comp:112-113 *)
Definition int_floor (x : R) : result Z := cint (IZR (floorZ x)).
(* TOF_cylPSD_monitor, TRACE: TOF_cylPSD_monitor.comp:88-116; binphi: 85; tt_0, tt_1: 76-77; element_2Darr: 51-57; RAD2DEG: phys_constants.h:24 *)
Definition tofcyl_trace (g : option vec3) (radius height : R) (nt nphi : Z) (t_0 t_1 : R) (h : list cell) (r : ray) : result (list cell * ray) :=
  let tt_0 := t_0 * / 10 ^ 6 in
  let tt_1 := t_1 * / 10 ^ 6 in
  let! hit := mc_cylinder_intersect (r_pos r) (r_vel r) radius height in
  if (hit_value hit =? 0)%Z then Ok (h, absorb r)                              (* 93-95 *)
  else match hit_times hit with
  | None => Err UndefinedBehaviour
  | Some (cyl_t0, cyl_t1) =>
      if Rltb 0 cyl_t0 then Ok (h, absorb r)                                   (* 96-97 *)
      else
        let r := prop_dt cyl_t1 g r in
        if (Rleb (height / 2) (vy (r_pos r)) || Rleb (vy (r_pos r)) (- height / 2))%bool then Ok (h, absorb r)   (* 100-101 *)
        else
          let! i := bin (r_t r) tt_0 tt_1 (IZR nt) in
          if ((i <? 0) || (nt <=? i))%Z%bool then Ok (h, r)
          else
            let phi := arctan2 (vx (r_pos r)) (vz (r_pos r)) in
            let! binphi := quot 360 (IZR nphi) in
            let! q := quot (180 / PI * phi) binphi in
            let! j := int_floor (IZR nphi / 2 + q) in
            let! h := tally h (j + i * nphi) (r_p r) in Ok (h, r)
  end.
(* PSDcyl_monitor, TRACE: PSDcyl_monitor.comp:88-126; element_2Darr: 55-61 *)
Definition psdcyl_trace (g : option vec3) (radius height : R) (nr ny : Z) (h : list cell) (r : ray) : result (list cell * ray) :=
  let! hit := mc_cylinder_intersect (r_pos r) (r_vel r) radius height in
  if (hit_value hit =? 0)%Z then Ok (h, absorb r)                              (* 122-125 *)
  else match hit_times hit with
  | None => Err UndefinedBehaviour
  | Some (t0, t1) =>
      if Rltb 0 t0 then Err Terminated                                         (* 95-99 *)
      else if Rltb t1 0 then Err Terminated                                    (* 100-104 *)
      else
        let r := prop_dt t1 g r in
        if Rltb (Rabs (vy (r_pos r))) (height - / 10 ^ 10) then
          let phi := arctan2 (vx (r_pos r)) (vz (r_pos r)) in
          let! i := int_floor (phi / (2 * PI) * IZR nr) in
          let! q := quot (vy (r_pos r)) height in
          let! j := int_floor (q * IZR ny) in
          let! h := tally h (j + i * ny) (r_p r) in Ok (h, r)
        else Ok (h, absorb r)
  end.
(* Monitor_4PI, TRACE: Monitor_4PI.comp:56-62 *)
Definition monitor_4pi_trace (c : cell) (r : ray) : cell * ray := (add c (r_p r), r).
