(** The spherical monitor of McStas: packages/legacycomponents/mcstas2/share/McStas-Components/monitors/PSD_monitor_4PI.comp.
    The arrays are [empty] of BmonModel with as many elements as malloc gets (83-93).

    Numbers are real numbers: rounding is not modelled.  A division by zero is ZeroDivisionError, an access outside of an array UndefinedBehaviour.  Output for debugging is left out. *)
From Coq Require Import Reals List.
From Verif Require Import Base RotModel ChanModel ShapeModel OptModel BmonModel McsModel CmonModel.
Import ListNotations.
Open Scope R_scope.

(* a channel cut to 0 ... n-1: PSD_monitor_4PI.comp:129-132, 135-138 *)
Definition cut (i n : Z) : Z := (if n <=? i then n - 1 else if i <? 0 then 0 else i)%Z.
(* PSD_monitor_4PI, TRACE: PSD_monitor_4PI.comp:96-163; element_2Darr: 59-65 *)
Definition psd4pi_trace (g : option vec3) (radius : R) (nx ny : Z) (h : list cell) (r : ray) : result (list cell * ray) :=
  let! o := mc_sphere_intersect (r_pos r) (r_vel r) radius in
  match o with
  | None => Ok (h, r)
  | Some (t0, t1) =>
      if Rltb 0 t1 then
        let t0 := if Rltb t0 0 then t1 else t0 in
        let q := prop_dt t0 g r in
        let phi := arctan2 (vx (r_pos q)) (vz (r_pos q)) in
        let! i := int_floor (IZR nx * (phi / (2 * PI) + 5 / 10)) in
        let i := cut i nx in
        let! c := quot (vy (r_pos q)) radius in
        let theta := asin c in
        let! j := int_floor (IZR ny * (theta + PI / 2) / PI + 5 / 10) in
        let j := cut j ny in
        let! h := tally h (j + i * ny) (r_p q) in
        Ok (h, mkRay (r_pos r) (r_vel r) (r_t r) (r_s1 q) (r_s2 q) (r_p q))      (* 159-161 *)
      else Ok (h, r)
  end.
