(** Geometry routines of the McStas kernel that components written in C call: packages/legacycomponents/mcstas2/lib/mcstas_compact/
    {coords.h,coords.cc,random.h,randvec.cc,intersect.cc}.

    Doubles are reals.  A random number is an argument in [0,1).  Divisions by zero (inf or nan) are None or ZeroDivisionError; values that are
    read before they are set are UndefinedBehaviour. *)
From Coq Require Import Reals.
From Verif Require Import Base RotModel ChanModel ShapeModel.
Open Scope R_scope.

(* randpm1 and rand0max: random.h:41-42; [u] is random() divided by MC_RAND_MAX + 1.  Division by (MC_RAND_MAX+1)/max is taken as multiplication with max:
   for max = 0 both give 0 *)
Definition randpm1 (u : R) : R := 2 * u - 1.
(* random.h:41-42 *)
Definition rand0max (u max : R) : R := u * max.

(* NORM: coords.h:62-72.  vec_prod (44-53) is vcross of ShapeModel, scalar_prod (56-60) is vdot of ChanModel *)
Definition mc_norm (a : vec3) : vec3 :=
  let t := sqrt (vx a * vx a + vy a * vy a + vz a * vz a) in
  if Reqb t 0 then a else mkV (vx a / t) (vy a / t) (vz a / t).
(* rotate: coords.h:74-102 *)
Definition mc_rotate (v : vec3) (phi : R) (a : vec3) : vec3 :=
  let tmp := mc_norm a in
  let vp := vscale (vdot v tmp) tmp in
  let vn := vsub v vp in
  let b := vcross tmp vn in
  let vn1 := vadd (vscale (cos phi) vn) (vscale (sin phi) b) in
  vadd vp vn1.

(* rot_set_rotation: coords.cc:108-127 *)
Definition rot_set_rotation (phx phy phz : R) : mat3 :=
  let cx := cos phx in let sx := sin phx in
  let cy := cos phy in let sy := sin phy in
  let cz := cos phz in let sz := sin phz in
  mkM (cy * cz) (sx * sy * cz + cx * sz) (sx * sz - cx * sy * cz)
      (- cy * sz) (cx * cz - sx * sy * sz) (sx * cz + cx * sy * sz)
      sy (- sx * cy) (cx * cy).
(* rot_mul: coords.cc:135-143 *)
Definition rot_mul (t1 t2 : mat3) : mat3 :=
  mkM (m00 t1 * m00 t2 + m01 t1 * m10 t2 + m02 t1 * m20 t2) (m00 t1 * m01 t2 + m01 t1 * m11 t2 + m02 t1 * m21 t2) (m00 t1 * m02 t2 + m01 t1 * m12 t2 + m02 t1 * m22 t2)
      (m10 t1 * m00 t2 + m11 t1 * m10 t2 + m12 t1 * m20 t2) (m10 t1 * m01 t2 + m11 t1 * m11 t2 + m12 t1 * m21 t2) (m10 t1 * m02 t2 + m11 t1 * m12 t2 + m12 t1 * m22 t2)
      (m20 t1 * m00 t2 + m21 t1 * m10 t2 + m22 t1 * m20 t2) (m20 t1 * m01 t2 + m21 t1 * m11 t2 + m22 t1 * m21 t2) (m20 t1 * m02 t2 + m21 t1 * m12 t2 + m22 t1 * m22 t2).
(* rot_transpose: coords.cc:162-174 *)
Definition rot_transpose (m : mat3) : mat3 := mkM (m00 m) (m10 m) (m20 m) (m01 m) (m11 m) (m21 m) (m02 m) (m12 m) (m22 m).
(* rot_apply: coords.cc:176-185 *)
Definition rot_apply (t : mat3) (a : vec3) : vec3 :=
  mkV (m00 t * vx a + m01 t * vy a + m02 t * vz a) (m10 t * vx a + m11 t * vy a + m12 t * vz a) (m20 t * vx a + m21 t * vy a + m22 t * vz a).

(* the vector n of randvec_target_circle and randvec_target_rect_angular: randvec.cc:48-59, 108-119 *)
Definition mc_normal (i : vec3) : vec3 := if (Reqb (vx i) 0 && Reqb (vz i) 0)%bool then mkV 1 0 0 else mkV (- vz i) 0 (vx i).
(* randvec_target_circle: randvec.cc:11-68; the vector and the solid angle *)
Definition randvec_target_circle (u1 u2 : R) (i : vec3) (radius : R) : vec3 * R :=
  let l2 := vx i * vx i + vy i * vy i + vz i * vz i in
  let '(theta, solid_angle, n, i) :=
    if Reqb radius 0 then (acos (1 - rand0max u1 2), 4 * PI, mkV 1 0 0, mkV 0 (sqrt l2) 0)
    else let c := sqrt (l2 / (radius * radius + l2)) in
         let costheta0 := if Rltb radius 0 then c * -1 else c in
         (acos (1 - rand0max u1 (1 - costheta0)), 2 * PI * (1 - costheta0), mc_normal i, i) in
  let phi := rand0max u2 (2 * PI) in
  let u := vcross i n in
  let t := mc_rotate i theta u in
  (mc_rotate t phi i, solid_angle).
(* randvec_target_rect_angular: randvec.cc:74-134.  Without an area phi, theta and n are used without having been set *)
Definition randvec_target_rect_angular (u1 u2 : R) (i : vec3) (width height : R) (A : mat3) : result (vec3 * R) :=
  if (Reqb height 0 || Reqb width 0)%bool then Err UndefinedBehaviour
  else let solid_angle := 2 * Rabs (width * sin (height / 2)) in
       let i := rot_apply (rot_transpose A) i in
       let theta := width * randpm1 u1 / 2 in
       let phi := height * randpm1 u2 / 2 in
       let n := mc_normal i in
       let u := vcross i n in
       let t := mc_rotate i phi n in
       Ok (rot_apply A (mc_rotate t theta u), solid_angle).
(* division of a vector by its length: randvec.cc:173-176, 180-183; None is 0/0 *)
Definition unit_of (a : vec3) : option vec3 :=
  let l := sqrt (vx a * vx a + vy a * vy a + vz a * vz a) in
  if Reqb l 0 then None else Some (mkV (vx a / l) (vy a / l) (vz a / l)).
(* randvec_target_rect: randvec.cc:139-204; None is nan *)
Definition randvec_target_rect (u1 u2 : R) (i : vec3) (width height : R) (A : mat3) : option (vec3 * R) :=
  if (Reqb height 0 || Reqb width 0)%bool then Some (randvec_target_circle u1 u2 i 0)
  else let dx := width * randpm1 u1 / 2 in
       let dy := height * randpm1 u2 / 2 in
       let dist := sqrt (vx i * vx i + vy i * vy i + vz i * vz i) in
       let i := rot_apply (rot_transpose A) i in
       match unit_of (vcross i (mkV 0 1 0)) with
       | None => None
       | Some n =>
           match unit_of (vcross i n) with
           | None => None
           | Some m =>
               let o := mkV (vx i + dx * vx n + dy * vx m) (vy i + dx * vy n + dy * vy m) (vz i + dx * vz n + dy * vz m) in
               let dist_p := sqrt (dx * dx + dy * dy + dist * dist) in
               if Reqb dist_p 0 then None
               else Some (rot_apply A o, width * height * dist / (dist_p * dist_p * dist_p))
           end
       end.

(* the times of box_intersect for two opposite faces: intersect.cc:65-84, likewise 86-105 and 107-126.  [c], [vc] are the coordinate and the velocity across
   the faces, the others those along them; 0 if the face is not hit *)
Definition box_faces (c vc p vp q vq dc dp dq : R) : list R :=
  if Reqb vc 0 then [0; 0]
  else let face := fun tt => let p_in := p + tt * vp in let q_in := q + tt * vq in
                   if (Rltb (- dp / 2) p_in && Rltb p_in (dp / 2) && Rltb (- dq / 2) q_in && Rltb q_in (dq / 2))%bool then tt else 0 in
       [face (- (dc / 2 + c) / vc); face ((dc / 2 - c) / vc)].
(* the loop of box_intersect: intersect.cc:130-145; a, b and count *)
Definition box_step (s : R * R * nat) (t : R) : R * R * nat :=
  let '(a, b, count) := s in
  if Reqb t 0 then (a, b, count) else if (count =? 0)%nat then (t, b, 1%nat) else (a, t, 2%nat).
(* box_intersect: intersect.cc:54-162; None for the result 0, when the times are not set *)
Definition mc_box_intersect (r v : vec3) (dx dy dz : R) : option (R * R) :=
  let t := box_faces (vx r) (vx v) (vy r) (vy v) (vz r) (vz v) dx dy dz
        ++ box_faces (vy r) (vy v) (vx r) (vx v) (vz r) (vz v) dy dx dz
        ++ box_faces (vz r) (vz v) (vx r) (vx v) (vy r) (vy v) dz dx dy in
  let '(a, b, _) := fold_left box_step t (0, 0, 0%nat) in
  if (Reqb a 0 && Reqb b 0)%bool then None
  else if Rltb a b then Some (a, b) else Some (b, a).

(* what cylinder_intersect returns: the times if set, and its value *)
Record hit := mkHit { hit_times : option (R * R); hit_value : Z }.
(* cylinder_intersect: intersect.cc:165-211; the axis is y *)
Definition mc_cylinder_intersect (p v : vec3) (r h : R) : result hit :=
  let x := vx p in let y := vy p in let z := vz p in
  if Reqb (vz v * vz v + vx v * vx v) 0 then
    if Rleb (r * r) (x * x + z * z) then Ok (mkHit None 0)
    else if Reqb (vy v) 0 then Err ZeroDivisionError
    else if Rltb 0 (vy v) then Ok (mkHit (Some ((- h / 2 - y) / vy v, (h / 2 - y) / vy v)) 2)
    else Ok (mkHit (Some ((h / 2 - y) / vy v, (- h / 2 - y) / vy v)) 2)
  else
    let D := (2 * vx v * x + 2 * vz v * z) * (2 * vx v * x + 2 * vz v * z) - 4 * (vx v * vx v + vz v * vz v) * (x * x + z * z - r * r) in
    if Rltb D 0 then Ok (mkHit (Some (0, 0)) 0)
    else
      let t_in := (- (2 * vz v * z + 2 * vx v * x) - sqrt D) / (2 * (vz v * vz v + vx v * vx v)) in
      let t_out := (- (2 * vz v * z + 2 * vx v * x) + sqrt D) / (2 * (vz v * vz v + vx v * vx v)) in
      let y_in := vy v * t_in + y in
      let y_out := vy v * t_out + y in
      if ((Rltb (h / 2) y_in && Rltb (h / 2) y_out) || (Rltb y_in (- h / 2) && Rltb y_out (- h / 2)))%bool then Ok (mkHit None 0)
      else
        let '(t_in, k1) := if Rltb (h / 2) y_in then ((h / 2 - y) / vy v, 2%Z) else if Rltb y_in (- h / 2) then ((- h / 2 - y) / vy v, 4%Z) else (t_in, 0%Z) in
        let '(t_out, k2) := if Rltb (h / 2) y_out then ((h / 2 - y) / vy v, 8%Z) else if Rltb y_out (- h / 2) then ((- h / 2 - y) / vy v, 16%Z) else (t_out, 0%Z) in
        Ok (mkHit (Some (t_in, t_out)) (1 + k1 + k2)).
(* sphere_intersect: intersect.cc:214-232; None for the result 0 *)
Definition mc_sphere_intersect (p w : vec3) (r : R) : result (option (R * R)) :=
  let v := sqrt (vx w * vx w + vy w * vy w + vz w * vz w) in
  let A := v * v in
  let B := 2 * (vx p * vx w + vy p * vy w + vz p * vz w) in
  let C := vx p * vx p + vy p * vy p + vz p * vz p - r * r in
  let D := B * B - 4 * A * C in
  if Rltb D 0 then Ok None
  else if Reqb A 0 then Err ZeroDivisionError
  else Ok (Some ((- B - sqrt D) / (2 * A), (- B + sqrt D) / (2 * A))).
