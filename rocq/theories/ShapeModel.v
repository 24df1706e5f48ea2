(** Solids of mccomposite: where is a point relative to a shape, at which times does a ray cross its surface, bounding box.
    packages/mccomposite/lib/geometry/: primitives/, operations/, visitors/{Locator,ArrowIntersector,BoundingBoxMaker}.cc,
    intersect.{cc,icc}, tolerance.h.  Paths below are relative to that directory.

    Numbers are real numbers: rounding is not modelled.  The C++ code divides by zero in a few places and relies on the
    comparisons with nan and infinity being false; the model has an explicit branch for each of them. *)
From Coq Require Import Reals Lra.
From Verif Require Import Base RotModel ChanModel.
Open Scope R_scope.

(* AbstractShape and its subclasses: primitives/{Box,Cylinder,Pyramid,Cone,Sphere}.h, operations/{Difference,Intersection,Union,
   Dilation,Translation,Rotation}.h.  Operations on lists of shapes: operations/Composition.h:25-48; a Difference always has two (Difference.h:28-30 there).
   Reflection is left out: every visitor modelled here throws for it (Locator.cc:231-236, ArrowIntersector.cc:757-762, BoundingBoxMaker.cc:164-169) *)
Inductive shape : Type :=
| Box (X Y Z : R)
| Cylinder (radius height : R)
| Pyramid (X Y height : R)
| Cone (radius height : R)
| Sphere (radius : R)
| Difference (a b : shape)
| Intersection (l : list shape)
| Union (l : list shape)
| Dilation (s : shape) (scale : R)
| Translation (s : shape) (v : vec3)
| Rotation (s : shape) (m : mat3).

(* Vector3 times a number: packages/mcni/lib/geometry/Vector3.icc *)
Definition vscale (k : R) (a : vec3) : vec3 := mkV (k * vx a) (k * vy a) (k * vz a).
(* operator* of two Vector3, the cross product: packages/mcni/lib/geometry/Vector3.icc *)
Definition vcross (a b : vec3) : vec3 :=
  mkV (vy a * vz b - vz a * vy b) (vz a * vx b - vx a * vz b) (vx a * vy b - vy a * vx b).
(* Arrow: visitors/Arrow.h; the point arrow.start + distance * arrow.direction of ArrowIntersector.cc:653 *)
Definition arrow_at (start direction : vec3) (t : R) : vec3 := vadd start (vscale t direction).

(* Locator::Location: visitors/Locator.h *)
Inductive location := Inside | Onborder | Outside.
(* == on Location: Locator.cc:176-177, 191-192 *)
Definition loc_eqb (a b : location) : bool :=
  match a, b with Inside, Inside | Onborder, Onborder | Outside, Outside => true | _, _ => false end.

(** ** Locator.  The tolerance is a parameter; geometry::locate (locate.cc:4-13) uses the default, tolerance.h:7, 1e-12. *)

(* Locator::visit(Box): Locator.cc:39-61 *)
Definition locate_box (tol X Y Z : R) (p : vec3) : location :=
  if (Rltb ((X + tol) / 2) (Rabs (vx p)) || Rltb ((Y + tol) / 2) (Rabs (vy p)) || Rltb ((Z + tol) / 2) (Rabs (vz p)))%bool
  then Outside
  else if (Rltb (Rabs (Rabs (vx p) - X / 2)) tol || Rltb (Rabs (Rabs (vy p) - Y / 2)) tol || Rltb (Rabs (Rabs (vz p) - Z / 2)) tol)%bool
  then Onborder
  else Inside.
(* Locator::visit(Cylinder): Locator.cc:63-87 *)
Definition locate_cylinder (tol radius height : R) (p : vec3) : location :=
  if Rltb tol (Rabs (vz p) - height / 2) then Outside
  else let r := sqrt (vx p * vx p + vy p * vy p) in
       if Rltb tol (r - radius) then Outside
       else if (Rltb tol (height / 2 - Rabs (vz p)) && Rltb tol (radius - r))%bool then Inside
       else Onborder.
(* Locator::visit(Pyramid): Locator.cc:89-117 *)
Definition locate_pyramid (tol X Y height : R) (p : vec3) : location :=
  let z := vz p in
  if (Rltb tol z || Rltb z (- height - tol))%bool then Outside
  else
    let ratio := - z / height in
    let X1 := ratio * X in let Y1 := ratio * Y in
    if (Rltb (X1 / 2 + tol) (Rabs (vx p)) || Rltb (Y1 / 2 + tol) (Rabs (vy p)))%bool then Outside
    else if (Rltb z (- tol) && Rltb (- height + tol) z)%bool then
      if (Rltb (Rabs (vx p)) (X1 / 2 - tol) && Rltb (Rabs (vy p)) (Y1 / 2 - tol))%bool then Inside else Onborder
    else Onborder.
(* Locator::visit(Cone): Locator.cc:119-147 *)
Definition locate_cone (tol radius height : R) (p : vec3) : location :=
  let z := vz p in
  if (Rltb tol z || Rltb z (- height - tol))%bool then Outside
  else
    let r := sqrt (vx p * vx p + vy p * vy p) in
    let ratio := - z / height in
    let R1 := ratio * radius in
    if Rltb (R1 + tol) r then Outside
    else if (Rltb z (- tol) && Rltb (- height + tol) z)%bool then
      if Rltb r (R1 - tol) then Inside else Onborder
    else Onborder.
(* Locator::visit(Sphere): Locator.cc:149-166 *)
Definition locate_sphere (tol radius : R) (p : vec3) : location :=
  let R2 := radius * radius in
  let r2 := vx p * vx p + vy p * vy p + vz p * vz p in
  if Rltb tol (r2 - R2) then Outside else if Rltb tol (R2 - r2) then Inside else Onborder.
(* the body of Locator::visit(Difference): Locator.cc:174-178 *)
Definition locate_difference (p1 p2 : location) : location :=
  if (loc_eqb p1 Outside || loc_eqb p2 Inside)%bool then Outside
  else if (loc_eqb p1 Onborder || loc_eqb p2 Onborder)%bool then Onborder
  else Inside.
(* the loop of Locator::visit(Intersection): Locator.cc:188-197; [f] locates the point relative to a member *)
Definition intersection_loop (f : shape -> location) : list shape -> bool -> location :=
  fix go (l : list shape) (isinside : bool) {struct l} : location :=
    match l with
    | [] => if isinside then Inside else Onborder
    | s :: l' => match f s with
                 | Outside => Outside
                 | p => go l' (isinside && loc_eqb p Inside)%bool
                 end
    end.
(* the loop of Locator::visit(Union): Locator.cc:206-215 *)
Definition union_loop (f : shape -> location) : list shape -> bool -> location :=
  fix go (l : list shape) (isoutside : bool) {struct l} : location :=
    match l with
    | [] => if isoutside then Outside else Onborder
    | s :: l' => match f s with
                 | Inside => Inside
                 | p => go l' (isoutside && loc_eqb p Outside)%bool
                 end
    end.
(* Locator::locate and the visit methods: Locator.cc:31-37, 168-261.  A scale of 0 gives nan in C++ and is not modelled *)
Fixpoint locate (tol : R) (s : shape) (p : vec3) {struct s} : location :=
  match s with
  | Box X Y Z => locate_box tol X Y Z p
  | Cylinder r h => locate_cylinder tol r h p
  | Pyramid X Y h => locate_pyramid tol X Y h p
  | Cone r h => locate_cone tol r h p
  | Sphere r => locate_sphere tol r p
  | Difference a b => locate_difference (locate tol a p) (locate tol b p)
  | Intersection l => intersection_loop (fun s' => locate tol s' p) l true
  | Union l => union_loop (fun s' => locate tol s' p) l true
  | Dilation b k => locate tol b (vscale (1 / k) p)                     (* 224-227 *)
  | Translation b v => locate tol b (vsub p v)                          (* 244-247 *)
  | Rotation b m => locate tol b (dot_mv (transpose m) p)               (* 256-260 *)
  end.

(** ** ArrowIntersector *)

(* eq_withinepsilon: ArrowIntersector.cc:30-33 *)
Definition eq_withinepsilon (tol x y : R) : bool := Rltb (Rabs (x - y)) (tol / 5).
(* std::sort of a vector of numbers *)
Fixpoint rinsert (x : R) (l : list R) : list R :=
  match l with [] => [x] | y :: l' => if Rleb x y then x :: l else y :: rinsert x l' end.
(* std::sort (library, not code of /repo) *)
Definition rsort (l : list R) : list R := fold_right rinsert [] l.
(* std::unique with eq_withinepsilon: an element is dropped when it equals the last element kept.  ArrowIntersector.cc:336-338, 448-450, 546-548 *)
Fixpoint unique_from (tol last : R) (l : list R) : list R :=
  match l with
  | [] => []
  | y :: l' => if eq_withinepsilon tol last y then unique_from tol last l' else y :: unique_from tol y l'
  end.
(* in the group above: ArrowIntersector.cc:336-338, 448-450, 546-548 *)
Definition unique (tol : R) (l : list R) : list R :=
  match l with [] => [] | x :: l' => x :: unique_from tol x l' end.
(* the smaller of two times first: ArrowIntersector.cc:273-279, 359-365, 487-493, 565-571 *)
Definition order2 (a b : R) : list R := if Rltb a b then [a; b] else [b; a].

(* direction == (0,0,0): ArrowIntersector.cc:94-97 *)
Definition Reqb (a b : R) : bool := if Req_EM_T a b then true else false.
(* ArrowIntersector.cc:94-97 *)
Definition isInvalidDirection (v : vec3) : bool := (Reqb (vx v) 0 && Reqb (vy v) 0 && Reqb (vz v) 0)%bool.

(* intersectTriangle: ArrowIntersector.cc:104-133.  N.normalize() of a zero normal gives nan in C++; not modelled, the
   four triangles of a pyramid with positive sizes have normals that are not zero *)
Definition intersectTriangle (r v A B C : vec3) : list R :=
  let AB := vsub B A in let AC := vsub C A in
  let N0 := vcross AB AC in
  let N := vdiv N0 (vnorm N0) in
  let d := vdot N A in
  let v_p := vdot N v in
  if Rltb (Rabs v_p) (1 / 10 ^ 10) then [] else                   (* 116 *)
  let t := (d - vdot N r) / vdot N v in
  let P := vadd r (vscale t v) in let AP := vsub P A in
  let AC_ := vcross N AC in let c1 := vdot AP AC_ / vdot AB AC_ in
  if Rltb c1 0 then [] else
  let AB_ := vcross N AB in let c2 := vdot AP AB_ / vdot AC AB_ in
  if Rltb c2 0 then [] else
  if Rltb 1 (c1 + c2) then [] else [t].
(* intersectRectangle: ArrowIntersector.cc:140-150; only called with a vz that is not 0 *)
Definition intersectRectangle (rx ry rz vx vy vz X Y : R) : list R :=
  let t := (0 - rz) / vz in
  if (Rltb (Rabs (rx + vx * t)) (X / 2) && Rltb (Rabs (ry + vy * t)) (Y / 2))%bool then [t] else [].
(* intersectCylinderSide: ArrowIntersector.cc:158-186.  vx = vy = 0: k is 0 and t = -0/0 is nan, the comparison of line 173 is false *)
Definition intersectCylinderSide (x y z vx vy vz r h : R) : list R :=
  let a := vx * vx + vy * vy in
  let b := x * vx + y * vy in
  let c := x * x + y * y - r * r in
  let k := b * b - a * c in
  let hh := h / 2 in
  let keep := fun t => if Rltb (Rabs (z + vz * t)) hh then [t] else [] in
  if Rltb k 0 then []
  else if Reqb a 0 then []
  else if Reqb k 0 then keep (- b / a)
  else keep ((- b + sqrt k) / a) ++ keep ((- b - sqrt k) / a).
(* intersectCylinderTopBottom: ArrowIntersector.cc:193-215.  vz = 0: t is infinite or nan, x1*x1+y1*y1 is infinite or nan, the comparisons are false *)
Definition intersectCylinderTopBottom (x y z vx vy vz r h : R) : list R :=
  let hh := h / 2 in let r2 := r * r in
  let keep := fun t => let x1 := x + vx * t in let y1 := y + vy * t in if Rleb (x1 * x1 + y1 * y1) r2 then [t] else [] in
  if Reqb vz 0 then [] else keep ((hh - z) / vz) ++ keep ((- hh - z) / vz).

(* ArrowIntersector::visit(Box): ArrowIntersector.cc:220-283 *)
Definition box_candidates (X Y Z : R) (r v : vec3) : list R :=
  (if Reqb (vz v) 0 then [] else
     intersectRectangle (vx r) (vy r) (vz r - Z / 2) (vx v) (vy v) (vz v) X Y
     ++ intersectRectangle (vx r) (vy r) (vz r + Z / 2) (vx v) (vy v) (vz v) X Y)
  ++ (if Reqb (vx v) 0 then [] else
     intersectRectangle (vy r) (vz r) (vx r - X / 2) (vy v) (vz v) (vx v) Y Z
     ++ intersectRectangle (vy r) (vz r) (vx r + X / 2) (vy v) (vz v) (vx v) Y Z)
  ++ (if Reqb (vy v) 0 then [] else
     intersectRectangle (vz r) (vx r) (vy r - Y / 2) (vz v) (vx v) (vy v) Z X
     ++ intersectRectangle (vz r) (vx r) (vy r + Y / 2) (vz v) (vx v) (vy v) Z X).
Definition intersect_box (X Y Z : R) (r v : vec3) : list R :=
  if isInvalidDirection v then [] else
  match box_candidates X Y Z r v with
  | [a; b] => order2 a b
  | _ => []                                                      (* 256-271 *)
  end.
(* ArrowIntersector::visit(Pyramid): ArrowIntersector.cc:287-368 *)
Definition pyramid_candidates (X Y H : R) (r d : vec3) : list R :=
  (if Reqb (vz d) 0 then [] else intersectRectangle (vx r) (vy r) (vz r + H) (vx d) (vy d) (vz d) X Y)
  ++ intersectTriangle r d (mkV 0 0 0) (mkV (X / 2) (Y / 2) (- H)) (mkV (X / 2) (- Y / 2) (- H))
  ++ intersectTriangle r d (mkV 0 0 0) (mkV (X / 2) (- Y / 2) (- H)) (mkV (- X / 2) (- Y / 2) (- H))
  ++ intersectTriangle r d (mkV 0 0 0) (mkV (- X / 2) (- Y / 2) (- H)) (mkV (- X / 2) (Y / 2) (- H))
  ++ intersectTriangle r d (mkV 0 0 0) (mkV (- X / 2) (Y / 2) (- H)) (mkV (X / 2) (Y / 2) (- H)).
Definition intersect_pyramid (tol X Y H : R) (r v : vec3) : list R :=
  if isInvalidDirection v then [] else
  let length := vnorm v in
  let d := vscale (1 / length) v in
  match unique tol (rsort (pyramid_candidates X Y H r d)) with
  | [a; b] => map (fun t => t / length) (order2 a b)
  | _ => []                                                      (* 333, 340-357 *)
  end.
(* the solutions for the infinite double cone: ArrowIntersector.cc:394-431.  vl is the length of the direction, D the direction divided by it *)
Definition cone_roots (tol radius H : R) (r d : vec3) : list R :=
  let vl := vnorm d in
  let D := vdiv d vl in
  let V := mkV 0 0 (-1) in
  let cos_theta_sq := H * H / (radius * radius + H * H) in
  let DdotV := vdot D V in let COdotV := vdot r V in let DdotCO := vdot D r in
  let a := DdotV * DdotV - cos_theta_sq in
  let b := 2 * (DdotV * COdotV - DdotCO * cos_theta_sq) in
  let c := COdotV * COdotV - vdot r r * cos_theta_sq in
  if eq_withinepsilon tol a 0 then
    (if eq_withinepsilon tol b 0 then [] else [- c / b / vl])
  else
    let delta := b * b - 4 * a * c in
    if Rltb delta 0 then [] else [(- b - sqrt delta) / 2 / a / vl; (- b + sqrt delta) / 2 / a / vl].
(* ArrowIntersector.cc:432-442.  vz = 0: t2 is infinite or nan and the comparison of line 442 is false *)
Definition cone_candidates (tol radius H : R) (r d : vec3) : list R :=
  filter (fun t => let z1 := vz r + t * vz d in (Rltb z1 (tol / 10) && negb (Rltb z1 (- H - tol / 10)))%bool)
    (cone_roots tol radius H r d)
  ++ (if Reqb (vz d) 0 then [] else
      let t2 := (- H - vz r) / vz d in
      let x2 := vx r + vx d * t2 in let y2 := vy r + vy d * t2 in
      if Rltb (x2 * x2 + y2 * y2) (radius * radius) then [t2] else []).
(* ArrowIntersector::visit(Cone): ArrowIntersector.cc:372-496 *)
Definition intersect_cone (tol radius H : R) (r v : vec3) : list R :=
  if isInvalidDirection v then [] else
  let length := vnorm v in
  let d := vscale (1 / length) v in
  match unique tol (rsort (cone_candidates tol radius H r d)) with
  | [a; b] => map (fun t => t / length) (order2 a b)
  | [a; b; c] => let b' := if Rltb b ((a + c) / 2) then c else b in       (* 470-479 *)
                 map (fun t => t / length) (order2 a b')
  | _ => []
  end.
(* ArrowIntersector::visit(Cylinder): ArrowIntersector.cc:499-573 *)
Definition cylinder_candidates (radius height : R) (r v : vec3) : list R :=
  intersectCylinderSide (vx r) (vy r) (vz r) (vx v) (vy v) (vz v) radius height
  ++ intersectCylinderTopBottom (vx r) (vy r) (vz r) (vx v) (vy v) (vz v) radius height.
Definition intersect_cylinder (tol radius height : R) (r v : vec3) : list R :=
  if isInvalidDirection v then [] else
  match cylinder_candidates radius height r v with
  | [] => []
  | [_] => []
  | [a; b] => order2 a b
  | ts => match unique tol ts with [a; b] => order2 a b | _ => [] end      (* 546-562 *)
  end.
(* calc_intersects_line_sphere and ArrowIntersector::visit(Sphere): ArrowIntersector.cc:593-619, 622-638 *)
Definition intersect_sphere (radius : R) (r v : vec3) : list R :=
  if isInvalidDirection v then [] else
  let r0dotv := vdot r v in
  let r0Xv := vcross r v in
  let v2 := vdot v v in
  let b2m4ac := v2 * radius * radius - vdot r0Xv r0Xv in
  if Rltb b2m4ac 0 then []
  else [- (r0dotv + sqrt b2m4ac) / v2; - (r0dotv - sqrt b2m4ac) / v2].

(* isNotOnBorder, remove_points_not_on_border: ArrowIntersector.cc:646-678 *)
Definition on_border_of (tol : R) (s : shape) (start direction : vec3) (t : R) : bool :=
  loc_eqb (locate tol s (arrow_at start direction t)) Onborder.
(* visit_composition: ArrowIntersector.cc:682-713; [members] are the intersections with the members, one list per member *)
Definition visit_composition (tol : R) (composition : shape) (start direction : vec3) (members : list (list R)) : list R :=
  rsort (flat_map (fun dists => filter (on_border_of tol composition start direction) dists) members).
(* geometry::intersect and the visit methods: intersect.cc:8-15, ArrowIntersector.cc:80-86, 716-800 *)
Fixpoint intersect (tol : R) (s : shape) (start direction : vec3) {struct s} : list R :=
  match s with
  | Box X Y Z => intersect_box X Y Z start direction
  | Cylinder r h => intersect_cylinder tol r h start direction
  | Pyramid X Y h => intersect_pyramid tol X Y h start direction
  | Cone r h => intersect_cone tol r h start direction
  | Sphere r => intersect_sphere r start direction
  | Difference a b => visit_composition tol s start direction [intersect tol a start direction; intersect tol b start direction]
  | Intersection l => visit_composition tol s start direction (map (fun s' => intersect tol s' start direction) l)
  | Union l => visit_composition tol s start direction (map (fun s' => intersect tol s' start direction) l)
  | Dilation b k => intersect tol b (vscale (1 / k) start) (vscale (1 / k) direction)     (* 744-748 *)
  | Translation b v => intersect tol b (vsub start v) direction                           (* 771-774 *)
  | Rotation b m => intersect tol b (dot_mv (transpose m) start) (dot_mv (transpose m) direction)   (* 789-795 *)
  end.
(* forward_intersect: intersect.cc:17-31 *)
Definition forward_intersect (tol : R) (s : shape) (start direction : vec3) : list R :=
  filter (fun t => negb (Rltb t 0)) (intersect tol s start direction).

(** ** BoundingBoxMaker *)

(* BoundingBox: BoundingBox.h:12-15 *)
Record bbox := mkBB { bcx : R; bcy : R; bcz : R; bsx : R; bsy : R; bsz : R }.
(* uniteBB: BoundingBoxMaker.cc:16-29 *)
Definition uniteBB (a b : bbox) : bbox :=
  let xmin := Rmin (bcx a - bsx a / 2) (bcx b - bsx b / 2) in
  let xmax := Rmax (bcx a + bsx a / 2) (bcx b + bsx b / 2) in
  let ymin := Rmin (bcy a - bsy a / 2) (bcy b - bsy b / 2) in
  let ymax := Rmax (bcy a + bsy a / 2) (bcy b + bsy b / 2) in
  let zmin := Rmin (bcz a - bsz a / 2) (bcz b - bsz b / 2) in
  let zmax := Rmax (bcz a + bsz a / 2) (bcz b + bsz b / 2) in
  mkBB ((xmin + xmax) / 2) ((ymin + ymax) / 2) ((zmin + zmax) / 2) (xmax - xmin) (ymax - ymin) (zmax - zmin).
(* intersectBB: BoundingBoxMaker.cc:30-43 *)
Definition intersectBB (a b : bbox) : bbox :=
  let xmin := Rmax (bcx a - bsx a / 2) (bcx b - bsx b / 2) in
  let xmax := Rmin (bcx a + bsx a / 2) (bcx b + bsx b / 2) in
  let ymin := Rmax (bcy a - bsy a / 2) (bcy b - bsy b / 2) in
  let ymax := Rmin (bcy a + bsy a / 2) (bcy b + bsy b / 2) in
  let zmin := Rmax (bcz a - bsz a / 2) (bcz b - bsz b / 2) in
  let zmax := Rmin (bcz a + bsz a / 2) (bcz b + bsz b / 2) in
  mkBB ((xmin + xmax) / 2) ((ymin + ymax) / 2) ((zmin + zmax) / 2)
       (Rmax (xmax - xmin) 0) (Rmax (ymax - ymin) 0) (Rmax (zmax - zmin) 0).
(* the loops "for i: shapes[i]->identify(*this); ret = f(ret, bb)": BoundingBoxMaker.cc:128-131, 145-148; [make] visits a member *)
Definition bb_loop (f : bbox -> bbox -> bbox) (make : shape -> result bbox) : bbox -> list shape -> result bbox :=
  fix go (ret : bbox) (l : list shape) {struct l} : result bbox :=
    match l with
    | [] => Ok ret
    | s :: l' => let! bb := make s in go (f ret bb) l'
    end.
(* BoundingBoxMaker::make and the visit methods: BoundingBoxMaker.cc:53-194.  An empty list fails the assertions of lines 124, 141 *)
Fixpoint bounding_box (s : shape) {struct s} : result bbox :=
  match s with
  | Box X Y Z => Ok (mkBB 0 0 0 X Y Z)
  | Cylinder r h => Ok (mkBB 0 0 0 (r * 2) (r * 2) h)
  | Pyramid X Y h => Ok (mkBB 0 0 (- h / 2) X Y h)
  | Cone r h => Ok (mkBB 0 0 (- h / 2) (r * 2) (r * 2) h)
  | Sphere r => Ok (mkBB 0 0 0 (r * 2) (r * 2) (r * 2))
  | Difference a _ => bounding_box a
  | Intersection l => match l with
                      | [] => Err AssertionError
                      | s0 :: rest => let! bb0 := bounding_box s0 in bb_loop intersectBB bounding_box bb0 rest
                      end
  | Union l => match l with
               | [] => Err AssertionError
               | s0 :: rest => let! bb0 := bounding_box s0 in bb_loop uniteBB bounding_box bb0 (s0 :: rest)
               end
  | Dilation b k => let! bb := bounding_box b in
      Ok (mkBB (bcx bb * k) (bcy bb * k) (bcz bb * k) (bsx bb * k) (bsy bb * k) (bsz bb * k))
  | Translation b v => let! bb := bounding_box b in
      Ok (mkBB (bcx bb + vx v) (bcy bb + vy v) (bcz bb + vz v) (bsx bb) (bsy bb) (bsz bb))
  | Rotation b m => let! bb := bounding_box b in
      let c := dot_mv m (mkV (bcx bb) (bcy bb) (bcz bb)) in
      let s := Rmax (bsx bb) (Rmax (bsy bb) (bsz bb)) in
      Ok (mkBB (vx c) (vy c) (vz c) s s s)
  end.
