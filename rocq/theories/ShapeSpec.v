(** Vocabulary for C34-C36: the set of points a shape stands for.

    [solid s p]: p belongs to the closed body; [core s p]: p belongs to the open body (the body without its surface).
    The surface ([border]) is what is in the closed body but not in the open one. *)
From Coq Require Import Reals Lra.
From Verif Require Import Base RotModel RotSpec ShapeModel.
Open Scope R_scope.

(** A body given by conditions on coordinates: [le] is <= for the closed body and < for the open one. *)
Definition prim (le : R -> R -> Prop) (s : shape) (p : vec3) : Prop :=
  let x := vx p in let y := vy p in let z := vz p in
  match s with
  | Box X Y Z => le (2 * Rabs x) X /\ le (2 * Rabs y) Y /\ le (2 * Rabs z) Z
  | Cylinder R h => le (x * x + y * y) (R * R) /\ le (2 * Rabs z) h
  | Pyramid X Y h => le z 0 /\ le (- h) z /\ le (2 * h * Rabs x) (X * - z) /\ le (2 * h * Rabs y) (Y * - z)
  | Cone R h => le z 0 /\ le (- h) z /\ le (h * h * (x * x + y * y)) (R * R * (z * z))
  | Sphere R => le (x * x + y * y + z * z) (R * R)
  | _ => False
  end.

(** Closed body (first component) and open body (second component). *)
Fixpoint body (s : shape) : (vec3 -> Prop) * (vec3 -> Prop) :=
  match s with
  | Difference a b => (fun p => fst (body a) p /\ ~ snd (body b) p, fun p => snd (body a) p /\ ~ fst (body b) p)
  | Intersection l => (fun p => Forall (fun P => P p) (map (fun s' => fst (body s')) l),
                       fun p => Forall (fun P => P p) (map (fun s' => snd (body s')) l))
  | Union l => (fun p => Exists (fun P => P p) (map (fun s' => fst (body s')) l),
                fun p => Exists (fun P => P p) (map (fun s' => snd (body s')) l))
  | Dilation b k => (fun p => exists q, fst (body b) q /\ p = vscale k q, fun p => exists q, snd (body b) q /\ p = vscale k q)
  | Translation b v => (fun p => exists q, fst (body b) q /\ p = vadd q v, fun p => exists q, snd (body b) q /\ p = vadd q v)
  | Rotation b m => (fun p => exists q, fst (body b) q /\ p = dot_mv m q, fun p => exists q, snd (body b) q /\ p = dot_mv m q)
  | _ => (prim Rle s, prim Rlt s)
  end.
Definition solid (s : shape) : vec3 -> Prop := fst (body s).
Definition core (s : shape) : vec3 -> Prop := snd (body s).
Definition border (s : shape) (p : vec3) : Prop := solid s p /\ ~ core s p.

(** Shapes that make sense: sizes that are not negative, heights of pyramids and cones positive, scales not zero,
    rotation matrices that are rotations or reflections. *)
Definition orthogonal (m : mat3) : Prop := forall a b, sdot (dot_mv m a) (dot_mv m b) = sdot a b.
Fixpoint wf (s : shape) : Prop :=
  match s with
  | Box X Y Z => 0 <= X /\ 0 <= Y /\ 0 <= Z
  | Cylinder r h => 0 <= r /\ 0 <= h
  | Pyramid X Y h => 0 <= X /\ 0 <= Y /\ 0 < h
  | Cone r h => 0 <= r /\ 0 < h
  | Sphere r => 0 <= r
  | Difference a b => wf a /\ wf b
  | Intersection l | Union l => fold_right and True (map wf l)
  | Dilation b k => wf b /\ k <> 0
  | Translation b _ => wf b
  | Rotation b m => wf b /\ orthogonal m
  end.

(** points closer than e *)
Definition near (e : R) (p q : vec3) : Prop := norm2 (vsub q p) < e * e.

(** The line from [r] along [v]. *)
Definition on_line (r v : vec3) (t : R) : vec3 := mkV (vx r + t * vx v) (vy r + t * vy v) (vz r + t * vz v).
(** The line goes through the open body. *)
Definition meets (s : shape) (r v : vec3) : Prop := exists t, core s (on_line r v t).
(** [t1] and [t2] are where the line enters and leaves the body: the part between them is the part inside. *)
Definition entry_exit (s : shape) (r v : vec3) (t1 t2 : R) : Prop :=
  t1 < t2 /\ (forall t, core s (on_line r v t) <-> t1 < t < t2) /\ (forall t, solid s (on_line r v t) <-> t1 <= t <= t2).
(** A point on an edge of a box: at least two of its coordinates are those of a face. *)
Definition on_edge (X Y Z : R) (p : vec3) : Prop :=
  (2 * Rabs (vx p) = X /\ 2 * Rabs (vy p) = Y) \/ (2 * Rabs (vy p) = Y /\ 2 * Rabs (vz p) = Z) \/ (2 * Rabs (vz p) = Z /\ 2 * Rabs (vx p) = X).

(** Shapes with sizes that are positive. *)
Fixpoint positive (s : shape) : Prop :=
  match s with
  | Box X Y Z => 0 < X /\ 0 < Y /\ 0 < Z
  | Cylinder r h => 0 < r /\ 0 < h
  | Pyramid X Y h => 0 < X /\ 0 < Y /\ 0 < h
  | Cone r h => 0 < r /\ 0 < h
  | Sphere r => 0 < r
  | Difference a b => positive a /\ positive b
  | Intersection l | Union l => fold_right and True (map positive l)
  | Dilation b k => positive b /\ k <> 0
  | Translation b _ => positive b
  | Rotation b m => positive b /\ orthogonal m
  end.
(** A cone, possibly moved, turned or scaled. *)
Fixpoint plain_cone (s : shape) : Prop :=
  match s with
  | Cone _ _ => True
  | Dilation b _ | Translation b _ | Rotation b _ => plain_cone b
  | _ => False
  end.
(** A primitive body other than a cone, possibly moved, turned or scaled. *)
Fixpoint plain (s : shape) : Prop :=
  match s with
  | Box _ _ _ | Cylinder _ _ | Pyramid _ _ _ | Sphere _ => True
  | Dilation b _ | Translation b _ | Rotation b _ => plain b
  | _ => False
  end.
(** Rays for which the code misses no crossing of a primitive: all rays for spheres; for a cylinder the ray passes through the open body or
    misses the closed one; for a box moreover it does not enter or leave through an edge.  Nothing is claimed for pyramids and cones. *)
Fixpoint regular (s : shape) (r v : vec3) : Prop :=
  match s with
  | Box X Y Z => (forall t, ~ solid s (on_line r v t)) \/ (meets s r v /\ forall t, border s (on_line r v t) -> ~ on_edge X Y Z (on_line r v t))
  | Cylinder _ _ => (forall t, ~ solid s (on_line r v t)) \/ meets s r v
  | Pyramid _ _ _ | Cone _ _ => False
  | Sphere _ => True
  | Difference a b => regular a r v /\ regular b r v
  | Intersection l | Union l => fold_right and True (map (fun s' => regular s' r v) l)
  | Dilation b k => regular b (vscale (1 / k) r) (vscale (1 / k) v)
  | Translation b w => regular b (vsub r w) v
  | Rotation b m => regular b (dot_mv (transpose m) r) (dot_mv (transpose m) v)
  end.

(** The direction is not nearly parallel to the lines on the cone through its apex: cos^2 of the angle with the axis differs from that of the cone. *)
Definition steep (tol R0 h : R) (v : vec3) : Prop :=
  tol / 5 * (norm2 v * (R0 * R0 + h * h)) <= Rabs (vz v * vz v * (R0 * R0 + h * h) - h * h * norm2 v).

(** The closed box that a BoundingBox record describes. *)
Definition within (bb : bbox) (p : vec3) : Prop :=
  (bcx bb - bsx bb / 2 <= vx p <= bcx bb + bsx bb / 2) /\
  (bcy bb - bsy bb / 2 <= vy p <= bcy bb + bsy bb / 2) /\
  (bcz bb - bsz bb / 2 <= vz p <= bcz bb + bsz bb / 2).
(** Shapes for which the bounding box can be relied on: no rotation, positive scales, no operation on an empty list. *)
Fixpoint boxable (s : shape) : Prop :=
  match s with
  | Difference a b => boxable a
  | Intersection l | Union l => l <> [] /\ fold_right and True (map boxable l)
  | Dilation b k => boxable b /\ 0 < k
  | Translation b _ => boxable b
  | Rotation _ _ => False
  | _ => True
  end.
(** No part is cut away: primitive bodies, moved or scaled or united. *)
Fixpoint uncut (s : shape) : Prop :=
  match s with
  | Difference _ _ | Intersection _ | Rotation _ _ => False
  | Union l => fold_right and True (map uncut l)
  | Dilation b _ | Translation b _ => uncut b
  | _ => True
  end.
(** Every operation on a list has at least one member, at any depth that is visited. *)
Fixpoint members (s : shape) : Prop :=
  match s with
  | Difference a _ => members a
  | Intersection l | Union l => l <> [] /\ fold_right and True (map members l)
  | Dilation b _ | Translation b _ | Rotation b _ => members b
  | _ => True
  end.
