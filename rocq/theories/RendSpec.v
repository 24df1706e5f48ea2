(** Vocabulary for C71 and C72: the bodies that descriptions of shapes stand for, as sets of points in metres.

    Axes of McStas: z along the beam, y up, x to the side. *)
From Coq Require Import Reals Lra.
From Verif Require Import Base RotModel RotSpec ShapeModel ShapeSpec RendModel.
Open Scope R_scope.

(** Sizes in metres and angles in degrees: bare numbers are taken to be in these units already; quantities are in SI units. *)
Definition metres (v : pyval) : R := match v with Plain x | Quant _ x => x | Other => 0 end.
Definition degrees (v : pyval) : R := match v with Plain x => x | Quant _ x => x * 180 / PI | Other => 0 end.
(** Values with which [l] is acceptable where a [d] is expected: all bare, or all of that kind. *)
Definition bare (v : pyval) : Prop := exists x, v = Plain x.
Definition kind (d : dim) (v : pyval) : Prop := exists x, v = Quant d x.
Definition uniform (d : dim) (l : list pyval) : Prop := Forall bare l \/ Forall (kind d) l.
Definition single (d : dim) (v : pyval) : Prop := bare v \/ kind d v.
Definition elems (t : triple) : list pyval := let '(a, b, c) := t in [a; b; c].
(** A triple of sizes as a vector.  If the coordinate system is not implicit the order is beam, transversal, vertical. *)
Definition vector_of (implicit : bool) (t : triple) : vec3 :=
  let '(a, b, c) := t in
  if implicit then mkV (metres a) (metres b) (metres c) else mkV (metres b) (metres c) (metres a).
Definition axis_of (implicit : bool) (a : vec3) : vec3 := if implicit then a else mkV (vy a) (vz a) (vx a).

(** The point [q] after a right-handed turn by [theta] radians about the direction of [axis] (Rodrigues). *)
Definition scross (a b : vec3) : vec3 := mkV (vy a * vz b - vz a * vy b) (vz a * vx b - vx a * vz b) (vx a * vy b - vy a * vx b).
Definition smul (k : R) (a : vec3) : vec3 := mkV (k * vx a) (k * vy a) (k * vz a).
Definition turn (axis : vec3) (theta : R) (q : vec3) : vec3 :=
  let u := smul (/ sqrt (norm2 axis)) axis in
  vadd (vadd (smul (cos theta) q) (smul (sin theta) (scross u q))) (smul ((1 - cos theta) * sdot u q) u).
(** Three turns: first about x, then about the new y, then about the new z; in degrees. *)
Definition rad (d : R) : R := d * PI / 180.
Definition ex : vec3 := mkV 1 0 0.
Definition ey : vec3 := mkV 0 1 0.
Definition ez : vec3 := mkV 0 0 1.
Definition turns (t : triple) (q : vec3) : vec3 :=
  let '(a, b, c) := t in turn ex (rad (degrees a)) (turn ey (rad (degrees b)) (turn ez (rad (degrees c)) q)).

(** Closed and open body; [le] is <= or <. *)
Definition upright (le : R -> R -> Prop) (s : pshape) (p : vec3) : Prop :=
  let x := vx p in let y := vy p in let z := vz p in
  match s with
  | PBlock (Diagonal (X, Y, Z)) => le (2 * Rabs x) (metres X) /\ le (2 * Rabs y) (metres Y) /\ le (2 * Rabs z) (metres Z)
  | PBlock (Sides width height thickness) =>
      le (2 * Rabs x) (metres width) /\ le (2 * Rabs y) (metres height) /\ le (2 * Rabs z) (metres thickness)
  | PSphere r => le (x * x + y * y + z * z) (metres r * metres r)
  | PCylinder r h => le (x * x + z * z) (metres r * metres r) /\ le (2 * Rabs y) (metres h)
  (* apex at the origin, base below *)
  | PCone r h => le y 0 /\ le (- metres h) y /\ le (metres h * metres h * (x * x + z * z)) (metres r * metres r * (y * y))
  | PPyramid thickness width h =>
      le y 0 /\ le (- metres h) y /\ le (2 * metres h * Rabs x) (metres width * - y) /\ le (2 * metres h * Rabs z) (metres thickness * - y)
  | PHollowCylinder r1 r2 h =>
      (metres r1 <> 0 -> le (metres r1 * metres r1) (x * x + z * z)) /\ le (x * x + z * z) (metres r2 * metres r2) /\ le (2 * Rabs y) (metres h)
  | PSphereShell r1 r2 =>
      (metres r1 <> 0 -> le (metres r1 * metres r1) (x * x + y * y + z * z)) /\ le (x * x + y * y + z * z) (metres r2 * metres r2)
  | _ => False
  end.
Fixpoint figure (s : pshape) : (vec3 -> Prop) * (vec3 -> Prop) :=
  match s with
  | PDifference a b => (fun p => fst (figure a) p /\ ~ snd (figure b) p, fun p => snd (figure a) p /\ ~ fst (figure b) p)
  | PIntersection l => (fun p => Forall (fun P => P p) (map (fun s' => fst (figure s')) l),
                        fun p => Forall (fun P => P p) (map (fun s' => snd (figure s')) l))
  | PUnion l => (fun p => Exists (fun P => P p) (map (fun s' => fst (figure s')) l),
                 fun p => Exists (fun P => P p) (map (fun s' => snd (figure s')) l))
  | PDilation b k => (fun p => exists q, fst (figure b) q /\ p = smul k q, fun p => exists q, snd (figure b) q /\ p = smul k q)
  | PTranslation b v i => (fun p => exists q, fst (figure b) q /\ p = vadd q (vector_of i v),
                           fun p => exists q, snd (figure b) q /\ p = vadd q (vector_of i v))
  | PRotation b (Some t) _ _ _ => (fun p => exists q, fst (figure b) q /\ p = turns t q, fun p => exists q, snd (figure b) q /\ p = turns t q)
  | PRotation b None axis a i => (fun p => exists q, fst (figure b) q /\ p = turn (axis_of i axis) (rad (degrees a)) q,
                                  fun p => exists q, snd (figure b) q /\ p = turn (axis_of i axis) (rad (degrees a)) q)
  | _ => (upright Rle s, upright Rlt s)
  end.
Definition closed_figure (s : pshape) : vec3 -> Prop := fst (figure s).
Definition open_figure (s : pshape) : vec3 -> Prop := snd (figure s).

(** Descriptions with acceptable values. *)
Definition values_ok (s : pshape) : Prop :=
  match s with
  | PBlock (Diagonal t) => uniform Length (elems t)
  | PBlock (Sides w h t) => uniform Length [w; h; t]
  | PSphere r => single Length r
  | PCylinder r h | PCone r h => uniform Length [r; h]
  | PPyramid t w h => uniform Length [t; w; h]
  | PHollowCylinder r1 r2 h => uniform Length [r1; r2; h] /\ metres r1 < metres r2
  | PSphereShell r1 r2 => uniform Length [r1; r2] /\ metres r1 < metres r2
  | _ => True
  end.
Fixpoint acceptable (s : pshape) : Prop :=
  match s with
  | PUnion l | PIntersection l => fold_right and True (map acceptable l)
  | PDifference a b => acceptable a /\ acceptable b
  | PDilation b _ => acceptable b
  | PTranslation b t _ => acceptable b /\ uniform Length (elems t)
  | PRotation b (Some t) _ _ _ => acceptable b /\ uniform Angle (elems t)
  | PRotation b None axis a _ => acceptable b /\ single Angle a /\ axis <> mkV 0 0 0
  | _ => values_ok s
  end.
(** Sizes that make sense. *)
Definition sizes_ok (s : pshape) : Prop :=
  match s with
  | PBlock (Diagonal (a, b, c)) | PBlock (Sides a b c) => 0 <= metres a /\ 0 <= metres b /\ 0 <= metres c
  | PSphere r => 0 <= metres r
  | PCylinder r h => 0 <= metres r /\ 0 <= metres h
  | PCone r h => 0 <= metres r /\ 0 < metres h
  | PPyramid t w h => 0 <= metres t /\ 0 <= metres w /\ 0 < metres h
  | PHollowCylinder r1 r2 h => 0 <= metres r1 /\ 0 < metres h
  | PSphereShell r1 r2 => 0 <= metres r1
  | _ => True
  end.
Fixpoint sensible (s : pshape) : Prop :=
  match s with
  | PUnion l | PIntersection l => fold_right and True (map sensible l)
  | PDifference a b => sensible a /\ sensible b
  | PDilation b k => sensible b /\ k <> 0
  | PTranslation b _ _ | PRotation b _ _ _ _ => sensible b
  | _ => sizes_ok s
  end.

(** The same description with bare numbers, in metres and degrees. *)
Definition bare_metres (v : pyval) : pyval := Plain (metres v).
Definition bare_degrees (v : pyval) : pyval := Plain (degrees v).
Definition on_triple (f : pyval -> pyval) (t : triple) : triple := let '(a, b, c) := t in (f a, f b, f c).
Fixpoint stripped (s : pshape) : pshape :=
  let m := bare_metres in
  match s with
  | PBlock (Diagonal t) => PBlock (Diagonal (on_triple m t))
  | PBlock (Sides w h t) => PBlock (Sides (m w) (m h) (m t))
  | PSphere r => PSphere (m r)
  | PCylinder r h => PCylinder (m r) (m h)
  | PCone r h => PCone (m r) (m h)
  | PPyramid t w h => PPyramid (m t) (m w) (m h)
  | PHollowCylinder r1 r2 h => PHollowCylinder (m r1) (m r2) (m h)
  | PSphereShell r1 r2 => PSphereShell (m r1) (m r2)
  | PUnion l => PUnion (map stripped l)
  | PIntersection l => PIntersection (map stripped l)
  | PDifference a b => PDifference (stripped a) (stripped b)
  | PDilation b k => PDilation (stripped b) k
  | PTranslation b t i => PTranslation (stripped b) (on_triple m t) i
  | PRotation b e axis a i => PRotation (stripped b) (option_map (on_triple bare_degrees) e) axis (bare_degrees a) i
  end.

(** No part of the description moves or turns anything, and blocks have named sides. *)
Fixpoint unmoved (s : pshape) : Prop :=
  match s with
  | PTranslation _ _ _ | PRotation _ _ _ _ _ | PBlock (Diagonal _) => False
  | PUnion l | PIntersection l => fold_right and True (map unmoved l)
  | PDifference a b => unmoved a /\ unmoved b
  | PDilation b _ => unmoved b
  | _ => True
  end.
(** Some part that is visited moves or turns something. *)
Fixpoint moved (s : pshape) : Prop :=
  match s with
  | PTranslation _ _ _ | PRotation _ _ _ _ _ => True
  | PUnion l | PIntersection l => fold_right or False (map moved l)
  | PDifference a b => moved a \/ moved b
  | PDilation b _ => moved b
  | _ => False
  end.

(** ** Composites *)
(** Where [e] was put last: the last of the calls that added it. *)
Definition placement := (element * triple * triple)%type.
Definition build (c : composite) (calls : list placement) : composite :=
  fold_left (fun c '(e, p, o) => addElement c e p o) calls c.
(** The calls add each object once. *)
Definition each_once (calls : list placement) : Prop := NoDup (map (fun '(e, _, _) => el_id e) calls).
(** A point of the composite in the frame of an element at position [p] with orientation [o]. *)
Definition in_element (p o : triple) (global local : vec3) : Prop := global = vadd (turns o local) (vector_of true p).

(** Descriptions that mean the same with and without an adaptor: no bodies with an axis, no blocks with named sides, no vectors given
    as beam, transversal, vertical, no turns about an axis. *)
Fixpoint axis_free (s : pshape) : Prop :=
  match s with
  | PSphere _ | PSphereShell _ _ | PBlock (Diagonal _) => True
  | PBlock (Sides _ _ _) | PCylinder _ _ | PCone _ _ | PPyramid _ _ _ | PHollowCylinder _ _ _ => False
  | PUnion l | PIntersection l => fold_right and True (map axis_free l)
  | PDifference a b => axis_free a /\ axis_free b
  | PDilation b _ => axis_free b
  | PTranslation b _ i => axis_free b /\ i = true
  | PRotation b e _ _ _ => axis_free b /\ e <> None
  end.
(** The point with coordinates along the beam, to the side, and up. *)
Definition beam_first (p : vec3) : vec3 := mkV (vz p) (vx p) (vy p).
(** Calls of addElement that give the engine something to work with: a scatterer with an acceptable shape, a position in metres or lengths,
    an orientation in degrees or angles. *)
Definition shape_of (e : element) : pshape := match el_scatterer e with Homogeneous s | CopyOf s => s end.
Definition good_call (k : placement) : Prop :=
  let '(e, p, o) := k in
  (exists s, el_scatterer e = Homogeneous s) /\ acceptable (shape_of e) /\ uniform Length (elems p) /\ uniform Angle (elems o).
Definition sensible_call (k : placement) : Prop := let '(e, _, _) := k in sensible (shape_of e).
(** A point of the composite that belongs to the element of a call. *)
Definition point_in (fig : pshape -> vec3 -> Prop) (p : vec3) (k : placement) : Prop :=
  let '(e, pos, o) := k in exists q, in_element pos o p q /\ fig (shape_of e) q.
(** How an element should be in the engine: its shape as described (C71), and the frame in which it was put. *)
Definition placed_as (k : placement) (d : placed) : Prop :=
  let '(e, p, o) := k in let '(sh, v, m) := d in
  render McStas (shape_of e) = Ok sh /\ orthogonal m /\ forall global local, in_element p o global local <-> global = vadd (dot_mv m local) v.
