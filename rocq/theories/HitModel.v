(** Which element of a composite a ray meets first, and the check for overlapping elements.
    packages/mccomposite/lib/geometry/{intersect.icc,overlap.cc}, packages/mccomposite/lib/mccomposite/CompositeNeutronScatterer.cc.

    Numbers are real numbers, as in ShapeModel.v.  The index type of the C++ templates is int; -1 is None here. *)
From Coq Require Import Reals.
From Verif Require Import Base RotModel ChanModel ShapeModel.
Open Scope R_scope.

(* the loop of find_shape_containing_point, from index i on: intersect.icc:31-34 *)
Fixpoint find_from (tol : R) (point : vec3) (shapes : list shape) (i : nat) : option nat :=
  match shapes with
  | [] => None
  | s :: l => if loc_eqb (locate tol s point) Inside then Some i else find_from tol point l (S i)
  end.
(* find_shape_containing_point: intersect.icc:27-36 *)
Definition find_shape_containing_point (tol : R) (point : vec3) (shapes : list shape) : option nat := find_from tol point shapes 0.

(* the loop over pairs of intersections: intersect.icc:97-106 *)
Fixpoint first_inside (tol : R) (start direction : vec3) (shapes : list shape) (previous : R) (distances : list R) : option nat :=
  match distances with
  | [] => None
  | now :: l => match find_shape_containing_point tol (arrow_at start direction ((previous + now) / 2)) shapes with
                | Some i => Some i
                | None => first_inside tol start direction shapes now l
                end
  end.

(* find_1st_hit: intersect.icc:39-108.  The middle points are start + (d0/2.)*direction and start + (d0+d1)/2.*direction (66-67, 76-77) *)
Definition find_1st_hit (tol : R) (start direction : vec3) (shapes : list shape) : option nat :=
  let distances := forward_intersect tol (Union shapes) start direction in
  let isonborder := existsb (fun s => loc_eqb (locate tol s start) Onborder) shapes in    (* 83-88 *)
  let ret :=                                                                             (* 64-79; None: the function returns at line 74 *)
    match distances with
    | [] => None
    | d0 :: rest =>
        if Nat.odd (List.length distances) then Some (find_shape_containing_point tol (arrow_at start direction (d0 / 2)) shapes)
        else match rest with
             | d1 :: _ => Some (find_shape_containing_point tol (arrow_at start direction ((d0 + d1) / 2)) shapes)
             | [] => None
             end
    end in
  match ret with
  | None => None
  | Some ret => if negb isonborder then ret else first_inside tol start direction shapes 0 distances
  end.

(** ** Overlap *)

(* random(min, max): overlap.cc:10-14; u is rand()*1./RAND_MAX, in [0,1] *)
Definition random_between (u min max : R) : R := u * (max - min) + min.
(* the five random numbers drawn in one iteration: overlap.cc:31-33, 36, 38 *)
Record draw := mkD { d_x : R; d_y : R; d_z : R; d_cos : R; d_phi : R }.
(* start and dir: overlap.cc:31-39 *)
Definition ray_start (bb : bbox) (d : draw) : vec3 :=
  mkV (random_between (d_x d) (bcx bb - bsx bb / 2) (bcx bb + bsx bb / 2))
      (random_between (d_y d) (bcy bb - bsy bb / 2) (bcy bb + bsy bb / 2))
      (random_between (d_z d) (bcz bb - bsz bb / 2) (bcz bb + bsz bb / 2)).
(* in the group above: overlap.cc:31-39 *)
Definition ray_direction (d : draw) : vec3 :=
  let cos_theta := random_between (d_cos d) (-1) 1 in
  let sin_theta := sqrt (1 - cos_theta * cos_theta) in
  let phi := random_between (d_phi d) 0 (2 * PI) in
  mkV (sin_theta * cos phi) (sin_theta * sin phi) cos_theta.
(* hasOverlap: overlap.cc:17-57; one draw for each of the N iterations *)
Definition hasOverlap (tol : R) (shape1 shape2 : shape) (bb : bbox) (draws : list draw) : bool :=
  existsb (fun d =>
    let start := ray_start bb d in
    let dir := ray_direction d in
    existsb (fun t => negb (loc_eqb (locate tol shape2 (arrow_at start dir t)) Outside)) (intersect tol shape1 start dir)) draws.

(* the inner loop of checkShapeOverlap: CompositeNeutronScatterer.cc:47-56; the random numbers of a call to hasOverlap are given for the
   indices i, j of the two elements *)
Fixpoint check_from (tol : R) (s : shape) (bb : bbox) (others : list shape) (draws : nat -> list draw) (j : nat) : result unit :=
  match others with
  | [] => Ok tt
  | s' :: l => if hasOverlap tol s s' bb (draws j) then Err CppException else check_from tol s bb l draws (S j)
  end.
(* the outer loop: CompositeNeutronScatterer.cc:44-57; i is the index of the first shape of the list *)
Fixpoint check_all (tol : R) (shapes : list shape) (draws : nat -> nat -> list draw) (i : nat) : result unit :=
  match shapes with
  | [] => Ok tt
  | s :: l => let! bb := bounding_box s in let! _ := check_from tol s bb l (draws i) (S i) in check_all tol l draws (S i)
  end.
(* CompositeNeutronScatterer::checkShapeOverlap: CompositeNeutronScatterer.cc:39-59.  An element is a shape with the position and the orientation
   that the geometer has for it; the check looks at s->shape() and scatterers[j]->shape() (46, 48), the shapes without them *)
Definition checkShapeOverlap (tol : R) (elements : list (shape * vec3 * mat3)) (draws : nat -> nat -> list draw) : result unit :=
  check_all tol (map (fun '(s, _, _) => s) elements) draws 0.
