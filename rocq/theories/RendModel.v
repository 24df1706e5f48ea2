(** From the description of a shape or of a composite scatterer to the objects the engine works with.
    packages/mccomposite/python/mccomposite/: units_utils.py, geometry/ShapeComputationEngineRenderer.py, coordinate_systems/,
    orientation_conventions/, extensions/{HollowCylinder,SphereShell}.py, CompositeScatterer.py, ScattererCopy.py,
    ScattererComputationEngineRenderer.py, bindings/BoostPythonBinding.py.  Paths below are relative to that directory.

    Numbers are real numbers.  The classes of the shapes and of the units are in other packages (instrument.geometry, pyre.geometry,
    pyre.units), which are not in this repository: the model has the attributes that the code here reads, and the units behave as pyre.units
    is documented to: sums of quantities of different kinds raise, the quotient of two quantities of one kind is a float, any other quotient
    and any product with a number is again a quantity. *)
From Coq Require Import Reals Lra.
From Verif Require Import Base RotModel ChanModel ShapeModel.
Open Scope R_scope.

(* kinds of quantities: the attribute derivation of a pyre unit.  Length and angle are the categories of units_utils.py:24-27 *)
Inductive dim := Length | Angle | OtherDim.
(* equality of derivations, on which s+unit of units_utils.py:87, 106 depends *)
Definition dim_eqb (a b : dim) : bool := match a, b with Length, Length | Angle, Angle => true | _, _ => false end.
(* what may stand for a size: a float or int; a quantity with its value in SI units; anything else (a string, None).  units_utils.py:67, 82-83 *)
Inductive pyval := Plain (x : R) | Quant (d : dim) (x : R) | Other.
(* units.length.meter and units.angle.degree, the units of the engine: geometry/ShapeComputationEngineRenderer.py:25-26; kind and value in SI units *)
Definition punit := (dim * R)%type.
(* in the group above: geometry/ShapeComputationEngineRenderer.py:25-26 *)
Definition meter : punit := (Length, 1).
(* in the group above: geometry/ShapeComputationEngineRenderer.py:25-26 *)
Definition degree : punit := (Angle, PI / 180).
(* s+unit does not raise: units_utils.py:87, 106 *)
Definition compatible (s : pyval) (u : punit) : bool := match s with Quant d _ => dim_eqb d (fst u) | _ => false end.
(* s/unit of one element: units_utils.py:88, 108 *)
Definition over (s : pyval) (u : punit) : pyval :=
  match s with
  | Quant d x => if dim_eqb d (fst u) then Plain (x / snd u) else Quant OtherDim (x / snd u)
  | Plain x => Quant OtherDim (x / snd u)
  | Other => Other
  end.
(* is_unitless_scalar: units_utils.py:82-83 *)
Definition is_unitless_scalar (s : pyval) : bool := match s with Plain _ => true | _ => false end.
(* remove_unit for a scalar: units_utils.py:67-69, 74-77, and remove_unit_of_scalar: 85-90 *)
Definition remove_unit (s : pyval) (u : punit) : result R :=
  match s with
  | Plain x => Ok x
  | _ => if compatible s u then match over s u with Plain x => Ok x | _ => Err TypeError end else Err ValueError
  end.
(* the loop over v: units_utils.py:112-118.  The numbers come back as they are *)
Fixpoint all_floats (v : list pyval) : result (list R) :=
  match v with
  | [] => Ok []
  | Plain x :: v' => let! l := all_floats v' in Ok (x :: l)
  | _ :: _ => Err ValueError
  end.
(* remove_unit_of_vector: units_utils.py:101-118.  array(v)*1.0 raises TypeError for elements that cannot be multiplied *)
Definition remove_unit_of_vector (v : list pyval) (u : punit) : result (list R) :=
  if existsb (fun s => match s with Other => true | _ => false end) v then Err TypeError
  else match v with
       | [] => Err ValueError
       | s :: _ => all_floats (if compatible s u then map (fun s' => over s' u) v else v)
       end.
(* remove_unit for a vector: units_utils.py:70-72, 77, and is_unitless_vector: 93-98 *)
Definition remove_units (v : list pyval) (u : punit) : result (list R) :=
  if forallb is_unitless_scalar v then all_floats v else remove_unit_of_vector v u.
(* a tuple of two or three sizes without units, unpacked: p = self._remove_length_unit((a,b)); f( *p ).
   geometry/ShapeComputationEngineRenderer.py:90-108 *)
Definition two (u : punit) (a b : pyval) : result (R * R) :=
  let! l := remove_units [a; b] u in match l with [x; y] => Ok (x, y) | _ => Err TypeError end.
(* three sizes: geometry/ShapeComputationEngineRenderer.py:90-108 *)
Definition three (u : punit) (a b c : pyval) : result (R * R * R) :=
  let! l := remove_units [a; b; c] u in match l with [x; y; z] => Ok (x, y, z) | _ => Err TypeError end.

(** ** Descriptions of shapes *)

(* a 3-tuple of sizes *)
Definition triple := (pyval * pyval * pyval)%type.
(* a block has an attribute diagonal, or the attributes width, height and thickness:
   coordinate_systems/McStasCSAdaptor_for_ShapeComputationEngineRenderer.py:24-27 *)
Inductive pblock := Diagonal (d : triple) | Sides (width height thickness : pyval).
(* the shapes for which there are handlers: geometry/ShapeComputationEngineRenderer.py:43-108, extensions/HollowCylinder.py:15-23,
   extensions/SphereShell.py:7-14.  The attributes of a rotation and of a translation are those read in
   coordinate_systems/McStasCSAdaptor_for_ShapeComputationEngineRenderer.py:60-82; [implicit] is implicit_coordinate_system *)
Inductive pshape : Type :=
| PBlock (b : pblock)
| PSphere (radius : pyval)
| PCylinder (radius height : pyval)
| PPyramid (thickness width height : pyval)
| PCone (radius height : pyval)
| PHollowCylinder (in_radius out_radius height : pyval)
| PSphereShell (in_radius out_radius : pyval)
| PUnion (shapes : list pshape)
| PIntersection (shapes : list pshape)
| PDifference (op1 op2 : pshape)
| PDilation (body : pshape) (scale : R)
| PTranslation (body : pshape) (vector : triple) (implicit : bool)
| PRotation (body : pshape) (euler_angles : option triple) (axis : vec3) (angle : pyval) (implicit : bool).

(* which renderer: geometry.shapeEngine uses the renderer as it is (geometry/__init__.py:19-38), scattererEngine puts an adaptor in front of it
   (__init__.py:29-49); choices of coordinate_systems/__init__.py:14-17 *)
Inductive coordsys := NoAdaptor | McStas | InstrumentScientist.

(** ** Orientations *)

(* matrix_rotationaboutaxis: orientation_conventions/rotations.py:6-22; np.deg2rad.  For an axis of length 0 the matrix has nan entries, which no
   real matrix stands for: None *)
Definition matrix_rotationaboutaxis (axis : vec3) (angle : R) : option mat3 :=
  let theta := angle * (PI / 180) in
  let length := sqrt (vx axis * vx axis + vy axis * vy axis + vz axis * vz axis) in
  if Reqb length 0 then None
  else
    let a := cos (theta / 2) in
    let b := vx axis / length * sin (theta / 2) in
    let c := vy axis / length * sin (theta / 2) in
    let d := vz axis / length * sin (theta / 2) in
    Some (mkM (a*a + b*b - c*c - d*d) (2 * (b*c + a*d)) (2 * (b*d - a*c))
              (2 * (b*c - a*d)) (a*a + c*c - b*b - d*d) (2 * (c*d + a*b))
              (2 * (b*d + a*c)) (2 * (c*d - a*b)) (a*a + d*d - b*b - c*c)).
(* factory.orientation of three angles: geometry/ShapeComputationEngineFactory.py:30-34, AbstractOrientationConvention.py:26-28,
   orientation_conventions/McStasConvention.py:30-33, bindings/BoostPythonBinding.py:67-71 *)
Definition orientation_of_angles (a : R * R * R) : mat3 := let '(x, y, z) := a in transpose (toMatrix_ x y z "deg").
(* factory.orientation of axis and angle: AbstractOrientationConvention.py:29-32, orientation_conventions/McStasConvention.py:35-37 *)
Definition orientation_of_axis (axis : vec3) (angle : R) : option mat3 := option_map transpose (matrix_rotationaboutaxis axis angle).

(** ** Handlers *)

(* onBlock: geometry/ShapeComputationEngineRenderer.py:89-92, McStasCSAdaptor...py:20-29, InstrumentScientistCSAdaptor...py:22-31 *)
Definition onBlock (cs : coordsys) (b : pblock) : result shape :=
  let! d := match b, cs with
            | Diagonal d, _ => Ok d
            | Sides _ _ _, NoAdaptor => Err AttributeError
            | Sides width height thickness, McStas => Ok (width, height, thickness)
            | Sides width height thickness, InstrumentScientist => Ok (thickness, width, height)
            end in
  let '(x, y, z) := d in
  let! v := three meter x y z in
  let '(X, Y, Z) := v in Ok (Box X Y Z).
(* onSphere: geometry/ShapeComputationEngineRenderer.py:94-96 *)
Definition onSphere (radius : pyval) : result shape := let! r := remove_unit radius meter in Ok (Sphere r).
(* self.factory.rotate(solid, self.factory.orientation(angles)) with angles in degrees: McStasCSAdaptor...py:36-37, 39-40, 48-49, 57-58 *)
Definition turned_by (s : shape) (x y z : R) : shape := Rotation s (orientation_of_angles (x, y, z)).
(* onCylinder: geometry/ShapeComputationEngineRenderer.py:98-100, McStasCSAdaptor...py:52-58, InstrumentScientistCSAdaptor...py:49-51 *)
Definition onCylinder (cs : coordsys) (radius height : pyval) : result shape :=
  let! p := two meter radius height in
  let cyl := Cylinder (fst p) (snd p) in
  Ok (match cs with McStas => turned_by cyl (-90) 0 0 | _ => cyl end).
(* onPyramid: geometry/ShapeComputationEngineRenderer.py:102-104, McStasCSAdaptor...py:31-41, InstrumentScientistCSAdaptor...py:33-39 *)
Definition onPyramid (cs : coordsys) (thickness width height : pyval) : result shape :=
  let! p := three meter thickness width height in
  let '(X, Y, h) := p in
  let solid := Pyramid X Y h in
  Ok (match cs with McStas => turned_by (turned_by solid (-90) 0 0) 0 (-90) 0 | _ => solid end).
(* onCone: geometry/ShapeComputationEngineRenderer.py:106-108, McStasCSAdaptor...py:43-50, InstrumentScientistCSAdaptor...py:41-47 *)
Definition onCone (cs : coordsys) (radius height : pyval) : result shape :=
  let! p := two meter radius height in
  let solid := Cone (fst p) (snd p) in
  Ok (match cs with McStas => turned_by solid (-90) 0 0 | _ => solid end).

(* r1 >= r2: extensions/HollowCylinder.py:34, extensions/SphereShell.py:25.  Numbers with quantities, and anything else, cannot be compared
   (simplified: two strings can, but no shape is made from them either) *)
Definition py_ge (a b : pyval) : result bool :=
  match a, b with
  | Plain x, Plain y => Ok (Rleb y x)
  | Quant d x, Quant e y => if dim_eqb d e then Ok (Rleb y x) else Err TypeError
  | _, _ => Err TypeError
  end.
(* r1 == 0*r1: extensions/HollowCylinder.py:40, extensions/SphereShell.py:30 *)
Definition py_is_zero (a : pyval) : bool := match a with Plain x | Quant _ x => Reqb x 0 | Other => false end.
(* h*2: extensions/HollowCylinder.py:43 *)
Definition py_double (a : pyval) : pyval := match a with Plain x => Plain (x * 2) | Quant d x => Quant d (x * 2) | Other => Other end.
(* onHollowCylinder: extensions/HollowCylinder.py:29-44; subtract(cylinder, cylinder).identify(self) calls onDifference and onCylinder *)
Definition onHollowCylinder (cs : coordsys) (r1 r2 h : pyval) : result shape :=
  let! bad := py_ge r1 r2 in
  if bad then Err RuntimeError
  else if py_is_zero r1 then onCylinder cs r2 h
  else let! a := onCylinder cs r2 h in let! b := onCylinder cs r1 (py_double h) in Ok (Difference a b).
(* onSphereShell: extensions/SphereShell.py:20-34 *)
Definition onSphereShell (r1 r2 : pyval) : result shape :=
  let! bad := py_ge r1 r2 in
  if bad then Err RuntimeError
  else if py_is_zero r1 then onSphere r2
  else let! a := onSphere r2 in let! b := onSphere r1 in Ok (Difference a b).

(* vector = (transversal, vertical, beam) if the vector is (beam, transversal, vertical): McStasCSAdaptor...py:62-64 *)
Definition mcstas_order {A : Type} (implicit : bool) (v : A * A * A) : A * A * A :=
  if implicit then v else let '(beam, transversal, vertical) := v in (transversal, vertical, beam).
(* the axis likewise: McStasCSAdaptor...py:74-77 *)
Definition mcstas_axis (implicit : bool) (axis : vec3) : vec3 :=
  let '(x, y, z) := mcstas_order implicit (vx axis, vy axis, vz axis) in mkV x y z.

(* render: geometry/ShapeComputationEngineRenderer.py:37-86 and the methods of the adaptors that come before them:
   McStasCSAdaptor...py:60-82, InstrumentScientistCSAdaptor...py:54-58 *)
Fixpoint render (cs : coordsys) (s : pshape) {struct s} : result shape :=
  let all := fix all (l : list pshape) : result (list shape) :=
    match l with [] => Ok [] | x :: l' => let! c := render cs x in let! cl := all l' in Ok (c :: cl) end in
  match s with
  | PBlock b => onBlock cs b
  | PSphere r => onSphere r
  | PCylinder r h => onCylinder cs r h
  | PPyramid t w h => onPyramid cs t w h
  | PCone r h => onCone cs r h
  | PHollowCylinder r1 r2 h => onHollowCylinder cs r1 r2 h
  | PSphereShell r1 r2 => onSphereShell r1 r2
  | PUnion l => let! cl := all l in Ok (Union cl)
  | PIntersection l => let! cl := all l in Ok (Intersection cl)
  | PDifference a b => let! c1 := render cs a in let! c2 := render cs b in Ok (Difference c1 c2)
  | PDilation b scale => let! c := render cs b in Ok (Dilation c scale)
  | PTranslation b vector implicit =>
      match cs with
      | InstrumentScientist => Err NotImplementedError
      | _ =>
          let '(x, y, z) := match cs with McStas => mcstas_order implicit vector | _ => vector end in
          let! c := render cs b in
          let! v := three meter x y z in
          let '(X, Y, Z) := v in Ok (Translation c (mkV X Y Z))
      end
  | PRotation b euler axis angle implicit =>
      match cs with
      | InstrumentScientist => Err NotImplementedError
      | NoAdaptor =>                                   (* 71-77: remove_unit(None, degree) raises *)
          let! c := render cs b in
          match euler with
          | None => Err ValueError
          | Some (x, y, z) => let! a := three degree x y z in Ok (Rotation c (orientation_of_angles a))
          end
      | McStas =>
          let! m := match euler with
                    | Some (x, y, z) => let! a := three degree x y z in Ok (orientation_of_angles a)
                    | None => let! a := remove_unit angle degree in
                              match orientation_of_axis (mcstas_axis implicit axis) a with
                              | Some m => Ok m
                              | None => Err UndefinedBehaviour             (* a matrix of nans *)
                              end
                    end in
          let! c := render cs b in Ok (Rotation c m)
      end
  end.

(* mccomposite.geometry.locate: geometry/utils.py:20-26; the tolerance of locate.cc as in ShapeModel.v *)
Definition py_locate (tol : R) (position : vec3) (s : pshape) : result location := let! c := render NoAdaptor s in Ok (locate tol c position).

(** ** Composites *)

(* an element of a composite: a scatterer with a shape, or a copy of one, which has no method shape: Scatterer.py:15-35, ScattererCopy.py:15-30.
   Other composites as elements are left out *)
Inductive scatterer := Homogeneous (s : pshape) | CopyOf (s : pshape).
(* elements are compared by identity: the registry of packages/mcni/python/mcni/Geometer.py:19-34 is a dict of objects; here an object is a number *)
Record element := mkEl { el_id : nat; el_scatterer : scatterer }.
(* CompositeScatterer: CompositeScatterer.py:19-30; the geometer is the list of its registrations, the latest first *)
Record composite := mkC { c_shape : option pshape; c_elements : list element; c_geometer : list (nat * (triple * triple));
                          c_loops : nat; c_inner_loops : nat; c_min : R }.
(* x or default: CompositeScatterer.py:45-47 *)
Definition or_nat (x : option nat) (default : nat) : nat := match x with Some (S n) => S n | _ => default end.
(* in the group above: CompositeScatterer.py:45-47 *)
Definition or_real (x : option R) (default : R) : R := match x with Some r => if Reqb r 0 then default else r | None => default end.
(* __init__ and setMultipleScatteringParams: CompositeScatterer.py:19-48 *)
Definition new_composite (s : option pshape) (loops inner_loops : option nat) (min : option R) : composite :=
  mkC s [] [] (or_nat loops 5) (or_nat inner_loops 1) (or_real min 0).
(* addElement: CompositeScatterer.py:51-54, packages/mcni/python/mcni/Geometer.py:24-26 *)
Definition addElement (c : composite) (e : element) (position orientation : triple) : composite :=
  mkC (c_shape c) (c_elements c ++ [e]) ((el_id e, (position, orientation)) :: c_geometer c) (c_loops c) (c_inner_loops c) (c_min c).
(* geometer.position and orientation: packages/mcni/python/mcni/Geometer.py:29-34 *)
Fixpoint registered (g : list (nat * (triple * triple))) (id : nat) : result (triple * triple) :=
  match g with [] => Err KeyError | (i, po) :: g' => if Nat.eqb i id then Ok po else registered g' id end.
(* _getElementShape: CompositeScatterer.py:72-80.  translate(..., vector=...) makes a translation with implicit_coordinate_system set
   (assumed: it is made in instrument.geometry) *)
Definition element_shape (c : composite) (e : element) : result pshape :=
  match el_scatterer e with
  | CopyOf _ => Err AttributeError
  | Homogeneous s =>
      let! po := registered (c_geometer c) (el_id e) in
      Ok (PTranslation (PRotation s (Some (snd po)) (mkV 0 0 1) (Plain 0) true) (fst po) true)
  end.
(* the list of CompositeScatterer.py:66-67 *)
Fixpoint element_shapes (c : composite) (l : list element) : result (list pshape) :=
  match l with
  | [] => Ok []
  | e :: l' => let! s := element_shape c e in let! sl := element_shapes c l' in Ok (s :: sl)
  end.
(* shape: CompositeScatterer.py:63-69; the shape is kept *)
Definition composite_shape (c : composite) : result (pshape * composite) :=
  match c_shape c with
  | Some s => Ok (s, c)
  | None => let! l := element_shapes c (c_elements c) in
            Ok (PUnion l, mkC (Some (PUnion l)) (c_elements c) (c_geometer c) (c_loops c) (c_inner_loops c) (c_min c))
  end.

(* an element in the engine: its shape and where it is registered *)
Definition placed := (shape * vec3 * mat3)%type.
(* element.identify(self): packages/mccomponents/python/mccomponents/homogeneous_scatterer/KernelComputationEngineRenderer.py:65-70 (the shape only);
   onScattererCopy: ScattererComputationEngineRenderer.py:92-96: there is no method onHomogeneousScattererCopy *)
Definition render_scatterer (cs : coordsys) (s : scatterer) : result shape :=
  match s with Homogeneous sh => render cs sh | CopyOf _ => Err AttributeError end.
(* the loop over the elements: ScattererComputationEngineRenderer.py:63-75 *)
Fixpoint render_elements (cs : coordsys) (c : composite) (l : list element) : result (list placed) :=
  match l with
  | [] => Ok []
  | e :: l' =>
      let! sh := render_scatterer cs (el_scatterer e) in
      let! po := registered (c_geometer c) (el_id e) in
      let '((px, py, pz), (ox, oy, oz)) := po in
      let! p := three meter px py pz in
      let! o := three degree ox oy oz in
      let! rest := render_elements cs c l' in
      let '(X, Y, Z) := p in Ok ((sh, mkV X Y Z, orientation_of_angles o) :: rest)
  end.
(* what factory.compositescatterer is called with: ScattererComputationEngineRenderer.py:77-87, bindings/BoostPythonBinding.py:42-52 *)
Record engine := mkEn { en_shape : shape; en_elements : list placed; en_loops : nat; en_inner_loops : nat; en_min : R }.
(* onCompositeScatterer: ScattererComputationEngineRenderer.py:54-89 *)
Definition render_composite (cs : coordsys) (c : composite) : result (engine * composite) :=
  let! els := render_elements cs c (c_elements c) in
  let! sc := composite_shape c in
  let! sh := render cs (fst sc) in
  Ok (mkEn sh els (c_loops c) (c_inner_loops c) (c_min c), snd sc).
