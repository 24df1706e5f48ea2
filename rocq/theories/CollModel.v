(** Radial collimators: packages/mcni/python/mcni/components/RadialCollimator.py and
    packages/mcni/python/mcni/pyre_components/RadialCollimator.py.

    Floats are reals; numpy.pi is pi.  None is nan.  Buffers are lists of events: to and from arrays nothing is changed
    (bindings/boostpython/_patch_neutronevents_bp_interface.py:64-92).  The random numbers are a list with one number in [0,1) for each neutron. *)
From Coq Require Import Reals.
From Verif Require Import Base RotModel ChanModel ShapeModel UnitModel.
Open Scope R_scope.

(* where the blades are: theta_min, theta_max and dtheta, or theta_min, theta_max and theta_list: RadialCollimator.py:64-72 *)
Inductive blades := Even (theta_min theta_max dtheta : R) | Listed (theta_min theta_max : R) (theta_list : list R).
(* members: RadialCollimator.py:59-73 *)
Record coll := mkColl { c_radius1 : R; c_height1 : R; c_radius2 : R; c_height2 : R; c_blades : blades; c_oscillation : R }.
(* __init__: RadialCollimator.py:46-74; None cannot be subscripted *)
Definition new_coll (radius1 height1 radius2 height2 : R) (theta1 theta2 dtheta : option R) (theta_list : option (list R)) (oscillation : R) : result coll :=
  match theta1, theta2, dtheta with
  | Some theta1, Some theta2, Some dtheta => Ok (mkColl radius1 height1 radius2 height2 (Even theta1 theta2 dtheta) oscillation)
  | _, _, _ =>
      match theta_list with
      | None => Err TypeError
      | Some [] => Err IndexError
      | Some (x :: l) => Ok (mkColl radius1 height1 radius2 height2 (Listed x (last (x :: l) 0) (x :: l)) oscillation)
      end
  end.
(* _init of the pyre component, angles in degrees: pyre_components/RadialCollimator.py:33-48 *)
Definition pyre_coll (radius1 height1 radius2 height2 : R) (theta1 theta2 dtheta : option R) (theta_list : option (list R)) (oscillation : R) : result coll :=
  new_coll radius1 height1 radius2 height2 (option_map (fun x => x / 180 * PI) theta1) (option_map (fun x => x / 180 * PI) theta2) (option_map (fun x => x / 180 * PI) dtheta)
    (option_map (map (fun x => x * (PI / 180))) theta_list) (oscillation / 180 * PI).

(* intersectCylinder: RadialCollimator.py:76-84; for A = 0 also B = 0, and t is nan *)
Definition intersectCylinder (position velocity : vec3) (radius : R) : option vec3 :=
  let A := vx velocity * vx velocity + vy velocity * vy velocity in
  let B := 2 * (vx position * vx velocity + vy position * vy velocity) in
  let C := vx position * vx position + vy position * vy position - radius * radius in
  match fsqrt (B * B - 4 * A * C) with
  | None => None
  | Some s =>
      if Reqb A 0 then None
      else let t := (s - B) / 2 / A in Some (mkV (vx position + vx velocity * t) (vy position + vy velocity * t) (vz position + vz velocity * t))
  end.
(* numpy.digitize(x, bins): the number of bins not above x; for decreasing bins of those above x; ValueError for others: RadialCollimator.py:40 *)
Definition not_above (x : R) (bins : list R) : nat := List.length (filter (fun b => Rleb b x) bins).
(* in the group above: RadialCollimator.py:40 *)
Fixpoint non_decreasing (l : list R) : bool := match l with a :: (b :: _) as l' => Rleb a b && non_decreasing l' | _ => true end.
(* in the group above: RadialCollimator.py:40 *)
Definition digitize (bins : list R) (x : R) : result nat :=
  if non_decreasing bins then Ok (not_above x bins)
  else if non_decreasing (rev bins) then Ok (List.length bins - not_above x bins)%nat
  else Err ValueError.
(* theta_min and theta_max *)
Definition range (b : blades) : R * R := match b with Even lo hi _ => (lo, hi) | Listed lo hi _ => (lo, hi) end.
(* the comparison of the cells: RadialCollimator.py:37-40; with dtheta = 0 the cells are nan or inf, an error value here *)
Definition same_cell (b : blades) (theta1 theta2 : R) : result bool :=
  match b with
  | Even lo _ d => if Reqb d 0 then Err ZeroDivisionError else Ok (Z.eqb (floorZ ((theta1 - lo) / d)) (floorZ ((theta2 - lo) / d)))
  | Listed _ _ l => let! i := digitize l theta1 in let! j := digitize l theta2 in Ok (Nat.eqb i j)
  end.
(* good for one neutron: RadialCollimator.py:26-40; comparisons with nan are false.  The random number is [u].  numpy.digitize also fails if no neutron
   is good so far *)
Definition good (c : coll) (u : R) (ev : event) : result bool :=
  let theta_osc := c_oscillation c * u in
  let position := mkV (vz (e_r ev)) (vx (e_r ev)) (vy (e_r ev)) in
  let velocity := mkV (vz (e_v ev)) (vx (e_v ev)) (vy (e_v ev)) in
  let first := intersectCylinder position velocity (c_radius1 c) in
  let second := intersectCylinder position velocity (c_radius2 c) in
  let theta p := arctan2 (vy p) (vx p) + theta_osc in
  match first, second with
  | Some p1, Some p2 =>
      let h1 := c_height1 c / 2 in
      let h2 := c_height2 c / 2 in
      let '(lo, hi) := range (c_blades c) in
      let! s := same_cell (c_blades c) (theta p1) (theta p2) in
      Ok (Rltb (vz p1) h1 && Rltb (- h1) (vz p1) && Rltb (vz p2) h2 && Rltb (- h2) (vz p2) &&
          Rltb lo (theta p1) && Rltb (theta p1) hi && Rltb lo (theta p2) && Rltb (theta p2) hi && s)
  | _, _ => let! _ := same_cell (c_blades c) 0 0 in Ok false
  end.
(* arr[good,:]: RadialCollimator.py:41 *)
Fixpoint select (c : coll) (us : list R) (neutrons : list event) : result (list event) :=
  match neutrons with
  | [] => Ok []
  | ev :: l =>
      let! g := good c (hd 0 us) ev in
      let! l' := select c (tl us) l in
      Ok (if g then ev :: l' else l')
  end.
(* process: RadialCollimator.py:13-44 *)
Definition collimate (c : coll) (us : list R) (neutrons : list event) : result (list event) :=
  match neutrons with [] => Ok [] | _ => select c us neutrons end.
