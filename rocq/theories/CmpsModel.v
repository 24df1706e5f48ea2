(** Scattering by a composite of scatterers and by one scatterer seen as a composite of itself.
    packages/mccomposite/lib/mccomposite/{CompositeNeutronScatterer_Impl.cc,CompositeNeutronScatterer.cc,AbstractNeutronScatterer.cc},
    packages/mccomponents/lib/homogeneous_scatterer/HomogeneousNeutronScatterer.cc, packages/mcni/lib/mcni/process_neutron_events.cc.

    Events are those of RotModel, propagation is that of ScatModel, the first hit is that of HitModel.  The random number generator is a number:
    an element gets its present value and any function of it may be used; each call of an element counts it up by one. *)
From Coq Require Import Reals.
From Verif Require Import Base RotModel ChanModel ShapeModel ScatModel HitModel.
Open Scope R_scope.

(* An AbstractNeutronScatterer of a composite, seen through its virtual methods (AbstractNeutronScatterer.h:54-75), with the position and the
   orientation the geometer has for it (CompositeNeutronScatterer_Impl.cc:153, 157) *)
Record element := mkEl {
  el_shape : shape; el_position : vec3; el_orientation : mat3;
  el_interactM : nat -> event -> result (interaction * list event);
  el_interact : nat -> event -> result (interaction * event);
  el_attenuation : event -> vec3 -> R }.
(* data of CompositeNeutronScatterer_Impl: CompositeNeutronScatterer_Impl.h:55-61; the numbers of loops are unsigned *)
Record composite := mkCo { c_frame : shape; c_elements : list element; c_loops : nat; c_inner_loops : nat; c_min : R }.

(* the shapes of the elements where they are: CompositeNeutronScatterer_Impl.cc:145-166 *)
Definition placed_shape (e : element) : shape := Translation (Rotation (el_shape e) (el_orientation e)) (el_position e).
(* in the group above: CompositeNeutronScatterer_Impl.cc:145-166 *)
Definition c_shapes (c : composite) : list shape := map placed_shape (c_elements c).
(* m_union_of_all_shapes: CompositeNeutronScatterer_Impl.cc:168 *)
Definition c_union (c : composite) : shape := Union (c_shapes c).

(* calculate_attenuation: CompositeNeutronScatterer_Impl.cc:178-202; composite_attenuation of ScatModel for any elements *)
Definition attenuation (c : composite) (ev : event) (stop : vec3) : R :=
  fold_left (fun ret e => ret * el_attenuation e (global2local ev (el_position e) (el_orientation e)) stop) (c_elements c) 1.

(* probability too low: CompositeNeutronScatterer_Impl.cc:238, 347, HomogeneousNeutronScatterer.cc:293 *)
Definition too_low (min : R) (ev : event) : bool := (Rleb 0 (e_p ev) && Rltb (e_p ev) min)%bool.
(* the element that find_1st_hit chooses: CompositeNeutronScatterer_Impl.cc:242-253, 417-427 *)
Definition hit (tol : R) (c : composite) (ev : event) : option element :=
  match find_1st_hit tol (e_r ev) (e_v ev) (c_shapes c) with None => None | Some i => nth_error (c_elements c) i end.

(** ** Several events: interactM_path1 and scatterM *)

(* one event of the loop of interactM_path1: CompositeNeutronScatterer_Impl.cc:232-289.  The results are the events for the out-list and
   those to be scattered again *)
Definition inner_event (tol : R) (c : composite) (n : nat) (ev : event) : result (nat * list event * list event) :=
  if too_low (c_min c) ev then Ok (n, [], [])
  else match hit tol c ev with
       | None => Ok (n, [ev], [])
       | Some e =>
           let! r := el_interactM e n (global2local ev (el_position e) (el_orientation e)) in
           let '(itype, newly) := r in
           match itype with
           | Absorption => Ok (S n, [], [])
           | _ => let newly := map (fun x => local2global x (el_position e) (el_orientation e)) newly in
                  Ok (S n, filter (fun x => negb (loc_eqb (locate_ev tol x (c_frame c)) Inside)) newly,
                           filter (fun x => loc_eqb (locate_ev tol x (c_frame c)) Inside) newly)
           end
       end.
(* one run of the for loop: CompositeNeutronScatterer_Impl.cc:230-291; [evts] is the out-list, [again] is to_be_scattered2 *)
Fixpoint inner_round (tol : R) (c : composite) (n : nat) (todo evts again : list event) : result (nat * list event * list event) :=
  match todo with
  | [] => Ok (n, evts, again)
  | ev :: l => let! r := inner_event tol c n ev in
               let '(n', out, more) := r in inner_round tol c n' l (evts ++ out) (again ++ more)
  end.
(* the while loop: CompositeNeutronScatterer_Impl.cc:226-297; the first argument is the number of runs left *)
Fixpoint inner_loop (tol : R) (c : composite) (left n : nat) (todo evts : list event) : result (nat * list event * list event) :=
  match left, todo with
  | O, _ | _, [] => Ok (n, evts, todo)
  | S left', _ => let! r := inner_round tol c n todo evts [] in
                  let '(n', evts', again) := r in inner_loop tol c left' n' again evts'
  end.
(* the left-over events: CompositeNeutronScatterer_Impl.cc:301-311 *)
Fixpoint inner_rest (tol : R) (c : composite) (todo evts : list event) : result (list event) :=
  match todo with
  | [] => Ok evts
  | ev :: l => let! ev1 := propagate_to_next_exiting_surface tol ev (c_frame c) in
               inner_rest tol c l (evts ++ [scale_p ev1 (attenuation c ev (e_r ev1))])
  end.
(* interactM_path1: CompositeNeutronScatterer_Impl.cc:205-315; the events are added to [evts] *)
Definition interactM_path1 (tol : R) (c : composite) (n : nat) (ev : event) (evts : list event) : result (nat * interaction * list event) :=
  let! ev1 := (if loc_eqb (locate_ev tol ev (c_frame c)) Outside then propagate_to_next_incident_surface tol ev (c_frame c) else Ok ev) in
  let! r := inner_loop tol c (c_inner_loops c) n [ev1] evts in
  let '(n', evts', rest) := r in
  let! evts'' := inner_rest tol c rest evts' in
  Ok (n', match evts'' with [] => Absorption | _ => Scattering end, evts'').

(* "there is an event that does not really get scattered": CompositeNeutronScatterer_Impl.cc:364-373.  For probability 0 the quotient is
   inf or nan, the comparison is false *)
Definition nudge (ev : event) (scattered2 : list event) : list event :=
  match scattered2 with
  | [ev2] => if Req_EM_T (e_p ev) 0 then [ev2]
             else if Rltb (Rabs (e_p ev2 - e_p ev) / e_p ev) (1 / 100000) then [propagate ev2 (1 / 10000000)] else [ev2]
  | l => l
  end.
(* one run of the for loop of scatterM: CompositeNeutronScatterer_Impl.cc:341-377 *)
Fixpoint outer_round (tol : R) (c : composite) (n : nat) (todo evts scattered2 : list event) : result (nat * list event * list event) :=
  match todo with
  | [] => Ok (n, evts, scattered2)
  | ev :: l =>
      if too_low (c_min c) ev then outer_round tol c n l evts scattered2
      else if negb (is_moving ev) then outer_round tol c n l evts scattered2
      else if is_exiting tol ev (c_frame c) then outer_round tol c n l (evts ++ [ev]) scattered2
      else let! r := interactM_path1 tol c n ev scattered2 in
           let '(n', _, s2) := r in outer_round tol c n' l evts (nudge ev s2)
  end.
(* the while loop: CompositeNeutronScatterer_Impl.cc:334-384 *)
Fixpoint outer_loop (tol : R) (c : composite) (left n : nat) (todo evts : list event) : result (nat * list event * list event) :=
  match left, todo with
  | O, _ | _, [] => Ok (n, evts, todo)
  | S left', _ => let! r := outer_round tol c n todo evts [] in
                  let '(n', evts', scattered2) := r in outer_loop tol c left' n' scattered2 evts'
  end.
(* one left-over event: CompositeNeutronScatterer_Impl.cc:389-398 *)
Definition outer_rest (tol : R) (c : composite) (ev : event) : event :=
  let ev1 := propagate_out tol ev (c_frame c) in scale_p ev1 (attenuation c ev (e_r ev1)).
(* scatterM: CompositeNeutronScatterer_Impl.cc:317-401.  The events found; the caller's list gets them added at its end *)
Definition scatterM (tol : R) (c : composite) (n : nat) (ev : event) : result (list event) :=
  let! r := outer_loop tol c (c_loops c) n [ev] [] in
  let '(_, evts, rest) := r in Ok (evts ++ map (outer_rest tol c) rest).

(** ** One event: interact_path1 and scatter *)

(* interact_path1: CompositeNeutronScatterer_Impl.cc:407-467.  The recursion of line 449 may be without end: the first argument bounds it *)
Fixpoint c_interact_path1 (fuel : nat) (tol : R) (c : composite) (n : nat) (ev : event) : result (nat * interaction * event) :=
  match fuel with
  | O => Err OutOfFuel
  | S fuel' =>
      match hit tol c ev with
      | None => let! ev1 := propagate_to_next_exiting_surface tol ev (c_frame c) in Ok (n, NoInteraction, ev1)
      | Some e =>
          let! r := el_interact e n (global2local ev (el_position e) (el_orientation e)) in
          let '(itype, x) := r in
          let ev1 := local2global x (el_position e) (el_orientation e) in
          match itype with
          | Absorption => Ok (S n, Absorption, set_p ev (-1))
          | NoInteraction => if negb (loc_eqb (locate_ev tol ev1 (c_frame c)) Inside) then Ok (S n, NoInteraction, ev1)
                             else c_interact_path1 fuel' tol c (S n) ev1
          | Scattering =>
              let! ev2 := (if loc_eqb (locate_ev tol ev1 (c_frame c)) Inside then propagate_to_next_exiting_surface tol ev1 (c_frame c) else Ok ev1) in
              Ok (S n, Scattering, scale_p ev2 (attenuation c ev1 (e_r ev2)))
          end
      end
  end.
(* scatter: CompositeNeutronScatterer_Impl.cc:470-533; likewise for the recursion of line 509 *)
Fixpoint scatter (fuel : nat) (tol : R) (c : composite) (n : nat) (ev : event) : result event :=
  match fuel with
  | O => Err OutOfFuel
  | S fuel' =>
      if negb (is_moving ev) then Ok (set_p ev (-1))
      else if is_exiting tol ev (c_frame c) then Ok ev
      else if is_exiting tol ev (c_union c) then propagate_to_next_exiting_surface tol ev (c_frame c)
      else
        let! r := c_interact_path1 fuel' tol c n ev in
        let '(n', itype, ev1) := r in
        match itype with
        | Absorption => Ok ev1
        | NoInteraction => let! ev2 := propagate_to_next_incident_surface tol ev1 (c_union c) in scatter fuel' tol c n' ev2
        | Scattering => match all_tofs tol ev1 (c_frame c) with
                        | [] => Ok ev1
                        | _ => let ev2 := propagate_out tol ev1 (c_frame c) in Ok (scale_p ev2 (attenuation c ev1 (e_r ev2)))
                        end
        end
  end.

(** ** Scatterers as elements *)

(* the methods interactM_path1 and interact_path1 of CompositeNeutronScatterer: CompositeNeutronScatterer.cc:73-98.  They call those of
   CompositeNeutronScatterer_Impl and have no return statement: using the value is undefined behaviour, whatever the call does *)
Definition nested (c : composite) (position : vec3) (orientation : mat3) : element :=
  mkEl (c_frame c) position orientation (fun _ _ => Err UndefinedBehaviour) (fun _ _ => Err UndefinedBehaviour) (fun _ _ => 1).

(* the loop over the results of _interactM1: HomogeneousNeutronScatterer.cc:302-325; results are the events that are done and those to go on with *)
Definition h_sort (tol : R) (h : hscatterer) (l : list event) : list event * list event :=
  let l := filter (fun x => negb (Rltb (e_p x) (/ 100000000000000000000))) l in
  (filter (fun x => negb (loc_eqb (locate_ev tol x (h_shape h)) Inside)) l, filter (fun x => loc_eqb (locate_ev tol x (h_shape h)) Inside) l).
(* one run of the for loop of interactM_path1: HomogeneousNeutronScatterer.cc:286-327; [u n], [k n]: what _interactM1 draws from the generator *)
Fixpoint h_round (tol : R) (h : hscatterer) (u : nat -> R) (n : nat) (todo evts again : list event) : result (nat * list event * list event) :=
  match todo with
  | [] => Ok (n, evts, again)
  | ev :: l => if too_low (h_min h) ev then h_round tol h u n l evts again
               else let! o := interactM1 tol h ev (u n) n in
                    let '(done, more) := h_sort tol h [m_transmitted o; m_scattered o] in
                    h_round tol h u (S n) l (evts ++ done) (again ++ more)
  end.
(* the while loop: HomogeneousNeutronScatterer.cc:282-331 *)
Fixpoint h_loop (tol : R) (h : hscatterer) (u : nat -> R) (left n : nat) (todo evts : list event) : result (list event * list event) :=
  match left, todo with
  | O, _ | _, [] => Ok (evts, todo)
  | S left', _ => let! r := h_round tol h u n todo evts [] in
                  let '(n', evts', again) := r in h_loop tol h u left' n' again evts'
  end.
(* interactM_path1: HomogeneousNeutronScatterer.cc:275-338; [u] gives the random number for each call of _interactM1 *)
Definition h_interactM_path1 (tol : R) (h : hscatterer) (u : nat -> R) (ev : event) : result (interaction * list event) :=
  let! r := h_loop tol h u (Z.to_nat (h_loops h)) 0 [ev] [] in
  let '(evts, rest) := r in Ok (Scattering, evts ++ rest).
(* a homogeneous scatterer as an element; [u n i] are the random numbers its call number n draws *)
Definition homogeneous (tol : R) (h : hscatterer) (u : nat -> nat -> R) (position : vec3) (orientation : mat3) : element :=
  mkEl (h_shape h) position orientation (fun n ev => h_interactM_path1 tol h (u n) ev)
    (fun n ev => let! o := interact_path1 tol h ev (u n 0%nat) (u n 1%nat) n in Ok (o_type o, o_final o))
    (fun ev stop => calculate_attenuation tol h ev stop).
(* a composite of one scatterer, itself: AbstractNeutronScatterer.cc:19-32; the geometer has no record of the scatterer and gives the position 0 and
   the orientation 1 (Geometer.icc:40-56).  The numbers of loops are those of CompositeNeutronScatterer_Impl.cc:140-141; min_neutron_probability
   is not set by the constructor (135-145): it is an argument *)
Definition alone (e : element) (min : R) : composite := mkCo (el_shape e) [e] 5 2 min.
