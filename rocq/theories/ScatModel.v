(** Model of the neutron propagation helpers, of the homogeneous scatterer and of attenuation in composites (packages/):
    mccomposite/lib/mccomposite/{neutron_propagation.cc,neutron_propagation.h,CompositeNeutronScatterer_Impl.cc,AbstractNeutronScatterer.cc},
    mccomponents/lib/homogeneous_scatterer/HomogeneousNeutronScatterer.{h,cc}, mccomponents/lib/math/random.cc.

    Doubles are reals.  Random numbers are arguments: math::random(min,max) is u*(max-min)+min with u = rand()/RAND_MAX in [0,1],
    both ends included (random.cc:34-38).  A C++ double that would be inf or nan is an error value of the model. *)
From Coq Require Import Reals.
From Verif Require Import Base RotModel ChanModel ShapeModel.
Open Scope R_scope.

(** ** neutron_propagation *)

(* locate of an event: neutron_propagation.h:28-34 *)
Definition locate_ev (tol : R) (ev : event) (s : shape) : location := locate tol s (e_r ev).
(* forward_intersect and intersect of an event: neutron_propagation.h:40-52 *)
Definition forward_tofs (tol : R) (ev : event) (s : shape) : list R := forward_intersect tol s (e_r ev) (e_v ev).
(* in the group above: neutron_propagation.h:40-52 *)
Definition all_tofs (tol : R) (ev : event) (s : shape) : list R := intersect tol s (e_r ev) (e_v ev).
(* propagate: neutron_propagation.h:55-59 *)
Definition propagate (ev : event) (t : R) : event :=
  mkE (arrow_at (e_r ev) (e_v ev) t) (e_v ev) (e_s1 ev) (e_s2 ev) (e_t ev + t) (e_p ev).
(* propagate_out: neutron_propagation.h:62-69; the last of the intersections, in both directions of flight *)
Definition propagate_out (tol : R) (ev : event) (s : shape) : event :=
  match rev (all_tofs tol ev s) with [] => ev | t :: _ => propagate ev t end.
(* the loops over intersections of neutron_propagation.cc:58-73, 106-121, 151-166: middle points on the border are passed over;
   the first other one decides: if it is on the wanted side its time is the result, else there is none *)
Fixpoint search (tol : R) (s : shape) (ev : event) (wanted : location) (tofs : list R) : option R :=
  match tofs with
  | [] => None
  | t :: l => match locate tol s (arrow_at (e_r ev) (e_v ev) (t * (1 / 2))) with
              | Onborder => search tol s ev wanted l
              | loc => if loc_eqb loc wanted then Some t else None
              end
  end.
(* propagate_to_next_incident_surface: neutron_propagation.cc:79-124 *)
Definition propagate_to_next_incident_surface (tol : R) (ev : event) (s : shape) : result event :=
  match locate_ev tol ev s with
  | Inside => Err CppException
  | Outside => match forward_tofs tol ev s with [] => Ok ev | t :: _ => Ok (propagate ev t) end
  | Onborder => match search tol s ev Outside (forward_tofs tol ev s) with Some t => Ok (propagate ev t) | None => Ok ev end
  end.
(* propagate_to_next_exiting_surface: neutron_propagation.cc:21-76 *)
Definition propagate_to_next_exiting_surface (tol : R) (ev : event) (s : shape) : result event :=
  match locate_ev tol ev s with
  | Inside => match forward_tofs tol ev s with [] => Err CppException | t :: _ => Ok (propagate ev t) end
  | loc =>
      let! ev1 := (if loc_eqb loc Outside then propagate_to_next_incident_surface tol ev s else Ok ev) in
      if negb (loc_eqb (locate_ev tol ev1 s) Onborder) then Err CppException
      else match search tol s ev1 Inside (forward_tofs tol ev1 s) with Some t => Ok (propagate ev1 t) | None => Ok ev1 end
  end.
(* tof_before_exit: neutron_propagation.cc:126-169 *)
Definition tof_before_exit (tol : R) (ev : event) (s : shape) : result R :=
  match locate_ev tol ev s with
  | Outside => Err CppException
  | loc => match forward_tofs tol ev s with
           | [] => Err CppException
           | t :: l => if loc_eqb loc Inside then Ok t
                       else match search tol s ev Inside (t :: l) with Some t' => Ok t' | None => Ok 0 end
           end
  end.
(* the loop of is_exiting: neutron_propagation.cc:193-203 *)
Fixpoint all_onborder (tol : R) (s : shape) (ev : event) (previous : R) (tofs : list R) : bool :=
  match tofs with
  | [] => true
  | now :: l => (loc_eqb (locate tol s (arrow_at (e_r ev) (e_v ev) ((previous + now) / 2))) Onborder && all_onborder tol s ev now l)%bool
  end.
(* is_exiting: neutron_propagation.cc:172-204 *)
Definition is_exiting (tol : R) (ev : event) (s : shape) : bool :=
  match locate_ev tol ev s with
  | Inside => false
  | loc => match forward_tofs tol ev s with
           | [] => true
           | tofs => if loc_eqb loc Outside then false else all_onborder tol s ev 0 tofs
           end
  end.
(* is_moving: neutron_propagation.cc:206-210 *)
Definition is_moving (ev : event) : bool := Rltb (1 / 1000000) (vnorm (e_v ev)).

(** ** HomogeneousNeutronScatterer *)

(* AbstractScatteringKernel: AbstractScatteringKernel.h:24-58.  The number is the state of the random number generator at the call:
   scatter and absorb are any functions of it and of the event *)
Record kernel := mkK { k_absorption : event -> R; k_scattering : event -> R; k_scatter : nat -> event -> event; k_absorb : nat -> event -> event }.
(* HomogeneousNeutronScatterer::Weights: HomogeneousNeutronScatterer.h:40-52 *)
Record weights := mkW { w_absorption : R; w_scattering : R; w_transmission : R }.
(* data of HomogeneousNeutronScatterer: HomogeneousNeutronScatterer.h:34-36, 101-104; no calculator when the kernel is consulted *)
Record hscatterer := mkH { h_shape : shape; h_kernel : kernel; h_mu_calc : option (event -> R); h_weights : weights;
                           h_packing : R; h_loops : Z; h_min : R }.
(* InteractionType: AbstractNeutronScatterer.h:47 *)
Inductive interaction := Absorption | Scattering | NoInteraction.

(* multiplication of the probability of an event *)
Definition scale_p (ev : event) (k : R) : event := mkE (e_r ev) (e_v ev) (e_s1 ev) (e_s2 ev) (e_t ev) (e_p ev * k).
(* assignment to the probability of an event *)
Definition set_p (ev : event) (p : R) : event := mkE (e_r ev) (e_v ev) (e_s1 ev) (e_s2 ev) (e_t ev) p.
(* division of doubles; by zero it is inf or nan in C++, an error here *)
Definition divide (a b : R) : result R := if Req_EM_T b 0 then Err ZeroDivisionError else Ok (a / b).
(* math::random(double, double): random.cc:34-38 *)
Definition random (u min max : R) : R := u * (max - min) + min.

(* mu: HomogeneousNeutronScatterer.cc:82-92 *)
Definition mu (h : hscatterer) (ev : event) : R :=
  match h_mu_calc h with None => k_absorption (h_kernel h) ev | Some f => f ev end * h_packing h.
(* sigma: HomogeneousNeutronScatterer.cc:121, 231, 372 *)
Definition sigma (h : hscatterer) (ev : event) : R := k_scattering (h_kernel h) ev * h_packing h.

(* the loop of calculate_attenuation: HomogeneousNeutronScatterer.cc:357-370 *)
Fixpoint inside_length (tol : R) (s : shape) (start vv : vec3) (v tofmax prev length : R) (tofs : list R) : R :=
  match tofs with
  | [] => length
  | t :: l =>
      let tof := if Rltb tofmax t then tofmax else t in
      let middle := (tof + prev) / 2 in
      let length := if loc_eqb (locate tol s (arrow_at start vv middle)) Inside then length + (tof - prev) * v else length in
      if Rltb tofmax tof then length else inside_length tol s start vv v tofmax tof length l
  end.
(* calculate_attenuation: HomogeneousNeutronScatterer.cc:341-382.  For velocity 0 length/v is inf or nan, but then there are no intersections
   and it is not used *)
Definition calculate_attenuation (tol : R) (h : hscatterer) (ev : event) (stop : vec3) : R :=
  let start := e_r ev in
  let vv := e_v ev in
  let v := vnorm vv in
  let tofs := forward_intersect tol (h_shape h) start vv in
  let tofmax := vnorm (vsub stop start) / v in
  exp (- (mu h ev + sigma h ev) * inside_length tol (h_shape h) start vv v tofmax 0 0 tofs).

(* the call made to the kernel, with the event it gets: HomogeneousNeutronScatterer.cc:150, 180 *)
Inductive call := NoCall | CallAbsorb (ev : event) | CallScatter (ev : event).
(* what is seen of one interaction: its type, the call made to the kernel, the event in the end: HomogeneousNeutronScatterer.cc:94-95 *)
Record outcome := mkO { o_type : interaction; o_call : call; o_final : event }.

(* interact_path1: HomogeneousNeutronScatterer.cc:94-192.  [u1] is the random number of the dice, [u2] that of the position, [n] the state of
   the generator when the kernel is called.  absorption_prob (125) is computed and not used; nan there has no effect *)
Definition interact_path1 (tol : R) (h : hscatterer) (ev : event) (u1 u2 : R) (n : nat) : result outcome :=
  let! ev := (if loc_eqb (locate_ev tol ev (h_shape h)) Inside then Ok ev else propagate_to_next_incident_surface tol ev (h_shape h)) in
  let! tof := tof_before_exit tol ev (h_shape h) in
  let velocity := vnorm (e_v ev) in
  let distance := tof * vnorm (e_v ev) in
  let mu := mu h ev in
  let sigma := sigma h ev in
  let transmission_prob := exp (- (mu + sigma) * distance) in
  let transmission_mark := w_transmission (h_weights h) in
  let absorption_mark := transmission_mark + w_absorption (h_weights h) in
  let sum_of_weights := absorption_mark + w_scattering (h_weights h) in
  let r := random u1 0 sum_of_weights in
  if Rltb r transmission_mark then
    let! ev1 := propagate_to_next_exiting_surface tol ev (h_shape h) in
    let! k := divide sum_of_weights (w_transmission (h_weights h)) in
    Ok (mkO NoInteraction NoCall (scale_p ev1 (transmission_prob * k)))
  else if Rltb r absorption_mark then
    let x := random u2 0 distance in
    let prob := mu * distance * exp (- (mu + sigma) * x) in
    let! k := divide sum_of_weights (w_absorption (h_weights h)) in
    let ev1 := scale_p ev (prob * k) in
    let! dt := divide x velocity in
    let ev2 := propagate ev1 dt in
    Ok (mkO Absorption (CallAbsorb ev2) (set_p (k_absorb (h_kernel h) n ev2) (-1)))
  else
    let x := random u2 0 distance in
    let atten := exp (- (mu + sigma) * x) in
    let! k := divide sum_of_weights (w_scattering (h_weights h)) in
    let ev1 := scale_p ev (distance * atten * k) in
    let! dt := divide x velocity in
    let ev2 := propagate ev1 dt in
    let ev3 := scale_p (k_scatter (h_kernel h) n ev2) (h_packing h) in
    if Rleb (e_p ev3) 0 then Ok (mkO Absorption (CallScatter ev2) ev3)
    else
      let! ev4 := propagate_to_next_exiting_surface tol ev3 (h_shape h) in
      Ok (mkO Scattering (CallScatter ev2) (scale_p ev4 (calculate_attenuation tol h ev3 (e_r ev4)))).

(* what _interactM1 does with one event: the event handed to absorb, the transmitted event, the event handed to scatter, the scattered event *)
Record outcomeM := mkOM { m_absorbed : event; m_transmitted : event; m_handed : event; m_scattered : event }.
(* _interactM1: HomogeneousNeutronScatterer.cc:195-273.  With mu+sigma = 0 the probability handed to absorb is nan: an error here *)
Definition interactM1 (tol : R) (h : hscatterer) (ev : event) (u : R) (n : nat) : result outcomeM :=
  let! original := (if loc_eqb (locate_ev tol ev (h_shape h)) Inside then Ok ev else propagate_to_next_incident_surface tol ev (h_shape h)) in
  let! tof := tof_before_exit tol original (h_shape h) in
  let velocity := vnorm (e_v original) in
  let distance := tof * vnorm (e_v original) in
  let mu := mu h original in
  let sigma := sigma h original in
  let transmission_prob := exp (- (mu + sigma) * distance) in
  let! share := divide mu (mu + sigma) in
  let absorption_prob := (1 - transmission_prob) * share in
  let! ev1 := propagate_to_next_exiting_surface tol original (h_shape h) in
  let transmitted := scale_p ev1 transmission_prob in
  let absorbed := scale_p original absorption_prob in
  let x := random u 0 distance in
  let prob := distance * exp (- (mu + sigma) * x) in
  let! dt := divide x velocity in
  let handed := propagate (scale_p original prob) dt in
  Ok (mkOM absorbed transmitted handed (scale_p (k_scatter (h_kernel h) n handed) (h_packing h))).

(** ** Attenuation in a composite *)

(* scatterers seen through AbstractNeutronScatterer: a homogeneous scatterer, or a CompositeNeutronScatterer with its frame shape and its
   elements, each with the position and the orientation the geometer remembers: CompositeNeutronScatterer_Impl.cc:135-169 *)
Inductive scatterer :=
| Homog (h : hscatterer)
| Comp (frame : shape) (elements : list (scatterer * vec3 * mat3)).

(* the virtual method calculate_attenuation of AbstractNeutronScatterer (AbstractNeutronScatterer.h:74-75, .cc:60-66).  HomogeneousNeutronScatterer
   overrides it (HomogeneousNeutronScatterer.h:82-83, const); the method of CompositeNeutronScatterer.h:83-84 is not const, so it is
   another method, and a call through the base class yields 1 *)
Definition virtual_attenuation (tol : R) (s : scatterer) (ev : event) (stop : vec3) : R :=
  match s with Homog h => calculate_attenuation tol h ev stop | Comp _ _ => 1 end.
(* global2local: CompositeNeutronScatterer_Impl.cc:50-62, 96-106 *)
Definition global2local (ev : event) (offset : vec3) (rotmat : mat3) : event :=
  mkE (dot_mv (transpose rotmat) (vsub (e_r ev) offset)) (dot_mv (transpose rotmat) (e_v ev)) (e_s1 ev) (e_s2 ev) (e_t ev) (e_p ev).
(* local2global: CompositeNeutronScatterer_Impl.cc:69-78, 109-119 *)
Definition local2global (ev : event) (offset : vec3) (rotmat : mat3) : event :=
  mkE (vadd (dot_mv rotmat (e_r ev)) offset) (dot_mv rotmat (e_v ev)) (e_s1 ev) (e_s2 ev) (e_t ev) (e_p ev).
(* CompositeNeutronScatterer_Impl::calculate_attenuation: CompositeNeutronScatterer_Impl.cc:178-202; the end point is passed on as it is *)
Definition composite_attenuation (tol : R) (elements : list (scatterer * vec3 * mat3)) (ev : event) (stop : vec3) : R :=
  fold_left (fun ret '(s, position, orientation) => ret * virtual_attenuation tol s (global2local ev position orientation) stop) elements 1.
