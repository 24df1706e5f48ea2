(** Vocabulary of the properties about a run of the instrument. *)
From Coq Require Import List String Permutation.
From Verif Require Import Base SimModel.
Import ListNotations.
Open Scope string_scope.
Open Scope list_scope.

(** [keeps P l l']: l' is l without the elements that fail P: the rest stay as
    they are and in order. *)
Inductive keeps {A} (P : A -> Prop) : list A -> list A -> Prop :=
| keeps_nil : keeps P [] []
| keeps_yes : forall x l l', P x -> keeps P l l' -> keeps P (x :: l) (x :: l')
| keeps_no : forall x l l', ~ P x -> keeps P l l' -> keeps P (x :: l) l'.

Section Spec.
  Variables E W PO : Type.
  Variable sgn : E -> option comparison.
  Variable transform : PO -> PO -> list E -> list E.

  (** probability positive, or not a number *)
  Definition alive (e : E) : Prop := sgn e = Some Gt \/ sgn e = None.

  (** probability not negative *)
  Definition not_absorbed (e : E) : Prop := sgn e <> Some Lt.

  (** what a component does with neutrons: processM when multiple scattering is
      on and the component has it, process otherwise *)
  Definition acts (ms : bool) (c : component E W PO) (w : W) (ns : list E) : W * result (list E) :=
    match c_processM _ _ _ c with
    | Some m => if ms then m w ns else c_process _ _ _ c w ns
    | None => c_process _ _ _ c w ns
    end.

  (** The beam goes through the components in order.  At each one it is expressed
      in the coordinates of that component, only the neutrons that are alive are
      presented, and the component acts once. *)
  Inductive through (ms : bool)
    : list (component E W PO) -> PO -> W -> list E -> PO -> W -> list E -> Prop :=
  | through_end : forall po w ns, through ms [] po w ns po w ns
  | through_next : forall c cs po w ns pc seen w1 ns1 po' w' ns',
      c_place _ _ _ c = Ok pc ->
      keeps alive (transform po pc ns) seen ->
      acts ms c w seen = (w1, Ok ns1) ->
      through ms cs pc w1 ns1 po' w' ns' ->
      through ms (c :: cs) po w ns po' w' ns'.

  (** The beam reaches a component that raises. *)
  Inductive stops (ms : bool)
    : list (component E W PO) -> PO -> W -> list E -> W -> exn -> Prop :=
  | stops_here : forall c cs po w ns pc seen w1 e,
      c_place _ _ _ c = Ok pc ->
      keeps alive (transform po pc ns) seen ->
      acts ms c w seen = (w1, Err e) ->
      stops ms (c :: cs) po w ns w1 e
  | stops_later : forall c cs po w ns pc seen w1 ns1 w' e,
      c_place _ _ _ c = Ok pc ->
      keeps alive (transform po pc ns) seen ->
      acts ms c w seen = (w1, Ok ns1) ->
      stops ms cs pc w1 ns1 w' e ->
      stops ms (c :: cs) po w ns w' e.

  (** usable names: different from each other and from the names the simulator
      uses itself *)
  Definition usable_names (cs : list (component E W PO)) : Prop :=
    NoDup (map (c_name _ _ _) cs) /\
    forall c, In c cs -> ~ In (c_name _ _ _ c) ["self"; "dummyBegin"; "dummyEnd"].

  (** every component is a real one and has a place *)
  Definition placed (cs : list (component E W PO)) : Prop :=
    forall c, In c cs -> c_abstract _ _ _ c = false /\ exists po, c_place _ _ _ c = Ok po.

  (** Members of a group act one after the other, each on the same neutrons. *)
  Inductive visits (origin : PO) (seen : list E)
    : list (component E W PO) -> W -> W -> Prop :=
  | visits_end : forall w, visits origin seen [] w w
  | visits_next : forall c cs w po w1 ns1 w',
      c_place _ _ _ c = Ok po ->
      c_process _ _ _ c w (transform origin po seen) = (w1, Ok ns1) ->
      visits origin seen cs w1 w' ->
      visits origin seen (c :: cs) w w'.

  (** A scatterer is applied once to each of a list of events, one after the
      other; [outs] are the results. *)
  Inductive scattered (scatter : W -> E -> W * E) : W -> list E -> W -> list E -> Prop :=
  | sc_nil : forall w, scattered scatter w [] w []
  | sc_cons : forall w e w1 e1 l w' outs,
      scatter w e = (w1, e1) -> scattered scatter w1 l w' outs ->
      scattered scatter w (e :: l) w' (e1 :: outs).

  (** The same for a scatterer that produces several events. *)
  Inductive scatteredM (scatterM : W -> E -> W * list E) : W -> list E -> W -> list (list E) -> Prop :=
  | scM_nil : forall w, scatteredM scatterM w [] w []
  | scM_cons : forall w e w1 e1 l w' outs,
      scatterM w e = (w1, e1) -> scatteredM scatterM w1 l w' outs ->
      scatteredM scatterM w (e :: l) w' (e1 :: outs).
End Spec.

(** ** The same in laboratory coordinates, for real placements *)
From Coq Require Import Reals.
From Verif Require Import RotModel RotSpec.
Open Scope R_scope.

(** a placement: position and orientation *)
Definition placement : Type := vec3 * ori.
(** the coordinate system of the laboratory *)
Definition lab_frame : placement := (mkV 0 0 0, Angles 0 0 0).
(** the transformer the simulator is given *)
Definition transformer (po pc : placement) (ns : list event) : list event :=
  change_coordinates ns (fst po) (snd po) (fst pc) (snd pc).
(** sign of the probability *)
Definition prob_sgn (ev : event) : option comparison :=
  Some (if Rlt_dec (e_p ev) 0 then Lt else if Rlt_dec 0 (e_p ev) then Gt else Eq).

(** [loc] are the neutrons [lab] as a component placed at [pc] sees them:
    position relative to the component, turned into its frame; velocity turned;
    all else the same. *)
Definition expressed (pc : placement) (lab loc : list event) : Prop :=
  Forall2 (fun a b =>
    e_r b = dot_mv (toMatrix (snd pc) "degree") (vsub (e_r a) (fst pc)) /\
    e_v b = dot_mv (toMatrix (snd pc) "degree") (e_v a) /\
    same_other a b) lab loc.

Section Lab.
  Variable W : Type.
  (** The beam, always in laboratory coordinates, goes through the components in order. *)
  Inductive lab_through (ms : bool)
    : list (component event W placement) -> W -> list event -> W -> list event -> Prop :=
  | lab_end : forall w lab, lab_through ms [] w lab w lab
  | lab_next : forall c cs w lab pc lab_alive seen w1 out lab1 w' lab',
      c_place _ _ _ c = Ok pc ->
      keeps (alive event prob_sgn) lab lab_alive ->
      expressed pc lab_alive seen ->
      acts event W placement ms c w seen = (w1, Ok out) ->
      expressed pc lab1 out ->
      lab_through ms cs w1 lab1 w' lab' ->
      lab_through ms (c :: cs) w lab w' lab'.

  (** Orientations are rotations, and from [po] along the components and back to
      the laboratory no step is almost, but not exactly, the identity. *)
  Definition clear_step (a b : placement) : Prop :=
    let '(rp, rm) := relativePositionOrientation (fst a) (snd a) (fst b) (snd b) in clear_placement rp rm.
  Fixpoint clear_path (po : placement) (cs : list (component event W placement)) : Prop :=
    match cs with
    | [] => clear_step po lab_frame
    | c :: rest => exists pc, c_place _ _ _ c = Ok pc /\ valid_ori (snd pc) /\
                              clear_step po pc /\ clear_path pc rest
    end.
End Lab.
