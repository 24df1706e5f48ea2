(** Model of one run of a simulated instrument: the chain of components, the
    neutron buffer that travels along it, the C++ loops that apply a scatterer
    to a buffer, and the component group.

    All files are under /repo/packages.  A neutron event is any type [E]; the
    only thing the modelled code looks at is how its probability compares with
    zero, given by [sgn] as the result of an IEEE comparison ([None] when the
    probability is not a number).  [W] is everything else a component can change
    (random numbers, files, its own attributes).  [PO] is a placement: the pair
    (position, orientation) that the geometer answers for a component. *)
From Coq Require Import List String Bool.
From Verif Require Import Base.
Import ListNotations.
Open Scope string_scope.
Open Scope list_scope.

Section Sim.
  Variables E W PO : Type.
  Variable sgn : E -> option comparison.
  (** the neutron coordinates transformer: placement the buffer is expressed in,
      placement it is to be expressed in, buffer; it works in place and never
      raises (mcni/python/mcni/neutron_coordinates_transformers; the real one is
      modelled in RotModel.change_coordinates) *)
  Variable transform : PO -> PO -> list E -> list E.
  (** (0,0,0), (0,0,0) : mcni/python/mcni/instrument_simulator/SimulationChain.py lines 39-40 and 49-50 *)
  Variable origin : PO.

  (** what "process(neutrons)" does: it may change the world, and either leaves
      a new content in the buffer or raises.  Simplified: when it raises, the
      buffer it leaves behind is not modelled.
      mcni/python/mcni/AbstractComponent.py lines 32-33 *)
  Definition behaviour := W -> list E -> W * result (list E).

  (** A component as the simulator sees it: "name", whether its class is
      AbstractComponent itself, "process", "processM" if it has one, and what
      geometer.position / geometer.orientation answer for it (or raise).
      mcni/python/mcni/AbstractComponent.py lines 25-33,
      mcni/python/mcni/instrument_simulator/SimulationChain.py lines 68-69, 104-106 *)
  Record component := mkC {
    c_name : string;
    c_abstract : bool;
    c_process : behaviour;
    c_processM : option behaviour;
    c_place : result PO }.

  (** isInValid: "probability <= 0".  mcni/lib/neutron/EventBuffer.cc lines 33-37 *)
  Definition isInValid (e : E) : bool :=
    match sgn e with Some Lt | Some Eq => true | _ => false end.

  (** EventBuffer::snapshot(n): the valid ones among the first n.
      mcni/lib/neutron/EventBuffer.cc lines 39-48.  Simplified: n larger than
      the size is undefined in C++; here it means the whole buffer. *)
  Definition snapshot (n : nat) (l : list E) : list E :=
    filter (fun e => negb (isInValid e)) (firstn n l).

  (** A node of the chain: the placement of its component and the method it
      calls.  mcni/python/mcni/instrument_simulator/SimulationNode.py lines 13-34 *)
  Record node := mkN { n_place : PO; n_method : behaviour }.

  (** SimulationNode.__init__, choice between process and processM:
      mcni/python/mcni/instrument_simulator/SimulationNode.py lines 28-30.
      [ctx] is the simulation context: None is Python's None, Some b a context
      whose multiple_scattering is b.  The tracer is not modelled: it is handed
      the buffer to look at. *)
  Definition choose_method (ctx : option bool) (c : component) : result behaviour :=
    match ctx with
    | None => Err AttributeError
    | Some ms =>
        match ms, c_processM c with
        | true, Some m => Ok m
        | _, _ => Ok (c_process c)
        end
    end.

  (** SimulationNode._update and the processor it runs: transform, snapshot and
      swap, process; the outputs are the buffer and the node's own placement.
      mcni/python/mcni/instrument_simulator/SimulationNode.py lines 41-60, 63-78.
      NotImplementedError is re-raised as NotImplementedError with more text. *)
  Definition node_update (n : node) (w : W) (ns : list E) (po : PO)
    : W * result (list E * PO) :=
    let ns1 := transform po (n_place n) ns in
    let ns2 := snapshot (List.length ns1) ns1 in
    match n_method n w ns2 with
    | (w1, Ok ns3) => (w1, Ok (ns3, n_place n))
    | (w1, Err e) => (w1, Err e)
    end.

  (** DummyComponent: process leaves the neutrons alone.
      mcni/python/mcni/DummyComponent.py lines 17-27,
      mcni/python/mcni/instrument_simulator/SimulationChain.py lines 44-51 *)
  Definition dummy (name : string) : component :=
    mkC name false (fun w ns => (w, Ok ns)) None (Ok origin).

  (** _enclosure. mcni/python/mcni/instrument_simulator/SimulationChain.py lines 44-51 *)
  Definition enclosure (cs : list component) : list component :=
    dummy "dummyBegin" :: cs ++ [dummy "dummyEnd"].

  (** nodes[name] = node: assignment in a Python dict.
      mcni/python/mcni/instrument_simulator/SimulationChain.py line 70 *)
  Fixpoint nset (d : list (string * node)) (k : string) (v : node) : list (string * node) :=
    match d with
    | [] => [(k, v)]
    | (k', v') :: t => if String.eqb k' k then (k, v) :: t else (k', v') :: nset t k v
    end.

  (** nodes[name]: lookup in the same dict *)
  Fixpoint nget (d : list (string * node)) (k : string) : option node :=
    match d with
    | [] => None
    | (k', v') :: t => if String.eqb k' k then Some v' else nget t k
    end.

  (** The loop of _create.  A connection (a, b) stands for the three socket
      connections a:neutrons->neutrons:b, a:position->position:b and
      a:orientation->orientation:b that always go together.  Raising a string,
      as done for an abstract component, is a TypeError in Python 3.
      mcni/python/mcni/instrument_simulator/SimulationChain.py lines 66-85, 92-98 *)
  Fixpoint create_loop (ctx : option bool) (cs : list component) (previous : string)
      (nodes : list (string * node)) (conns : list (string * string))
    : result (list (string * node) * list (string * string) * string) :=
    match cs with
    | [] => Ok (nodes, conns, previous)
    | c :: rest =>
        let! po := c_place c in
        let! m := choose_method ctx c in
        let nodes1 := nset nodes (c_name c) (mkN po m) in
        if c_abstract c then Err TypeError
        else create_loop ctx rest (c_name c) nodes1 (conns ++ [(previous, c_name c)])
    end.

  (** _create after _enclosure.
      mcni/python/mcni/instrument_simulator/SimulationChain.py lines 30-35, 62-89 *)
  Definition create (ctx : option bool) (cs : list component)
    : result (list (string * node) * list (string * string)) :=
    let! r := create_loop ctx (enclosure cs) "self" [] [] in
    let '(nodes, conns, last) := r in
    Ok (nodes, conns ++ [(last, "self")]).

  (** Where the input of a node comes from.  Part of danse.ins.dsm, which is not
      in /repo: see [pull]. *)
  Fixpoint source_of (conns : list (string * string)) (k : string) : option string :=
    match conns with
    | [] => None
    | (a, b) :: t => if String.eqb b k then Some a else source_of t k
    end.

  (** The value a node delivers.  danse.ins.dsm.Composite, the base class of
      SimulationChain (mcni/python/mcni/instrument_simulator/SimulationChain.py
      lines 15-16, 37), is not in /repo.  Assumed of it: asking for an output
      pulls the inputs along the connections and then runs _update once;
      "self" on the left of a connection is the composite's own input. *)
  Fixpoint pull (fuel : nat) (nodes : list (string * node)) (conns : list (string * string))
      (input : list E * PO) (k : string) (w : W) : W * result (list E * PO) :=
    match fuel with
    | O => (w, Err OutOfFuel)
    | S f =>
        if String.eqb k "self" then (w, Ok input)
        else match nget nodes k, source_of conns k with
             | Some n, Some src =>
                 match pull f nodes conns input src w with
                 | (w1, Ok (ns, po)) => node_update n w1 ns po
                 | (w1, Err e) => (w1, Err e)
                 end
             | _, _ => (w, Err KeyError)
             end
    end.

  (** AbstractInstrumentSimulator.run: returns the content of the neutron buffer
      afterwards and the number of samples that is recorded.
      mcni/python/mcni/instrument_simulator/AbstractInstrumentSimulator.py lines 25-48,
      SimulationChain.py lines 23-41.  The seeding of the random number generators
      (lines 33-35) is part of [W] before the call; writing the number to a file
      is modelled in RunModel. *)
  Definition simulate (ctx : option bool) (cs : list component) (w : W) (ns : list E)
    : W * result (list E * nat) :=
    let nneutrons := List.length ns in
    match create ctx cs with
    | Err e => (w, Err e)
    | Ok (nodes, conns) =>
        match source_of conns "self" with
        | None => (w, Err KeyError)
        | Some src =>
            match pull (S (List.length conns)) nodes conns (ns, origin) src w with
            | (w1, Ok (ns1, _)) => (w1, Ok (ns1, nneutrons))
            | (w1, Err e) => (w1, Err e)
            end
        end
    end.

  (** mcstas2 proxy component, process with the flag restore_neutron.
      legacycomponents/mcstas2/python/mcstas2/components/_proxies/base.py lines 51-64 *)
  Definition proxy_process (restore_neutron : bool) (cpp : behaviour) : behaviour :=
    fun w ns =>
      let saved := snapshot (List.length ns) ns in
      match cpp w ns with
      | (w1, Ok ns1) => (w1, Ok (if restore_neutron then saved else ns1))
      | (w1, Err e) => (w1, Err e)
      end.

  (** ComponentGroup.process, the loop over the members: each gets a snapshot of
      the neutrons, transformed to its own coordinate system; what it leaves in
      the copy is dropped.  mcni/python/mcni/components/ComponentGroup.py lines 55-70 *)
  Fixpoint group_loop (members : list component) (w : W) (ns : list E) : W * result unit :=
    match members with
    | [] => (w, Ok tt)
    | c :: rest =>
        let copy := snapshot (List.length ns) ns in
        match c_place c with
        | Err e => (w, Err e)
        | Ok po =>
            match c_process c w (transform origin po copy) with
            | (w1, Ok _) => group_loop rest w1 ns
            | (w1, Err e) => (w1, Err e)
            end
        end
    end.

  (** ComponentGroup.process. mcni/python/mcni/components/ComponentGroup.py lines 52-71 *)
  Definition group_process (members : list component) : behaviour :=
    fun w ns =>
      match group_loop members w ns with
      | (w1, Ok _) => (w1, Ok ns)
      | (w1, Err e) => (w1, Err e)
      end.

  (** "event.probability < 0": the test in _process_T and WasAbsorbed.
      mcni/lib/mcni/process_neutron_events.cc lines 44 and 60-65 *)
  Definition wasAbsorbed (e : E) : bool :=
    match sgn e with Some Lt => true | _ => false end.

  (** evts[i] = x. mcni/lib/mcni/process_neutron_events.cc lines 46-48 *)
  Fixpoint vset (l : list E) (i : nat) (x : E) : list E :=
    match l, i with
    | [], _ => []
    | _ :: t, O => x :: t
    | y :: t, S i' => y :: vset t i' x
    end.

  (** The loop of _process_T: scatter the event at index in place; if it was
      absorbed exchange it with the last one that is still in, else go on.
      mcni/lib/mcni/process_neutron_events.cc lines 39-54.  [fuel] bounds the
      number of rounds (nn - index falls by one in each).  [None] would be an
      access outside the vector. *)
  Fixpoint process_loop (fuel : nat) (scatter : W -> E -> W * E)
      (w : W) (evts : list E) (index nn : nat) : option (W * list E * nat) :=
    match fuel with
    | O => Some (w, evts, nn)
    | S f =>
        if Nat.ltb index nn then
          match nth_error evts index with
          | None => None
          | Some ev =>
              let (w1, ev1) := scatter w ev in
              let evts1 := vset evts index ev1 in
              if wasAbsorbed ev1 then
                match nth_error evts1 (nn - 1) with
                | None => None
                | Some last =>
                    process_loop f scatter w1 (vset (vset evts1 index last) (nn - 1) ev1)
                                 index (nn - 1)
                end
              else process_loop f scatter w1 evts1 (index + 1) nn
          end
        else Some (w, evts, nn)
    end.

  (** _process_T. mcni/lib/mcni/process_neutron_events.cc lines 29-58 *)
  Definition process_T (scatter : W -> E -> W * E) (w : W) (evts : list E) : option (W * list E) :=
    match process_loop (List.length evts) scatter w evts 0 (List.length evts) with
    | Some (w1, evts1, nn) => Some (w1, firstn nn evts1)
    | None => None
    end.

  (** _processM_T: everything scatterM produces, in order, without the absorbed.
      mcni/lib/mcni/process_neutron_events.cc lines 67-93.  scatterM also gets
      the event by reference, but the buffer it lives in is thrown away. *)
  Fixpoint processM_loop (scatterM : W -> E -> W * list E) (w : W) (evts ret : list E)
    : W * list E :=
    match evts with
    | [] => (w, ret)
    | ev :: t =>
        let (w1, scattered) := scatterM w ev in
        processM_loop scatterM w1 t
          (ret ++ filter (fun e => negb (wasAbsorbed e)) scattered)
    end.

  (** _processM_T. mcni/lib/mcni/process_neutron_events.cc lines 67-93 *)
  Definition processM_T (scatterM : W -> E -> W * list E) (w : W) (evts : list E) : W * list E :=
    processM_loop scatterM w evts [].
End Sim.
