(** Properties C22 to C25: a run of the instrument. *)
From Coq Require Import List String Bool Permutation Lia Arith ZArith Reals Lra.
From Verif Require Import Base SimModel SimSpec SimProofs RotModel RotSpec RotProofs.
Import ListNotations.
Open Scope string_scope.
Open Scope list_scope.

(** ** A small instrument for the examples: a neutron is (x, probability), a
    placement is a position, the world is the log of what was seen. *)
Definition tiny_ev : Type := Z * Z.
Definition tiny_world : Type := list (string * list tiny_ev).
Definition tiny_sgn (e : tiny_ev) : option comparison := Some (Z.compare (snd e) 0).
Definition tiny_shift (a b : Z) (l : list tiny_ev) : list tiny_ev := map (fun e => (fst e + a - b, snd e)%Z) l.
(** logs its input and takes d off every probability *)
Definition tiny_dim (name : string) (d : Z) (at_ : Z) : component tiny_ev tiny_world Z :=
  mkC tiny_ev tiny_world Z name false
    (fun w ns => (w ++ [(name, ns)], Ok (map (fun e => (fst e, snd e - d)%Z) ns))) None (Ok at_).
(** raises *)
Definition tiny_broken (name : string) (at_ : Z) : component tiny_ev tiny_world Z :=
  mkC tiny_ev tiny_world Z name false (fun w ns => (w, Err NotImplementedError)) None (Ok at_).
Definition tiny_run := simulate tiny_ev tiny_world Z tiny_sgn tiny_shift 0%Z (Some false).


(** ** C22 *)
(** With distinct names, a run takes the beam through the components in the order
    of the list, each acting exactly once on the beam the previous one left,
    expressed in its own coordinates; at the end the beam is expressed in the
    coordinates of the laboratory, and the recorded number of samples is the
    number of neutrons the run started with. *)
Theorem C22_components_in_order :
  forall (E W PO : Type) (sgn : E -> option comparison)
         (transform : PO -> PO -> list E -> list E) (origin : PO)
         (ms : bool) (cs : list (component E W PO)) (w w' : W) (ns ns' : list E) (n : nat),
  usable_names E W PO cs -> placed E W PO cs ->
  simulate E W PO sgn transform origin (Some ms) cs w ns = (w', Ok (ns', n)) <->
  n = List.length ns /\
  exists first po last,
    keeps (alive E sgn) (transform origin origin ns) first /\
    through E W PO sgn transform ms cs origin w first po w' last /\
    keeps (alive E sgn) (transform po origin last) ns'.
Proof. intros. apply simulate_through; assumption. Qed.
Print Assumptions C22_components_in_order.

(** A run raises exactly when a component raises, with that exception, and no
    later component has acted. *)
Theorem C22_first_exception_stops :
  forall (E W PO : Type) (sgn : E -> option comparison)
         (transform : PO -> PO -> list E -> list E) (origin : PO)
         (ms : bool) (cs : list (component E W PO)) (w w' : W) (ns : list E) (e : exn),
  usable_names E W PO cs -> placed E W PO cs ->
  simulate E W PO sgn transform origin (Some ms) cs w ns = (w', Err e) <->
  exists first,
    keeps (alive E sgn) (transform origin origin ns) first /\
    stops E W PO sgn transform ms cs origin w first w' e.
Proof. intros. apply simulate_stops; assumption. Qed.
Print Assumptions C22_first_exception_stops.

(** In laboratory coordinates, with the real coordinate transformer: every
    component sees the beam as it is in the laboratory, from where it stands, and
    what it leaves behind is again a beam in the laboratory. *)
Theorem C22_laboratory_coordinates :
  forall (W : Type) (ms : bool) (cs : list (component event W placement)) (w w' : W)
         (ns ns' : list event) (n : nat),
  usable_names event W placement cs -> placed event W placement cs ->
  clear_path W lab_frame cs ->
  simulate event W placement prob_sgn transformer lab_frame (Some ms) cs w ns = (w', Ok (ns', n)) ->
  n = List.length ns /\
  exists lab', lab_through W ms cs w ns w' lab' /\ keeps (alive event prob_sgn) lab' ns'.
Proof. intros W ms cs w w' ns ns' n. apply simulate_lab. Qed.
Print Assumptions C22_laboratory_coordinates.

(** Finding: of two components with the same name the earlier one is lost without
    a message: the chain that is built does not depend on what it does or where it
    stands.  (This does not rest on how the chain is then executed.) *)
Theorem C22_same_name_is_dropped :
  forall (E W PO : Type) (origin : PO) (ctx : option bool)
         (pre mid post : list (component E W PO)) (c1 c1' c2 : component E W PO),
  c_name _ _ _ c1 = c_name _ _ _ c2 -> c_name _ _ _ c1' = c_name _ _ _ c2 ->
  c_abstract _ _ _ c1 = false -> c_abstract _ _ _ c1' = false ->
  (exists po, c_place _ _ _ c1 = Ok po) -> (exists po, c_place _ _ _ c1' = Ok po) ->
  create E W PO origin ctx (pre ++ c1 :: mid ++ c2 :: post) =
  create E W PO origin ctx (pre ++ c1' :: mid ++ c2 :: post).
Proof.
  intros E W PO origin ctx pre mid post c1 c1' c2 N1 N2 A1 A2 P1 P2.
  unfold create, enclosure.
  replace (dummy E W PO origin "dummyBegin" :: (pre ++ c1 :: mid ++ c2 :: post) ++ [dummy E W PO origin "dummyEnd"])
    with ((dummy E W PO origin "dummyBegin" :: pre) ++ c1 :: mid ++ c2 :: (post ++ [dummy E W PO origin "dummyEnd"]))
    by (cbn [app]; rewrite <- !app_assoc; cbn [app]; rewrite <- !app_assoc; reflexivity).
  replace (dummy E W PO origin "dummyBegin" :: (pre ++ c1' :: mid ++ c2 :: post) ++ [dummy E W PO origin "dummyEnd"])
    with ((dummy E W PO origin "dummyBegin" :: pre) ++ c1' :: mid ++ c2 :: (post ++ [dummy E W PO origin "dummyEnd"]))
    by (cbn [app]; rewrite <- !app_assoc; cbn [app]; rewrite <- !app_assoc; reflexivity).
  rewrite (create_loop_same_name E W PO ctx (dummy E W PO origin "dummyBegin" :: pre) c1 c1' mid c2
             (post ++ [dummy E W PO origin "dummyEnd"]) "self" [] []); auto.
Qed.
Print Assumptions C22_same_name_is_dropped.

(** "Every component is in the chain" is false of the code. *)
Theorem C22_every_component_runs_refuted :
  exists (cs cs' : list (component tiny_ev tiny_world Z)),
    cs <> cs' /\ map (c_process _ _ _) cs <> map (c_process _ _ _) cs' /\
    create _ _ _ 0%Z (Some false) cs = create _ _ _ 0%Z (Some false) cs'.
Proof.
  exists [tiny_dim "a" 1 0; tiny_dim "a" 2 0], [tiny_dim "a" 5 0; tiny_dim "a" 2 0].
  assert (NE : c_process _ _ _ (tiny_dim "a" 1 0) <> c_process _ _ _ (tiny_dim "a" 5 0)).
  { intro H. pose proof (f_equal (fun p => match snd (p [] [(0, 9)%Z]) with Ok l => map snd l | Err _ => [] end) H) as K.
    cbn in K. discriminate K. }
  split; [|split].
  - intro H. injection H as H. apply NE. exact H.
  - cbn [map]. intro H. injection H as H. apply NE. exact H.
  - apply (C22_same_name_is_dropped _ _ _ 0%Z (Some false) [] [] [] (tiny_dim "a" 1 0) (tiny_dim "a" 5 0) (tiny_dim "a" 2 0));
      try reflexivity; exists 0%Z; reflexivity.
Qed.
Print Assumptions C22_every_component_runs_refuted.

Example C22_example :
  let cs := [tiny_dim "a" 1 10; tiny_dim "b" 2 30] in
  usable_names _ _ _ cs /\ placed _ _ _ cs /\
  tiny_run cs [] [(100, 1); (101, 2); (102, 7)]%Z =
  ([("a", [(90, 1); (91, 2); (92, 7)]%Z); ("b", [(71, 1); (72, 6)]%Z)], Ok ([(102, 4)%Z], 3%nat)) /\
  tiny_run [tiny_dim "a" 1 10; tiny_broken "x" 20; tiny_dim "b" 2 30] [] [(100, 5)]%Z =
  ([("a", [(90, 5)]%Z)], Err NotImplementedError).
Proof.
  cbv zeta. split; [|split; [|split]].
  - split.
    + cbn. constructor; [intros [H|[]]; discriminate H|]. constructor; [intros []|constructor].
    + intros c [<-|[<-|[]]]; cbn; intuition discriminate.
  - intros c [<-|[<-|[]]]; cbn; split; try reflexivity; eexists; reflexivity.
  - vm_compute. reflexivity.
  - vm_compute. reflexivity.
Qed.

Example C22_laboratory_example :  (* a component one metre downstream, turned by 90 degrees *)
  forall (W : Type) (b : behaviour event W),
  let cs := [mkC event W placement "sample" false b None (Ok (mkV 0 0 1, Angles 0 90 0))] in
  usable_names _ _ _ cs /\ placed _ _ _ cs /\ clear_path W lab_frame cs.
Proof.
  intros W b. cbv zeta. split; [|split].
  - split; [cbn; constructor; [intros []|constructor]|].
    intros c [<-|[]]; cbn; intuition discriminate.
  - intros c [<-|[]]; cbn; split; [reflexivity|eexists; reflexivity].
  - assert (A9 : toMatrix (Angles 0 90 0) "degree" = mkM 0 0 (-1) 0 1 0 1 0 0).
    { unfold toMatrix, toMatrix_. change (is_degree "degree") with true. cbn. unfold toradian.
      replace (0 * Rtrigo1.PI / 180)%R with 0%R by field. replace (90 * Rtrigo1.PI / 180)%R with (Rtrigo1.PI / 2)%R by field.
      rewrite Rtrigo_def.cos_0, Rtrigo_def.sin_0, Rtrigo1.cos_PI2, Rtrigo1.sin_PI2. apply mkM_eq; ring. }
    assert (S1 : small (0 - 1) = false).
    { unfold small. apply negb_false_iff. apply Rltb_true. pose proof tol_small.
      unfold Rbasic_fun.Rabs. destruct (Rbasic_fun.Rcase_abs (0 - 1)); lra. }
    assert (N : forall p m, m00 m = 0%R -> clear_placement p m).
    { intros p m Z. assert (X : is_almost_I m = false) by (unfold is_almost_I; rewrite Z, S1; reflexivity).
      split; [intro H|intros _ H]; rewrite X in H; discriminate. }
    cbn [clear_path c_place]. exists (mkV 0 0 1, Angles 0 90 0).
    split; [reflexivity|]. split; [exact I|]. split.
    + unfold clear_step, lab_frame, relativePositionOrientation. cbn [fst snd]. rewrite toMatrix_0, A9.
      apply N. unfold matmul, transpose, I3; cbn. ring.
    + unfold clear_step, lab_frame, relativePositionOrientation. cbn [fst snd]. rewrite toMatrix_0, A9.
      apply N. unfold matmul, transpose, I3; cbn. ring.
Qed.

(** ** C23 *)
(** What a component is given is what the previous one left, in its own
    coordinates, without the neutrons whose probability is negative or zero; the
    others are all there, in order and unchanged.  Its output is passed on as it is. *)
Theorem C23_only_live_neutrons_presented :
  forall (E W PO : Type) (sgn : E -> option comparison)
         (transform : PO -> PO -> list E -> list E) (place : PO) (process : behaviour E W)
         (w : W) (ns : list E) (po : PO),
  exists seen,
    keeps (alive E sgn) (transform po place ns) seen /\
    node_update E W PO sgn transform (mkN E W PO place process) w ns po =
    (fst (process w seen),
     match snd (process w seen) with Ok out => Ok (out, place) | Err e => Err e end).
Proof.
  intros. eexists. split; [apply snapshot_all|]. unfold node_update. cbn [n_place n_method].
  destruct (process w _) as [w1 [out|e]]; reflexivity.
Qed.
Print Assumptions C23_only_live_neutrons_presented.

(** snapshot(n) looks at the first n entries and leaves out the dead ones among
    them (it does not go on until it has n). *)
Theorem C23_snapshot :
  forall (E : Type) (sgn : E -> option comparison) (n : nat) (l : list E),
  keeps (alive E sgn) (firstn n l) (snapshot E sgn n l).
Proof. exact snapshot_keeps. Qed.
Print Assumptions C23_snapshot.

(** After a run only neutrons that are alive are in the buffer. *)
Theorem C23_final_buffer :
  forall (E W PO : Type) (sgn : E -> option comparison)
         (transform : PO -> PO -> list E -> list E) (origin : PO)
         (ms : bool) (cs : list (component E W PO)) (w w' : W) (ns ns' : list E) (n : nat),
  usable_names E W PO cs -> placed E W PO cs ->
  simulate E W PO sgn transform origin (Some ms) cs w ns = (w', Ok (ns', n)) ->
  Forall (alive E sgn) ns'.
Proof.
  intros E W PO sgn transform origin ms cs w w' ns ns' n HN HP H.
  apply simulate_through in H; [|exact HN|exact HP]. destruct H as [_ [f [po [l [_ [_ K]]]]]].
  clear -K. induction K; auto.
Qed.
Print Assumptions C23_final_buffer.

(** Finding: "only absorbed neutrons (negative probability) disappear between
    components" is false: a neutron of probability zero, which the scattering
    loop keeps, is dropped before the next component. *)
Theorem C23_only_negative_dropped_refuted :
  exists (ns seen : list tiny_ev) (e : tiny_ev),
    process_T tiny_ev unit tiny_sgn (fun w x => (w, x)) tt ns = Some (tt, ns) /\
    snapshot tiny_ev tiny_sgn (List.length ns) ns = seen /\
    In e ns /\ not_absorbed tiny_ev tiny_sgn e /\ ~ In e seen.
Proof.
  exists [(1, 0); (2, 3)]%Z, [(2, 3)]%Z, (1, 0)%Z.
  split; [vm_compute; reflexivity|]. split; [vm_compute; reflexivity|].
  split; [left; reflexivity|]. split; [unfold not_absorbed; vm_compute; discriminate|].
  intros [H|[]]. discriminate H.
Qed.
Print Assumptions C23_only_negative_dropped_refuted.

Example C23_example :
  snapshot tiny_ev tiny_sgn 4%nat [(1, 5); (2, 0); (3, -1); (4, 2); (5, 9)]%Z = [(1, 5); (4, 2)]%Z.
Proof. reflexivity. Qed.

(** ** C24 *)
(** Applying a scatterer to a buffer in place: the scatterer is applied exactly
    once to each event of the buffer (in some order), what remains are exactly the
    results with a probability that is not negative, and there is never an access
    outside the buffer. *)
Theorem C24_each_event_scattered_once :
  forall (E W : Type) (sgn : E -> option comparison) (scatter : W -> E -> W * E) (w : W) (evts : list E),
  exists order w' outs kept,
    Permutation order evts /\
    scattered E W scatter w order w' outs /\
    keeps (not_absorbed E sgn) outs kept /\
    process_T E W sgn scatter w evts = Some (w', kept).
Proof. intros. apply process_T_spec. Qed.
Print Assumptions C24_each_event_scattered_once.

(** For a scatterer that does not depend on a state the remaining events are, up
    to order, the non-negative results. *)
Theorem C24_stateless :
  forall (E : Type) (sgn : E -> option comparison) (f : E -> E) (evts kept : list E) (w' : unit),
  process_T E unit sgn (fun w e => (w, f e)) tt evts = Some (w', kept) ->
  forall wanted, keeps (not_absorbed E sgn) (map f evts) wanted -> Permutation kept wanted.
Proof.
  intros E sgn f evts kept w' H wanted KW.
  destruct (process_T_spec E unit sgn (fun w e => (w, f e)) tt evts) as [order [w1 [outs [k [P [S [K R]]]]]]].
  rewrite R in H. injection H as _ <-.
  assert (outs = map f order).
  { clear -S. induction S; [reflexivity|]. cbn [map]. injection H as _ <-. f_equal. assumption. }
  subst outs.
  assert (Kf : k = filter (fun e => negb (wasAbsorbed E sgn e)) (map f order)).
  { eapply keeps_fun; [exact K|]. apply keeps_filter. apply absorbed_spec. }
  assert (Wf : wanted = filter (fun e => negb (wasAbsorbed E sgn e)) (map f evts)).
  { eapply keeps_fun; [exact KW|]. apply keeps_filter. apply absorbed_spec. }
  subst. clear -P. induction P; cbn [map filter].
  - constructor.
  - destruct (negb (wasAbsorbed E sgn (f x))); [constructor|]; assumption.
  - destruct (negb (wasAbsorbed E sgn (f x))), (negb (wasAbsorbed E sgn (f y))); try constructor; reflexivity.
  - etransitivity; eassumption.
Qed.
Print Assumptions C24_stateless.

(** With multiple scattering: one application per event, in order; the buffer
    becomes all the results, in order, without those of negative probability. *)
Theorem C24_multiple_scattering :
  forall (E W : Type) (sgn : E -> option comparison) (scatterM : W -> E -> W * list E) (w : W) (evts : list E),
  exists w' outs,
    scatteredM E W scatterM w evts w' outs /\
    exists kept, keeps (not_absorbed E sgn) (List.concat outs) kept /\
    processM_T E W sgn scatterM w evts = (w', kept).
Proof. intros. apply processM_T_spec. Qed.
Print Assumptions C24_multiple_scattering.

Example C24_example :  (* the state counts the applications; the events come in the order 1, 5, 4, 2, 3 *)
  process_T tiny_ev (list Z) tiny_sgn (fun w e => (w ++ [fst e], (fst e, snd e - 2)%Z)) []
    [(1, 1); (2, 5); (3, 0); (4, 2); (5, 1)]%Z
  = Some ([1; 5; 4; 2; 3]%Z, [(4, 0); (2, 3)]%Z) /\
  processM_T tiny_ev (list Z) tiny_sgn (fun w e => (w ++ [fst e], [e; (fst e, snd e - 2)%Z])) []
    [(1, 1); (2, 5)]%Z = ([1; 2]%Z, [(1, 1); (2, 5); (2, 3)]%Z).
Proof. split; vm_compute; reflexivity. Qed.

(** ** C25 *)
(** A group hands every member the same neutrons -- the live ones of the beam, in
    the coordinates of the member -- whatever the other members do to theirs, and
    the beam leaves the group unchanged. *)
Theorem C25_group_members_independent :
  forall (E W PO : Type) (sgn : E -> option comparison)
         (transform : PO -> PO -> list E -> list E) (origin : PO)
         (members : list (component E W PO)) (w w' : W) (ns out : list E),
  group_process E W PO sgn transform origin members w ns = (w', Ok out) <->
  out = ns /\ exists seen, keeps (alive E sgn) ns seen /\
                           visits E W PO transform origin seen members w w'.
Proof. intros. apply group_ok. Qed.
Print Assumptions C25_group_members_independent.

(** A McStas component with restore_neutron set leaves the live neutrons of its
    input in the buffer, whatever it does. *)
Theorem C25_restore_neutron :
  forall (E W : Type) (sgn : E -> option comparison) (cpp : behaviour E W) (w w' : W) (ns out : list E),
  proxy_process E W sgn true cpp w ns = (w', Ok out) -> keeps (alive E sgn) ns out.
Proof. intros E W sgn cpp w w' ns out. apply proxy_restore. Qed.
Print Assumptions C25_restore_neutron.

(** In the chain, such a component leaves exactly the neutrons it was given. *)
Theorem C25_restore_in_chain :
  forall (E W : Type) (sgn : E -> option comparison) (cpp : behaviour E W) (w w' : W) (before seen out : list E),
  keeps (alive E sgn) before seen ->
  proxy_process E W sgn true cpp w seen = (w', Ok out) -> out = seen.
Proof.
  intros E W sgn cpp w w' before seen out K H. apply proxy_restore in H.
  eapply keeps_fun; [exact H|]. eapply keeps_self. exact K.
Qed.
Print Assumptions C25_restore_in_chain.

Example C25_example :
  group_process tiny_ev tiny_world Z tiny_sgn tiny_shift 0%Z [tiny_dim "m1" 3 10; tiny_dim "m2" 1 20] []
    [(100, 1); (101, 0); (102, 7)]%Z =
  ([("m1", [(90, 1); (92, 7)]%Z); ("m2", [(80, 1); (82, 7)]%Z)], Ok [(100, 1); (101, 0); (102, 7)]%Z) /\
  proxy_process tiny_ev tiny_world tiny_sgn true (c_process _ _ _ (tiny_dim "m" 3 10)) [] [(100, 1); (102, 7)]%Z =
  ([("m", [(100, 1); (102, 7)]%Z)], Ok [(100, 1); (102, 7)]%Z).
Proof. split; vm_compute; reflexivity. Qed.
