(** Property C26: attributes of wrapped McStas components. *)
From Coq Require Import List String Bool ZArith.
From Verif Require Import Base ProxyModel ProxySpec ProxyProofs.
Import ListNotations.
Open Scope string_scope.
Open Scope list_scope.

(** After any history of assignments, readings and runs, the next run hands the C++ component, for every name other than
    restore_neutron, the value last assigned, or else the one given at construction, or else the default; and nothing under names that
    are neither parameters nor given at construction (an assignment to a misspelled parameter is ignored by the run). *)
Theorem C26_run_uses_last_assignment :
  forall (V : Type) (vFalse : V) (truthy : V -> bool) (params kwds : list (string * V)) (h : list (op V)) p' r used,
  once params -> once kwds ->
  process V truthy (after V truthy (init V vFalse params kwds) h) = (p', Ok (r, used)) ->
  forall n x, n <> "restore_neutron" -> intended params kwds h n x -> used n = x.
Proof.
  intros V vFalse truthy params kwds h p' r used O1 O2 H n x N I.
  rewrite (process_passes V truthy _ _ _ _ n H N), after_kwds, init_kwds by exact N.
  apply la_intended; assumption.
Qed.
Print Assumptions C26_run_uses_last_assignment.

(** Reading an attribute.  Not given at construction: the last value assigned, or the default of the parameter, or an AttributeError. *)
Theorem C26_reading_back :
  forall (V : Type) (vFalse : V) (truthy : V -> bool) (params kwds : list (string * V)) (h : list (op V)) (n : string),
  once params -> n <> "restore_neutron" -> unlisted kwds n ->
  let read := getattr V (after V truthy (init V vFalse params kwds) h) n in
  (forall v, last_assigned n h (Some v) -> read = Ok v) /\
  (forall v, last_assigned n h None -> lists params n v -> read = Ok v) /\
  (last_assigned n h None -> unlisted params n -> read = Err AttributeError).
Proof.
  intros V vFalse truthy params kwds h n O N U. cbv zeta. unfold getattr.
  rewrite after_dict, after_kwds, init_kwds, init_dict by exact N. unfold din. rewrite init_kwds by exact N.
  rewrite !(dupdate_unlisted V _ kwds) by exact U. change (dempty V n) with (@None V).
  destruct (listed_or V params n) as [[w L]|L].
  - rewrite (dupdate_listed V _ params n w O L). split; [|split].
    + intros v A. rewrite (la_spec V n h (Some v) A). reflexivity.
    + intros v A L2. rewrite (la_spec V n h None A).
      assert (E : dupdate V (dempty V) params n = Some v) by (apply dupdate_listed; assumption).
      rewrite (dupdate_listed V _ params n w O L) in E. injection E as ->. reflexivity.
    + intros _ L2. exfalso. exact (L2 w L).
  - rewrite (dupdate_unlisted V _ params) by exact L. change (dempty V n) with (@None V). split; [|split].
    + intros v A. rewrite (la_spec V n h (Some v) A). reflexivity.
    + intros v A L2. exfalso. exact (L v L2).
    + intros A _. rewrite (la_spec V n h None A). reflexivity.
Qed.
Print Assumptions C26_reading_back.

(** Finding: a parameter given at construction reads back as that first value for ever, although runs use the values assigned later. *)
Theorem C26_reading_back_is_stale :
  forall (V : Type) (vFalse : V) (truthy : V -> bool) (params kwds : list (string * V)) (h : list (op V)) (n : string) (v : V),
  once kwds -> n <> "restore_neutron" -> lists kwds n v ->
  getattr V (after V truthy (init V vFalse params kwds) h) n = Ok v.
Proof.
  intros V vFalse truthy params kwds h n v O N L. unfold getattr.
  rewrite after_dict, init_dict by exact N. unfold din. rewrite init_kwds by exact N.
  rewrite !(dupdate_listed V _ kwds n v O L). reflexivity.
Qed.
Print Assumptions C26_reading_back_is_stale.

Theorem C26_reading_back_refuted :
  exists (h : list (op Z)) (v w : Z) p' r used,
    let p := after Z (Z.eqb 1) (init Z 0%Z [("width", 1%Z)] [("width", v)]) h in
    last_assigned "width" h (Some w) /\ getattr Z p "width" = Ok v /\ v <> w /\
    process Z (Z.eqb 1) p = (p', Ok (r, used)) /\ used "width" = Some w.
Proof.
  exists [OSet "width" 7%Z], 5%Z, 7%Z. do 3 eexists. cbv zeta. split; [|split; [|split; [|split]]].
  - apply (la_last "width" [] 7%Z []). intros u [].
  - reflexivity.
  - discriminate.
  - reflexivity.
  - reflexivity.
Qed.
Print Assumptions C26_reading_back_refuted.

(** The flag restore_neutron, for a component that has no parameter of that name, when it is not given at construction: each run uses
    the value last assigned, or False; it is never handed to the C++ component. *)
Theorem C26_restore_flag :
  forall (V : Type) (vFalse : V) (truthy : V -> bool) (params kwds : list (string * V)) (h : list (op V)) x,
  unlisted params "restore_neutron" -> unlisted kwds "restore_neutron" ->
  last_assigned "restore_neutron" h x ->
  exists p' used,
    process V truthy (after V truthy (init V vFalse params kwds) h)
    = (p', Ok (match x with Some v => truthy v | None => truthy vFalse end, used)) /\
    used "restore_neutron" = None.
Proof.
  intros V vFalse truthy params kwds h x U1 U2 L.
  destruct (plain_restore V vFalse truthy params kwds h U1 U2) as [K D].
  rewrite (la_spec V _ _ _ L) in D.
  unfold process, getattr. cbn [p_dict p_kwds]. rewrite D. unfold cpp_instance. cbn [p_cpp p_kwds p_dict].
  destruct x as [v|]; do 2 eexists; (split; [reflexivity|]); unfold ddel; reflexivity.
Qed.
Print Assumptions C26_restore_flag.

(** Finding: a component that has a parameter restore_neutron (PSD_TEW_monitor) which is not given at construction can be run once; every
    later run raises AttributeError, unless restore_neutron is assigned in between. *)
Theorem C26_second_run_fails :
  forall (V : Type) (vFalse : V) (truthy : V -> bool) (params kwds : list (string * V)) (v : V) (a b : list (op V)) (o : op V),
  once params -> lists params "restore_neutron" v -> unlisted kwds "restore_neutron" ->
  ~ In OProcess a -> ~ In OTouch a -> (o = OProcess \/ o = OTouch) ->
  (forall u, ~ In (OSet "restore_neutron" u) b) ->
  exists p', process V truthy (after V truthy (init V vFalse params kwds) (a ++ o :: b)) = (p', Err AttributeError).
Proof. intros V vFalse truthy params kwds v a b o. apply second_run_fails. Qed.
Print Assumptions C26_second_run_fails.

(** Finding: restore_neutron given at construction cannot be changed before the first run. *)
Theorem C26_restore_assignment_refuted :
  exists (h : list (op Z)) (p' : proxy Z) (used : dict Z),
    last_assigned "restore_neutron" h (Some 0%Z) /\
    process Z (Z.eqb 1) (after Z (Z.eqb 1) (init Z 0%Z [] [("restore_neutron", 1%Z)]) h) = (p', Ok (true, used)).
Proof.
  exists [OSet "restore_neutron" 0%Z]. do 2 eexists. split.
  - apply (la_last "restore_neutron" [] 0%Z []). intros u [].
  - reflexivity.
Qed.
Print Assumptions C26_restore_assignment_refuted.

Example C26_example :  (* defaults, construction, assignments, two runs *)
  let params := [("nchan", 20); ("width", 1)]%Z in let kwds := [("name", 100); ("width", 2)]%Z in
  let h := [OSet "nchan" 30; OProcess; OSet "width" 3; OGet "width"]%Z in
  once params /\ once kwds /\ unlisted params "restore_neutron" /\ unlisted kwds "restore_neutron" /\
  intended params kwds h "width" (Some 3%Z) /\ intended params kwds h "nchan" (Some 30%Z) /\ intended params kwds h "name" (Some 100%Z) /\
  match process Z (Z.eqb 1) (after Z (Z.eqb 1) (init Z 0%Z params kwds) h) with
  | (_, Ok (r, used)) => (r, used "nchan", used "width", used "name", used "nchann") = (false, Some 30, Some 3, Some 100, None)%Z
  | _ => False
  end.
Proof.
  cbv zeta. split; [|split; [|split; [|split; [|split; [|split; [|split]]]]]].
  - unfold once; cbn. constructor; [intros [H|[]]; discriminate H|constructor; [intros []|constructor]].
  - unfold once; cbn. constructor; [intros [H|[]]; discriminate H|constructor; [intros []|constructor]].
  - intros v [H|[H|[]]]; discriminate H.
  - intros v [H|[H|[]]]; discriminate H.
  - apply in_assigned with (w := 1%Z); [|left; right; left; reflexivity].
    apply (la_last "width" [OSet "nchan" 30%Z; OProcess] 3%Z [OGet "width"]). intros u [H|[]]; discriminate H.
  - apply in_assigned with (w := 20%Z); [|left; left; reflexivity].
    apply (la_last "nchan" [] 30%Z [OProcess; OSet "width" 3%Z; OGet "width"]). intros u [H|[H|[H|[]]]]; discriminate H.
  - apply in_given; [|left; reflexivity]. apply la_never. intros v [H|[H|[H|[H|[]]]]]; discriminate H.
  - vm_compute. reflexivity.
Qed.
