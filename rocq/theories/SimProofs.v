(** Proofs about a run of the instrument. *)
From Coq Require Import List String Bool Permutation Lia Arith.
From Verif Require Import Base SimModel SimSpec.
Import ListNotations.
Open Scope string_scope.
Open Scope list_scope.

Lemma keeps_filter {A} (P : A -> Prop) (f : A -> bool) :
  (forall x, f x = true <-> P x) -> forall l, keeps P l (filter f l).
Proof.
  intros H l. induction l as [|x l IH]; simpl; [constructor|].
  destruct (f x) eqn:F.
  - constructor; [apply H; exact F|exact IH].
  - constructor; [intro C; apply H in C; congruence|exact IH].
Qed.

Lemma keeps_fun {A} (P : A -> Prop) l a b : keeps P l a -> keeps P l b -> a = b.
Proof.
  intros Ha. revert b. induction Ha; intros b Hb; inversion Hb; subst; try contradiction; auto.
  f_equal; auto.
Qed.

Lemma keeps_self {A} (P : A -> Prop) l l' : keeps P l l' -> keeps P l' l'.
Proof. induction 1; [constructor|constructor; auto|auto]. Qed.

Section Sim.
  Variables E W PO : Type.
  Variable sgn : E -> option comparison.
  Variable transform : PO -> PO -> list E -> list E.
  Variable origin : PO.
  Notation component := (component E W PO).
  Notation c_name := (c_name E W PO).
  Notation c_place := (c_place E W PO).
  Notation c_abstract := (c_abstract E W PO).
  Notation c_process := (c_process E W PO).
  Notation c_processM := (c_processM E W PO).
  Notation node := (node E W PO).
  Notation mkN := (mkN E W PO).
  Notation node_update := (node_update E W PO sgn transform).
  Notation pull := (pull E W PO sgn transform).

  Lemma valid_alive e : negb (isInValid E sgn e) = true <-> alive E sgn e.
  Proof.
    unfold isInValid, alive. destruct (sgn e) as [[| |]|]; simpl; split; intro H; auto;
      try discriminate; destruct H; congruence.
  Qed.

  Lemma snapshot_keeps n l : keeps (alive E sgn) (firstn n l) (snapshot E sgn n l).
  Proof. apply keeps_filter. apply valid_alive. Qed.

  Lemma snapshot_all l : keeps (alive E sgn) l (snapshot E sgn (List.length l) l).
  Proof. pose proof (snapshot_keeps (List.length l) l) as H. rewrite firstn_all in H. exact H. Qed.

  Definition method (ms : bool) (c : component) : behaviour E W :=
    match ms, c_processM c with true, Some m => m | _, _ => c_process c end.

  Lemma method_acts ms c w ns : method ms c w ns = acts E W PO ms c w ns.
  Proof. unfold method, acts. destruct ms, (c_processM c); reflexivity. Qed.

  Lemma choose_ok ms c : choose_method E W PO (Some ms) c = Ok (method ms c).
  Proof. unfold choose_method, method. destruct ms, (c_processM c); reflexivity. Qed.

  Definition place_of (c : component) : PO := match c_place c with Ok p => p | Err _ => origin end.
  Definition node_of (ms : bool) (c : component) : node := mkN (place_of c) (method ms c).

  Fixpoint chain (p : string) (l : list string) : list (string * string) :=
    match l with [] => [] | k :: t => (p, k) :: chain k t end.

  Lemma nset_new d k v : ~ In k (map fst d) -> nset E W PO d k v = d ++ [(k, v)].
  Proof.
    induction d as [|[a b] d IH]; simpl; intro H; [reflexivity|].
    destruct (String.eqb_spec a k); [exfalso; auto|]. rewrite IH; auto.
  Qed.

  Lemma last_cons {A} (x : A) l d : last (x :: l) d = last l x.
  Proof.
    revert x d; induction l as [|y l IH]; intros x d; [reflexivity|].
    change (last (x :: y :: l) d) with (last (y :: l) d). rewrite IH.
    change (last (y :: l) x) with (last (y :: l) x). rewrite IH. reflexivity.
  Qed.

  Lemma create_loop_ok ms cs p nodes conns :
    placed E W PO cs ->
    NoDup (map fst nodes ++ map c_name cs) ->
    create_loop E W PO (Some ms) cs p nodes conns =
    Ok (nodes ++ map (fun c => (c_name c, node_of ms c)) cs,
        conns ++ chain p (map c_name cs),
        last (map c_name cs) p).
  Proof.
    revert p nodes conns. induction cs as [|c cs IH]; intros p nodes conns HP ND.
    - cbn. rewrite !app_nil_r. reflexivity.
    - cbn [create_loop]. destruct (HP c (or_introl eq_refl)) as [HA [po Hpo]].
      rewrite Hpo. cbn [bind]. rewrite choose_ok. cbn [bind]. rewrite HA.
      assert (NI : ~ In (c_name c) (map fst nodes)).
      { cbn [map] in ND. apply NoDup_remove in ND. intro I. apply (proj2 ND).
        apply in_or_app. left. exact I. }
      rewrite nset_new by exact NI. rewrite IH.
      + cbn [map chain]. rewrite last_cons. rewrite <- !app_assoc. cbn [app].
        unfold node_of, place_of. rewrite Hpo. reflexivity.
      + intros c' I. apply HP. right. exact I.
      + rewrite map_app. cbn [map fst]. rewrite <- app_assoc. exact ND.
  Qed.

  Lemma nget_in (l : list component) ms c :
    NoDup (map c_name l) -> In c l ->
    nget E W PO (map (fun c => (c_name c, node_of ms c)) l) (c_name c) = Some (node_of ms c).
  Proof.
    induction l as [|d l IH]; intros ND I; [destruct I|].
    cbn [map nget]. cbn [map] in ND. apply NoDup_cons_iff in ND. destruct ND as [NI ND].
    destruct I as [->|I].
    - rewrite String.eqb_refl. reflexivity.
    - destruct (String.eqb_spec (c_name d) (c_name c)) as [e|e].
      + exfalso. apply NI. rewrite e. apply in_map. exact I.
      + auto.
  Qed.

  Lemma source_chain p a k b tail :
    NoDup (a ++ k :: b) ->
    source_of (chain p (a ++ k :: b) ++ tail) k = Some (last a p).
  Proof.
    revert p. induction a as [|x a IH]; intros p ND.
    - cbn. rewrite String.eqb_refl. reflexivity.
    - cbn [app chain source_of]. cbn [app] in ND. apply NoDup_cons_iff in ND. destruct ND as [NI ND].
      destruct (String.eqb_spec x k) as [e|e].
      + exfalso. apply NI. subst. apply in_or_app. right. left. reflexivity.
      + rewrite IH by exact ND. rewrite last_cons. reflexivity.
  Qed.

  Lemma source_self p l k :
    ~ In "self" l -> source_of (chain p l ++ [(k, "self")]) "self" = Some k.
  Proof.
    revert p. induction l as [|x l IH]; intros p NI; [reflexivity|].
    cbn [chain app source_of]. destruct (String.eqb_spec x "self").
    - exfalso. apply NI. left. exact e.
    - apply IH. intro I. apply NI. right. exact I.
  Qed.

  Fixpoint go (ms : bool) (cs : list component) (po : PO) (w : W) (ns : list E)
    : W * result (list E * PO) :=
    match cs with
    | [] => (w, Ok (ns, po))
    | c :: t =>
        match node_update (node_of ms c) w ns po with
        | (w1, Ok (ns1, po1)) => go ms t po1 w1 ns1
        | (w1, Err e) => (w1, Err e)
        end
    end.

  Lemma go_app ms a b po w ns :
    go ms (a ++ b) po w ns =
    match go ms a po w ns with
    | (w1, Ok (ns1, po1)) => go ms b po1 w1 ns1
    | (w1, Err e) => (w1, Err e)
    end.
  Proof.
    revert po w ns. induction a as [|c a IH]; intros po w ns; [reflexivity|].
    cbn [app go]. destruct (node_update (node_of ms c) w ns po) as [w1 [[ns1 po1]|e]]; auto.
  Qed.

  Lemma pull_prefix ms a : forall b w ns tail fuel,
    NoDup (map c_name (a ++ b)) -> ~ In "self" (map c_name (a ++ b)) ->
    (List.length a < fuel)%nat ->
    pull fuel (map (fun c => (c_name c, node_of ms c)) (a ++ b))
         (chain "self" (map c_name (a ++ b)) ++ tail) (ns, origin)
         (last (map c_name a) "self") w
    = go ms a origin w ns.
  Proof.
    induction a as [|c a IH] using rev_ind; intros b w ns tail fuel ND NS HF.
    - destruct fuel; [cbn in HF; lia|]. reflexivity.
    - destruct fuel; [lia|].
      rewrite app_length in HF. cbn [List.length] in HF.
      assert (HL : last (map c_name (a ++ [c])) "self" = c_name c).
      { rewrite map_app. cbn [map]. apply last_last. }
      rewrite HL. cbn [SimModel.pull].
      assert (I : In c ((a ++ [c]) ++ b)).
      { apply in_or_app. left. apply in_or_app. right. left. reflexivity. }
      destruct (String.eqb_spec (c_name c) "self") as [e|_].
      { exfalso. apply NS. rewrite <- e. apply in_map. exact I. }
      rewrite (nget_in _ ms c ND I).
      rewrite <- app_assoc in *. cbn [app] in *.
      assert (S : source_of (chain "self" (map c_name (a ++ c :: b)) ++ tail) (c_name c)
                  = Some (last (map c_name a) "self")).
      { rewrite map_app. cbn [map]. apply source_chain.
        rewrite map_app in ND. exact ND. }
      rewrite S. rewrite IH by (assumption || lia).
      rewrite go_app. destruct (go ms a origin w ns) as [w1 [[ns1 po1]|e]]; [|reflexivity].
      cbn [go]. destruct (node_update (node_of ms c) w1 ns1 po1) as [w2 [[ns2 po2]|e]]; reflexivity.
  Qed.

  Lemma enclosure_facts cs : usable_names E W PO cs -> placed E W PO cs ->
    NoDup (map c_name (enclosure E W PO origin cs)) /\
    ~ In "self" (map c_name (enclosure E W PO origin cs)) /\
    placed E W PO (enclosure E W PO origin cs).
  Proof.
    intros [ND NR] HP. unfold enclosure. split; [|split].
    - cbn [map]. rewrite map_app. cbn [map SimModel.c_name dummy].
      assert (NB : forall r, In r ["self"; "dummyBegin"; "dummyEnd"] -> ~ In r (map c_name cs)).
      { intros r Hr I. apply in_map_iff in I. destruct I as [c [Ec Ic]].
        apply (NR c Ic). rewrite Ec. exact Hr. }
      apply NoDup_cons.
      + intro I. apply in_app_or in I. destruct I as [I|I].
        * apply (NB "dummyBegin"); [right; left; reflexivity|exact I].
        * destruct I as [I|[]]. discriminate I.
      + apply NoDup_rev in ND. rewrite <- (rev_involutive (map c_name cs ++ ["dummyEnd"])).
        apply NoDup_rev. rewrite rev_app_distr. cbn [rev app].
        apply NoDup_cons; [|exact ND].
        intro I. apply in_rev in I. apply (NB "dummyEnd"); [right; right; left; reflexivity|exact I].
    - intro I. apply in_map_iff in I. destruct I as [c [Ec Ic]].
      destruct Ic as [<-|Ic]; [discriminate Ec|].
      apply in_app_or in Ic. destruct Ic as [Ic|[<-|[]]]; [|discriminate Ec].
      apply (NR c Ic). rewrite Ec. left. reflexivity.
    - intros c [<-|I]; [split; [reflexivity|exists origin; reflexivity]|].
      apply in_app_or in I. destruct I as [I|[<-|[]]]; [auto|].
      split; [reflexivity|exists origin; reflexivity].
  Qed.

  Lemma chain_length p l : List.length (chain p l) = List.length l.
  Proof. revert p. induction l; simpl; auto. Qed.

  Lemma simulate_go ms cs w ns :
    usable_names E W PO cs -> placed E W PO cs ->
    simulate E W PO sgn transform origin (Some ms) cs w ns =
    match go ms (enclosure E W PO origin cs) origin w ns with
    | (w1, Ok (ns1, _)) => (w1, Ok (ns1, List.length ns))
    | (w1, Err e) => (w1, Err e)
    end.
  Proof.
    intros HN HP. destruct (enclosure_facts cs HN HP) as [ND [NS PL]].
    unfold simulate, create.
    rewrite create_loop_ok; [|exact PL|exact ND]. cbn [bind].
    set (l := enclosure E W PO origin cs) in *. cbn [app].
    rewrite source_self by exact NS.
    pose proof (pull_prefix ms l [] w ns [(last (map c_name l) "self", "self")]) as PP.
    rewrite app_nil_r in PP. rewrite PP; [reflexivity|exact ND|exact NS|].
    rewrite app_length, chain_length, map_length. lia.
  Qed.

  Lemma go_through ms cs : placed E W PO cs -> forall po w ns po' w' ns',
    go ms cs po w ns = (w', Ok (ns', po')) <-> through E W PO sgn transform ms cs po w ns po' w' ns'.
  Proof.
    induction cs as [|c cs IH]; intros HP po w ns po' w' ns'.
    - cbn. split; intro H; [inversion H; constructor|inversion H; reflexivity].
    - destruct (HP c (or_introl eq_refl)) as [_ [pc Hpc]].
      assert (HP' : placed E W PO cs) by (intros d I; apply HP; right; exact I).
      cbn [go]. unfold SimModel.node_update. cbn [n_place n_method node_of].
      assert (Epc : place_of c = pc) by (unfold place_of; rewrite Hpc; reflexivity).
      rewrite Epc.
      pose proof (snapshot_all (transform po pc ns)) as HK. 
      set (seen := snapshot E sgn (List.length (transform po pc ns)) (transform po pc ns)) in *.
      rewrite method_acts.
      split.
      + destruct (acts E W PO ms c w seen) as [w1 [ns1|e]] eqn:HA; [|discriminate].
        intro H. apply IH in H; [|exact HP']. econstructor; eauto.
      + intro H. inversion H; subst. 
        match goal with K : c_place c = Ok ?p |- _ => rewrite Hpc in K; inversion K; subst end.
        match goal with K : keeps _ _ ?s |- _ =>
          assert (s = seen) by (eapply keeps_fun; [exact K|exact HK]); subst s end.
        match goal with K : acts _ _ _ _ _ _ _ = _ |- _ => rewrite K end.
        apply IH; assumption.
  Qed.

  Lemma go_stops ms cs : placed E W PO cs -> forall po w ns w' e,
    go ms cs po w ns = (w', Err e) <-> stops E W PO sgn transform ms cs po w ns w' e.
  Proof.
    induction cs as [|c cs IH]; intros HP po w ns w' e.
    - cbn. split; intro H; inversion H.
    - destruct (HP c (or_introl eq_refl)) as [_ [pc Hpc]].
      assert (HP' : placed E W PO cs) by (intros d I; apply HP; right; exact I).
      cbn [go]. unfold SimModel.node_update. cbn [n_place n_method node_of].
      assert (Epc : place_of c = pc) by (unfold place_of; rewrite Hpc; reflexivity).
      rewrite Epc.
      pose proof (snapshot_all (transform po pc ns)) as HK. 
      set (seen := snapshot E sgn (List.length (transform po pc ns)) (transform po pc ns)) in *.
      rewrite method_acts.
      split.
      + destruct (acts E W PO ms c w seen) as [w1 [ns1|e1]] eqn:HA; intro H.
        * apply IH in H; [|exact HP']. eapply stops_later; eauto.
        * inversion H; subst. eapply stops_here; eauto.
      + intro H. inversion H; subst;
        match goal with K : c_place c = Ok ?p |- _ => rewrite Hpc in K; inversion K; subst end;
        match goal with K : keeps _ _ ?s |- _ =>
          assert (s = seen) by (eapply keeps_fun; [exact K|exact HK]); subst s end;
        match goal with K : acts _ _ _ _ _ _ _ = _ |- _ => rewrite K end;
        [reflexivity|apply IH; assumption].
  Qed.

  Lemma through_app ms a b po w ns po' w' ns' :
    through E W PO sgn transform ms (a ++ b) po w ns po' w' ns' <->
    exists po1 w1 ns1, through E W PO sgn transform ms a po w ns po1 w1 ns1 /\
                       through E W PO sgn transform ms b po1 w1 ns1 po' w' ns'.
  Proof.
    split.
    - revert po w ns. induction a as [|c a IH]; intros po w ns H.
      + exists po, w, ns. split; [constructor|exact H].
      + inversion H; subst. match goal with K : through _ _ _ _ _ _ (a ++ b) _ _ _ _ _ _ |- _ => apply IH in K; destruct K as [p1 [w2 [n2 [A B]]]] end.
        exists p1, w2, n2. split; [econstructor; eauto|exact B].
    - intros [po1 [w1 [ns1 [A B]]]]. induction A; [exact B|]. econstructor; eauto.
  Qed.

  Lemma through_dummy ms name po w ns po' w' ns' :
    through E W PO sgn transform ms [dummy E W PO origin name] po w ns po' w' ns' <->
    po' = origin /\ w' = w /\ keeps (alive E sgn) (transform po origin ns) ns'.
  Proof.
    split.
    - intro H. inversion H; subst.
      match goal with K : through _ _ _ _ _ _ [] _ _ _ _ _ _ |- _ => inversion K; subst end.
      match goal with K : acts _ _ _ _ _ _ _ = _ |- _ => cbn in K; inversion K; subst end.
      match goal with K : SimModel.c_place _ _ _ (dummy _ _ _ _ _) = _ |- _ => cbn in K; inversion K; subst end.
      auto.
    - intros [-> [-> K]]. econstructor; [reflexivity|exact K|reflexivity|constructor].
  Qed.

  Lemma simulate_through ms cs w ns w' ns' n :
    usable_names E W PO cs -> placed E W PO cs ->
    simulate E W PO sgn transform origin (Some ms) cs w ns = (w', Ok (ns', n)) <->
    n = List.length ns /\
    exists first po last,
      keeps (alive E sgn) (transform origin origin ns) first /\
      through E W PO sgn transform ms cs origin w first po w' last /\
      keeps (alive E sgn) (transform po origin last) ns'.
  Proof.
    intros HN HP. rewrite simulate_go by assumption.
    destruct (enclosure_facts cs HN HP) as [_ [_ PL]].
    split.
    - destruct (go ms (enclosure E W PO origin cs) origin w ns) as [w1 [[ns1 po1]|e]] eqn:G; [|discriminate].
      intro H. inversion H; subst. split; [reflexivity|].
      apply go_through in G; [|exact PL]. unfold enclosure in G.
      change (dummy E W PO origin "dummyBegin" :: cs ++ [dummy E W PO origin "dummyEnd"])
        with ([dummy E W PO origin "dummyBegin"] ++ cs ++ [dummy E W PO origin "dummyEnd"]) in G.
      apply through_app in G. destruct G as [p1 [w1 [n1 [A B]]]].
      apply through_dummy in A. destruct A as [-> [-> A]].
      apply through_app in B. destruct B as [p2 [w2 [n2 [B C]]]].
      apply through_dummy in C. destruct C as [-> [-> C]].
      exists n1, p2, n2. auto.
    - intros [-> [first [po [last [A [B C]]]]]].
      assert (G : go ms (enclosure E W PO origin cs) origin w ns = (w', Ok (ns', origin))).
      { apply go_through; [exact PL|]. unfold enclosure.
        change (dummy E W PO origin "dummyBegin" :: cs ++ [dummy E W PO origin "dummyEnd"])
          with ([dummy E W PO origin "dummyBegin"] ++ cs ++ [dummy E W PO origin "dummyEnd"]).
        apply through_app. exists origin, w, first. split; [apply through_dummy; auto|].
        apply through_app. exists po, w', last. split; [exact B|apply through_dummy; auto]. }
      rewrite G. reflexivity.
  Qed.

  Lemma stops_app ms a b po w ns w' e :
    stops E W PO sgn transform ms (a ++ b) po w ns w' e <->
    stops E W PO sgn transform ms a po w ns w' e \/
    exists po1 w1 ns1, through E W PO sgn transform ms a po w ns po1 w1 ns1 /\
                       stops E W PO sgn transform ms b po1 w1 ns1 w' e.
  Proof.
    split.
    - revert po w ns. induction a as [|c a IH]; intros po w ns H.
      + right. exists po, w, ns. split; [constructor|exact H].
      + inversion H; subst.
        * left. eapply stops_here; eauto.
        * match goal with K : stops _ _ _ _ _ _ (a ++ b) _ _ _ _ _ |- _ => apply IH in K; destruct K as [K|[p1 [w2 [n2 [A B]]]]] end.
          -- left. eapply stops_later; eauto.
          -- right. exists p1, w2, n2. split; [econstructor; eauto|exact B].
    - intros [H|[po1 [w1 [ns1 [A B]]]]].
      + induction H; [eapply stops_here; eauto|eapply stops_later; eauto].
      + induction A; [exact B|eapply stops_later; eauto].
  Qed.

  Lemma stops_dummy ms name po w ns w' e :
    ~ stops E W PO sgn transform ms [dummy E W PO origin name] po w ns w' e.
  Proof.
    intro H. inversion H; subst.
    - match goal with K : acts _ _ _ _ _ _ _ = _ |- _ => cbn in K; inversion K end.
    - match goal with K : stops _ _ _ _ _ _ [] _ _ _ _ _ |- _ => inversion K end.
  Qed.

  Lemma simulate_stops ms cs w ns w' e :
    usable_names E W PO cs -> placed E W PO cs ->
    simulate E W PO sgn transform origin (Some ms) cs w ns = (w', Err e) <->
    exists first,
      keeps (alive E sgn) (transform origin origin ns) first /\
      stops E W PO sgn transform ms cs origin w first w' e.
  Proof.
    intros HN HP. rewrite simulate_go by assumption.
    destruct (enclosure_facts cs HN HP) as [_ [_ PL]].
    assert (Q : stops E W PO sgn transform ms (enclosure E W PO origin cs) origin w ns w' e <->
            exists first,
              keeps (alive E sgn) (transform origin origin ns) first /\
              stops E W PO sgn transform ms cs origin w first w' e).
    { unfold enclosure.
      change (dummy E W PO origin "dummyBegin" :: cs ++ [dummy E W PO origin "dummyEnd"])
        with ([dummy E W PO origin "dummyBegin"] ++ cs ++ [dummy E W PO origin "dummyEnd"]).
      rewrite stops_app. split.
      - intros [H|[p1 [w1 [n1 [A B]]]]]; [apply stops_dummy in H; contradiction|].
        apply through_dummy in A. destruct A as [-> [-> A]].
        apply stops_app in B. destruct B as [B|[p2 [w2 [n2 [_ B]]]]]; [eauto|apply stops_dummy in B; contradiction].
      - intros [first [A B]]. right. exists origin, w, first. split; [apply through_dummy; auto|].
        apply stops_app. left. exact B. }
    rewrite <- Q. rewrite <- go_stops by exact PL.
    destruct (go ms (enclosure E W PO origin cs) origin w ns) as [w1 [[ns1 po1]|e1]]; split; intro H; inversion H; reflexivity.
  Qed.

  (** ** names used twice *)

  Lemma nset_twice d k v v' : nset E W PO (nset E W PO d k v) k v' = nset E W PO d k v'.
  Proof.
    induction d as [|[a b] d IH]; cbn [nset].
    - rewrite String.eqb_refl. reflexivity.
    - destruct (String.eqb_spec a k) as [->|n]; cbn [nset].
      + rewrite String.eqb_refl. reflexivity.
      + destruct (String.eqb_spec a k); [contradiction|]. rewrite IH. reflexivity.
  Qed.

  (** same dictionary except for the value stored under k *)
  Definition same_but (k : string) (d d' : list (string * node)) : Prop :=
    map fst d = map fst d' /\ forall v, nset E W PO d k v = nset E W PO d' k v.

  Lemma same_but_set k d d' j v : same_but k d d' ->
    same_but k (nset E W PO d j v) (nset E W PO d' j v).
  Proof.
    intros [HF HS]. destruct (String.eqb_spec j k) as [->|n].
    - rewrite (HS v). split; [reflexivity|auto].
    - split.
      + clear HS. revert d' HF. induction d as [|[a b] d IH]; intros [|[a' b'] d'] HF; try discriminate; [reflexivity|].
        cbn in HF. inversion HF; subst. cbn [nset]. destruct (String.eqb_spec a' j); cbn [map fst]; f_equal; auto.
      + intro u. revert d' HF HS. induction d as [|[a b] d IH]; intros [|[a' b'] d'] HF HS; try discriminate; [reflexivity|].
        cbn in HF. inversion HF as [[H1 H2]]; subst. cbn [nset].
        destruct (String.eqb_spec a' j) as [->|nj]; cbn [nset].
        * destruct (String.eqb_spec j k) as [e|_]; [contradiction|].
          specialize (HS u). cbn [nset] in HS. destruct (String.eqb_spec j k) as [e|_]; [contradiction|].
          inversion HS as [[H3 H4]]. reflexivity.
        * destruct (String.eqb_spec a' k) as [->|nk].
          -- specialize (HS u). cbn [nset] in HS. rewrite String.eqb_refl in HS. inversion HS as [H3]. reflexivity.
          -- assert (b = b').
             { specialize (HS u). cbn [nset] in HS. destruct (String.eqb_spec a' k); [contradiction|]. inversion HS; reflexivity. }
             subst. f_equal. apply IH; [exact H2|].
             intro v0. specialize (HS v0). cbn [nset] in HS. destruct (String.eqb_spec a' k); [contradiction|]. inversion HS; reflexivity.
  Qed.

  Lemma create_loop_forgets ctx k mid c2 rest : c_name c2 = k -> forall p d d' conns,
    same_but k d d' ->
    create_loop E W PO ctx (mid ++ c2 :: rest) p d conns =
    create_loop E W PO ctx (mid ++ c2 :: rest) p d' conns.
  Proof.
    intros Hk. induction mid as [|c mid IH]; intros p d d' conns SB.
    - cbn [app create_loop]. destruct (c_place c2); [|reflexivity]. cbn [bind].
      destruct (choose_method E W PO ctx c2); [|reflexivity]. cbn [bind].
      rewrite Hk. rewrite (proj2 SB). reflexivity.
    - cbn [app create_loop]. destruct (c_place c); [|reflexivity]. cbn [bind].
      destruct (choose_method E W PO ctx c); [|reflexivity]. cbn [bind].
      destruct (c_abstract c); [reflexivity|]. apply IH. apply same_but_set. exact SB.
  Qed.

  Lemma create_loop_same_name ctx pre c1 c1' mid c2 post p d conns :
    c_name c1 = c_name c2 -> c_name c1' = c_name c2 ->
    c_abstract c1 = false -> c_abstract c1' = false ->
    (exists po, c_place c1 = Ok po) -> (exists po, c_place c1' = Ok po) ->
    create_loop E W PO ctx (pre ++ c1 :: mid ++ c2 :: post) p d conns =
    create_loop E W PO ctx (pre ++ c1' :: mid ++ c2 :: post) p d conns.
  Proof.
    intros N1 N2 A1 A2 [p1 P1] [p2 P2]. revert p d conns.
    induction pre as [|c pre IH]; intros p d conns.
    - cbn [app create_loop]. rewrite P1, P2. cbn [bind].
      destruct ctx as [ms|]; [|reflexivity]. rewrite !choose_ok. cbn [bind].
      rewrite A1, A2, N1, N2. apply create_loop_forgets with (k := c_name c2); [reflexivity|].
      split; [|intro v; rewrite !nset_twice; reflexivity].
      induction d as [|[a b] d IHd]; [reflexivity|]. cbn [nset].
      destruct (String.eqb a (c_name c2)); cbn [map fst]; [reflexivity|]. f_equal. exact IHd.
    - cbn [app create_loop]. destruct (c_place c); [|reflexivity]. cbn [bind].
      destruct (choose_method E W PO ctx c); [|reflexivity]. cbn [bind].
      destruct (c_abstract c); [reflexivity|]. apply IH.
  Qed.

  (** ** groups and monitors *)

  Lemma group_ok members w ns w' r :
    group_process E W PO sgn transform origin members w ns = (w', Ok r) <->
    r = ns /\ exists seen, keeps (alive E sgn) ns seen /\
                           visits E W PO transform origin seen members w w'.
  Proof.
    unfold group_process.
    assert (K := snapshot_all ns). set (seen := snapshot E sgn (List.length ns) ns) in *.
    assert (L : forall w w', group_loop E W PO sgn transform origin members w ns = (w', Ok tt) <->
                 visits E W PO transform origin seen members w w').
    { clear w w' r. induction members as [|c cs IH]; intros w w'.
      - cbn. split; intro H; inversion H; [constructor|reflexivity].
      - cbn [group_loop]. fold seen. split.
        + destruct (c_place c) as [po|e] eqn:P; [|discriminate].
          destruct (c_process c w (transform origin po seen)) as [w1 [n1|e]] eqn:Q; [|discriminate].
          intro H. apply IH in H. econstructor; eauto.
        + intro H. inversion H; subst.
          match goal with H1 : c_place c = _ |- _ => rewrite H1 end.
          match goal with H1 : c_process c w _ = _ |- _ => rewrite H1 end. apply IH. assumption. }
    split.
    - destruct (group_loop E W PO sgn transform origin members w ns) as [w1 [[]|e]] eqn:G; [|discriminate].
      intro H. inversion H; subst. split; [reflexivity|]. exists seen. split; [exact K|]. apply L. exact G.
    - intros [-> [s [Ks V]]]. assert (s = seen) by (eapply keeps_fun; eauto). subst s.
      apply L in V. rewrite V. reflexivity.
  Qed.

  Lemma proxy_restore cpp w ns w' r :
    proxy_process E W sgn true cpp w ns = (w', Ok r) ->
    keeps (alive E sgn) ns r.
  Proof.
    unfold proxy_process. destruct (cpp w ns) as [w1 [n1|e]]; intro H; inversion H; subst.
    apply snapshot_all.
  Qed.

  (** ** the C++ loops *)

  Lemma absorbed_spec e : negb (wasAbsorbed E sgn e) = true <-> not_absorbed E sgn e.
  Proof.
    unfold wasAbsorbed, not_absorbed. destruct (sgn e) as [[| |]|]; simpl; split; intro H; auto; congruence.
  Qed.

  Lemma vset_app (a : list E) x y b : vset E (a ++ x :: b) (List.length a) y = a ++ y :: b.
  Proof. induction a; simpl; congruence. Qed.

  Lemma nth_app (a : list E) x b : nth_error (a ++ x :: b) (List.length a) = Some x.
  Proof. induction a; simpl; auto. Qed.

  Lemma process_loop_spec scatter : forall todo w done gone fuel,
    (List.length todo <= fuel)%nat ->
    exists order w' outs kept lost,
      Permutation order todo /\
      scattered E W scatter w order w' outs /\
      keeps (not_absorbed E sgn) outs kept /\
      Permutation (outs) (kept ++ lost) /\
      (forall e, In e lost -> ~ not_absorbed E sgn e) /\
      process_loop E W sgn fuel scatter w (done ++ todo ++ gone) (List.length done)
                   (List.length done + List.length todo) =
      Some (w', done ++ kept ++ lost ++ gone, List.length done + List.length kept).
  Proof.
    intros todo. remember (List.length todo) as n eqn:Hn. revert todo Hn.
    induction n as [|n IH]; intros todo Hn w done gone fuel HF.
    - destruct todo; [|discriminate]. exists [], w, [], [], []. 
      split; [constructor|]. split; [constructor|]. split; [constructor|]. split; [constructor|].
      split; [intros e []|]. cbn [app]. rewrite Nat.add_0_r.
      destruct fuel; cbn [process_loop]; [cbn [List.length]; rewrite Nat.add_0_r; reflexivity|].
      rewrite Nat.ltb_irrefl. cbn [List.length]. rewrite Nat.add_0_r. reflexivity.
    - destruct todo as [|ev todo]; [discriminate|]. cbn [List.length] in Hn. injection Hn as Hn'.
      destruct fuel as [|fuel]; [lia|]. cbn [process_loop].
      replace (Nat.ltb (List.length done) (List.length done + S n)) with true
        by (symmetry; apply Nat.ltb_lt; lia).
      cbn [app]. rewrite nth_app. destruct (scatter w ev) as [w1 ev1] eqn:SC.
      rewrite vset_app.
      destruct (wasAbsorbed E sgn ev1) eqn:WA.
      + (* absorbed: exchange with the last one *)
        assert (NA : ~ not_absorbed E sgn ev1).
        { intro C. apply absorbed_spec in C. rewrite WA in C. discriminate. }
        destruct todo as [|z todo _] using rev_ind.
        * cbn [List.length] in Hn'. subst n. 
          replace (List.length done + 1 - 1)%nat with (List.length done) by lia.
          cbn [app]. rewrite nth_app. rewrite !vset_app.
          assert (PL : process_loop E W sgn fuel scatter w1 (done ++ ev1 :: gone) (List.length done) (List.length done)
                 = Some (w1, done ++ ev1 :: gone, List.length done)).
          { destruct fuel; cbn [process_loop]; [reflexivity|]. rewrite Nat.ltb_irrefl. reflexivity. }
          exists [ev], w1, [ev1], [], [ev1].
          split; [constructor; constructor|]. split; [econstructor; [exact SC|constructor]|].
          split; [apply keeps_no; [exact NA|constructor]|]. split; [reflexivity|].
          split; [intros e [<-|[]]; exact NA|]. 
          cbn [app List.length]. rewrite Nat.add_0_r. exact PL.
        * rewrite app_length in Hn'. cbn [List.length] in Hn'.
          replace (List.length done + S n - 1)%nat with (List.length (done ++ ev1 :: todo))
            by (rewrite app_length; cbn [List.length]; lia).
          replace (done ++ ev1 :: (todo ++ [z]) ++ gone) with ((done ++ ev1 :: todo) ++ z :: gone)
            by (rewrite <- !app_assoc; reflexivity).
          rewrite nth_app.
          replace ((done ++ ev1 :: todo) ++ z :: gone) with (done ++ ev1 :: (todo ++ z :: gone))
            by (rewrite <- !app_assoc; reflexivity).
          rewrite vset_app.
          replace (done ++ z :: todo ++ z :: gone) with ((done ++ z :: todo) ++ z :: gone)
            by (rewrite <- !app_assoc; reflexivity).
          replace (List.length (done ++ ev1 :: todo)) with (List.length (done ++ z :: todo))
            by (rewrite !app_length; reflexivity).
          rewrite vset_app.
          destruct (IH (z :: todo) ltac:(cbn [List.length]; lia) w1 done (ev1 :: gone) fuel ltac:(lia))
            as [order [w' [outs [kept [lost [P1 [P2 [P3 [P4 [P5 P6]]]]]]]]]].
          exists (ev :: order), w', (ev1 :: outs), kept, (lost ++ [ev1]).
          split. { constructor. rewrite P1. apply Permutation_cons_append. }
          split. { econstructor; eauto. }
          split. { apply keeps_no; assumption. }
          split. { rewrite app_assoc. rewrite <- P4. apply Permutation_cons_append. }
          split. { intros e I. apply in_app_or in I. destruct I as [I|[<-|[]]]; auto. }
          replace (List.length (done ++ z :: todo)) with (List.length done + n)%nat
            by (rewrite app_length; cbn [List.length]; lia).
          rewrite <- !app_assoc. cbn [app] in *. exact P6.
      + assert (NA : not_absorbed E sgn ev1) by (apply absorbed_spec; rewrite WA; reflexivity).
        destruct (IH todo Hn' w1 (done ++ [ev1]) gone fuel ltac:(lia))
          as [order [w' [outs [kept [lost [P1 [P2 [P3 [P4 [P5 P6]]]]]]]]]].
        exists (ev :: order), w', (ev1 :: outs), (ev1 :: kept), lost.
        split; [constructor; exact P1|]. split; [econstructor; eauto|].
        split; [constructor; assumption|]. split; [cbn [app]; constructor; exact P4|].
        split; [exact P5|].
        rewrite <- !app_assoc in P6. cbn [app] in P6. rewrite app_length in P6. cbn [List.length] in P6.
        replace (List.length done + S n)%nat with (List.length done + 1 + n)%nat by lia.
        cbn [app List.length] in *.
        replace (List.length done + S (List.length kept))%nat with (List.length done + 1 + List.length kept)%nat by lia.
        exact P6.
  Qed.

  Lemma process_T_spec scatter w evts :
    exists order w' outs kept,
      Permutation order evts /\
      scattered E W scatter w order w' outs /\
      keeps (not_absorbed E sgn) outs kept /\
      process_T E W sgn scatter w evts = Some (w', kept).
  Proof.
    destruct (process_loop_spec scatter evts w [] [] (List.length evts) (le_n _))
      as [order [w' [outs [kept [lost [P1 [P2 [P3 [P4 [P5 P6]]]]]]]]]].
    exists order, w', outs, kept. split; [exact P1|]. split; [exact P2|]. split; [exact P3|].
    unfold process_T. cbn [app List.length Nat.add] in P6. rewrite app_nil_r in P6.
    rewrite P6. rewrite firstn_app, Nat.sub_diag, firstn_all, firstn_O, app_nil_r. reflexivity.
  Qed.

  Lemma processM_T_spec scatterM w evts :
    exists w' outs,
      scatteredM E W scatterM w evts w' outs /\
      exists kept, keeps (not_absorbed E sgn) (List.concat outs) kept /\
      processM_T E W sgn scatterM w evts = (w', kept).
  Proof.
    unfold processM_T.
    assert (G : forall w ret, exists w' outs, scatteredM E W scatterM w evts w' outs /\
        processM_loop E W sgn scatterM w evts ret =
        (w', ret ++ filter (fun e => negb (wasAbsorbed E sgn e)) (List.concat outs))).
    { induction evts as [|ev evts IH]; intros u ret.
      - exists u, []. split; [constructor|]. cbn. rewrite app_nil_r. reflexivity.
      - cbn [processM_loop]. destruct (scatterM u ev) as [w1 s] eqn:SC.
        destruct (IH w1 (ret ++ filter (fun e => negb (wasAbsorbed E sgn e)) s)) as [w' [outs [A B]]].
        exists w', (s :: outs). split; [econstructor; eauto|].
        rewrite B. cbn [List.concat]. rewrite filter_app, app_assoc. reflexivity. }
    destruct (G w []) as [w' [outs [A B]]]. exists w', outs. split; [exact A|].
    eexists. split; [|exact B]. apply keeps_filter. apply absorbed_spec.
  Qed.
End Sim.

(** ** laboratory coordinates *)
From Coq Require Import Reals.
From Verif Require Import RotModel RotSpec RotProofs RotProps.
Open Scope R_scope.

Definition loc_of (pc : placement) (ev : event) : event := abs2rel ev (fst pc) (toMatrix (snd pc) "degree").

Lemma expressed_map pc lab loc : expressed pc lab loc <-> loc = map (loc_of pc) lab.
Proof.
  split.
  - intro H. induction H as [|a b l l' (Hr & Hv & H1 & H2 & H3 & H4) _ IH]; [reflexivity|].
    cbn [map]. rewrite <- IH. f_equal. unfold loc_of, abs2rel. rewrite <- Hr, <- Hv, H1, H2, H3, H4.
    symmetry. apply event_eta.
  - intros ->. induction lab as [|a lab IH]; cbn [map]; constructor; [|exact IH].
    unfold loc_of, abs2rel. cbn. split; [reflexivity|]. split; [reflexivity|].
    unfold same_other. cbn. auto.
Qed.

Lemma keeps_map {A B} (P : A -> Prop) (Q : B -> Prop) (f : A -> B) :
  (forall a, P a <-> Q (f a)) -> forall l s, keeps Q (map f l) s -> exists a, keeps P l a /\ s = map f a.
Proof.
  intros H l. induction l as [|x l IH]; intros s K; cbn [map] in K; inversion K; subst.
  - exists []. split; [constructor|reflexivity].
  - match goal with K1 : keeps Q (map f l) _ |- _ => apply IH in K1; destruct K1 as [a [Ka ->]] end.
    exists (x :: a). split; [constructor; [apply H; assumption|exact Ka]|reflexivity].
  - match goal with K1 : keeps Q (map f l) _ |- _ => apply IH in K1; destruct K1 as [a [Ka ->]] end.
    exists a. split; [constructor; [intro C; apply H in C; contradiction|exact Ka]|reflexivity].
Qed.

Lemma alive_loc pc ev : alive event prob_sgn ev <-> alive event prob_sgn (loc_of pc ev).
Proof. unfold alive, prob_sgn, loc_of, abs2rel. cbn [e_p]. reflexivity. Qed.

Lemma toMatrix_0 : toMatrix (Angles 0 0 0) "degree" = I3.
Proof.
  unfold toMatrix, toMatrix_, I3. change (is_degree "degree") with true. cbn. unfold toradian.
  replace (0 * PI / 180) with 0 by field. rewrite cos_0, sin_0. apply mkM_eq; ring.
Qed.

Lemma loc_lab ev : loc_of lab_frame ev = ev.
Proof.
  unfold loc_of, lab_frame. cbn [fst snd]. rewrite toMatrix_0. unfold abs2rel. rewrite !dot_I.
  transitivity (mkE (e_r ev) (e_v ev) (e_s1 ev) (e_s2 ev) (e_t ev) (e_p ev)); [|apply event_eta].
  f_equal. destruct (e_r ev) as [x y z]. unfold vsub; cbn. apply mk_eq; ring.
Qed.

Lemma map_loc_lab l : map (loc_of lab_frame) l = l.
Proof. apply map_id_ext. exact loc_lab. Qed.

Lemma transformer_step po pc lab : valid_ori (snd po) -> valid_ori (snd pc) -> clear_step po pc ->
  transformer po pc (map (loc_of po) lab) = map (loc_of pc) lab.
Proof. intros V1 V2 C. exact (C20_change_of_coordinates lab (fst po) (fst pc) (snd po) (snd pc) V1 V2 C). Qed.

Lemma clear_lab_lab : clear_step lab_frame lab_frame.
Proof.
  unfold clear_step, lab_frame, relativePositionOrientation. cbn [fst snd]. rewrite toMatrix_0.
  assert (T : transpose I3 = I3) by reflexivity. rewrite T, matmul_I_r, dot_I.
  split; [intros _; reflexivity|]. intros _ _. unfold vsub; cbn. apply mk_eq; ring.
Qed.

Lemma through_lab (W : Type) ms cs po (w : W) ns po' w' ns' :
  through event W placement prob_sgn transformer ms cs po w ns po' w' ns' ->
  valid_ori (snd po) -> clear_path W po cs ->
  forall lab, ns = map (loc_of po) lab ->
  exists lab', lab_through W ms cs w lab w' lab' /\ ns' = map (loc_of po') lab' /\
               valid_ori (snd po') /\ clear_step po' lab_frame.
Proof.
  induction 1 as [po w ns|c cs po w ns pc seen w1 ns1 po' w' ns' HP HK HA HT IH]; intros V C lab EQ.
  - exists lab. split; [constructor|]. cbn in C. auto.
  - cbn [clear_path] in C. destruct C as [pc' [HP' [V' [C1 C2]]]].
    rewrite HP in HP'. injection HP' as <-.
    subst ns. rewrite transformer_step in HK by assumption.
    apply (keeps_map (alive event prob_sgn)) in HK; [|intro; apply alive_loc].
    destruct HK as [a [Ka ->]].
    assert (R : rotation (toMatrix (snd pc) "degree")) by (apply valid_rotation; exact V').
    set (lab1 := map (fun ev => rel2abs ev (fst pc) (toMatrix (snd pc) "degree")) ns1).
    assert (E1 : ns1 = map (loc_of pc) lab1).
    { unfold lab1. rewrite map_map. symmetry. apply map_id_ext. intro ev. apply abs2rel_rel2abs. exact R. }
    destruct (IH V' C2 lab1 E1) as [lab' [T [E2 [V2 C3]]]].
    exists lab'. split; [|auto].
    apply lab_next with (pc := pc) (lab_alive := a) (seen := map (loc_of pc) a) (w1 := w1) (out := ns1) (lab1 := lab1);
      [exact HP|exact Ka|apply expressed_map; reflexivity|exact HA|apply expressed_map; exact E1|exact T].
Qed.

Lemma simulate_lab (W : Type) ms cs (w : W) ns w' ns' n :
  usable_names event W placement cs -> placed event W placement cs ->
  clear_path W lab_frame cs ->
  simulate event W placement prob_sgn transformer lab_frame (Some ms) cs w ns = (w', Ok (ns', n)) ->
  n = List.length ns /\
  exists lab', lab_through W ms cs w ns w' lab' /\ keeps (alive event prob_sgn) lab' ns'.
Proof.
  intros HN HP HC H. apply simulate_through in H; [|exact HN|exact HP].
  destruct H as [-> [first [po [last [A [B C]]]]]]. split; [reflexivity|].
  assert (T0 : transformer lab_frame lab_frame ns = ns).
  { pose proof (transformer_step lab_frame lab_frame ns I I clear_lab_lab) as T. rewrite !map_loc_lab in T. exact T. }
  rewrite T0 in A.
  destruct (through_lab W ms cs lab_frame w first po w' last B I HC first) as [lab' [L [E1 [V C1]]]].
  { symmetry. apply map_loc_lab. }
  subst last. rewrite transformer_step in C by (assumption || exact I). rewrite map_loc_lab in C.
  inversion L; subst.
  - exists ns. split; [constructor|].
    assert (first_same : keeps (alive event prob_sgn) lab' lab') by (eapply keeps_self; exact A).
    assert (ns' = lab') by (eapply keeps_fun; eauto). subst ns'. exact A.
  - exists lab'. split; [|exact C]. 
    assert (lab_alive = first) by (eapply keeps_fun; [eassumption|eapply keeps_self; exact A]). subst lab_alive.
    eapply lab_next; [eassumption|exact A|eassumption|eassumption|eassumption|eassumption].
Qed.
