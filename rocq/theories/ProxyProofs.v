(** Proofs for C26. *)
From Coq Require Import List String Bool Lia.
From Verif Require Import Base ProxyModel ProxySpec.
Import ListNotations.
Open Scope string_scope.
Open Scope list_scope.

Section P.
  Variable V : Type.
  Variable vFalse : V.
  Variable truthy : V -> bool.
  Notation RN := "restore_neutron".
  Notation dupdate := (dupdate V). Notation dempty := (dempty V).
  Notation after := (after V truthy). Notation init := (init V vFalse).

  Lemma dupdate_snoc d l k v : dupdate d (l ++ [(k, v)]) = dput V (dupdate d l) k v.
  Proof. unfold ProxyModel.dupdate. rewrite fold_left_app. reflexivity. Qed.

  Lemma dupdate_unlisted d l n : unlisted l n -> dupdate d l n = d n.
  Proof.
    revert d. induction l as [|[k v] l IH]; intros d U; [reflexivity|].
    cbn [ProxyModel.dupdate fold_left fst snd]. fold (dupdate (dput V d k v) l).
    rewrite IH; [|intros u I; apply (U u); right; exact I].
    unfold dput. destruct (String.eqb_spec n k) as [->|]; [|reflexivity].
    exfalso. apply (U v). left. reflexivity.
  Qed.

  Lemma dupdate_listed d l n v : once l -> lists l n v -> dupdate d l n = Some v.
  Proof.
    unfold once. revert d. induction l as [|[k u] l IH]; intros d O I; [destruct I|].
    cbn [map fst] in O. apply NoDup_cons_iff in O. destruct O as [NI O].
    cbn [ProxyModel.dupdate fold_left fst snd]. fold (dupdate (dput V d k u) l).
    destruct I as [I|I].
    - injection I as -> ->. rewrite dupdate_unlisted.
      + unfold dput. rewrite String.eqb_refl. reflexivity.
      + intros w J. apply NI. apply in_map_iff. exists (n, w). auto.
    - apply IH; assumption.
  Qed.

  Lemma listed_or l n : (exists v : V, lists l n v) \/ unlisted l n.
  Proof.
    induction l as [|[k v] l IH]; [right; intros v []|].
    destruct (String.eqb_spec k n) as [->|N]; [left; exists v; left; reflexivity|].
    destruct IH as [[u I]|U]; [left; exists u; right; exact I|].
    right. intros u [J|J]; [injection J as -> _; contradiction|apply (U u J)].
  Qed.

  Lemma after_snoc p h o : after p (h ++ [o]) = fst (step V truthy (after p h) o).
  Proof. unfold ProxyModel.after. rewrite fold_left_app. reflexivity. Qed.

  Lemma after_app p h h' : after p (h ++ h') = after (after p h) h'.
  Proof. unfold ProxyModel.after. apply fold_left_app. Qed.

  (** the keyword dictionary keeps its keys, and only assignments change it *)
  Lemma step_kwds p o n : n <> RN ->
    p_kwds V (fst (step V truthy p o)) n =
    match o with
    | OSet m v => if String.eqb n m then (match p_kwds V p n with Some _ => Some v | None => None end) else p_kwds V p n
    | _ => p_kwds V p n
    end.
  Proof.
    intro N. destruct o as [m v|m| |]; cbn [step fst].
    - unfold setattr, din. destruct (String.eqb_spec n m) as [->|D].
      + destruct (p_kwds V p m) eqn:K; cbn [p_kwds]; [unfold dput; rewrite String.eqb_refl; reflexivity|exact K].
      + destruct (p_kwds V p m); cbn [p_kwds]; [|reflexivity].
        unfold dput. destruct (String.eqb_spec n m); [contradiction|reflexivity].
    - reflexivity.
    - unfold cpp_instance. destruct (p_cpp V p); cbn [fst p_kwds]; [reflexivity|].
      unfold ddel. destruct (String.eqb_spec n RN); [contradiction|reflexivity].
    - unfold process. destruct (getattr V _ RN); cbn [fst p_kwds]; [|reflexivity].
      unfold cpp_instance. cbn [p_cpp fst p_kwds]. unfold ddel.
      destruct (String.eqb_spec n RN); [contradiction|reflexivity].
  Qed.

  Fixpoint la (n : string) (h : list (op V)) (d : option V) : option V :=
    match h with
    | [] => d
    | OSet m v :: t => la n t (if String.eqb n m then Some v else d)
    | _ :: t => la n t d
    end.

  Lemma la_app n a b d : la n (a ++ b) d = la n b (la n a d).
  Proof. revert d. induction a as [|[m v|m| |] a IH]; intro d; cbn; auto. Qed.

  Lemma la_none n h d : (forall v, ~ In (OSet n v) h) -> la n h d = d.
  Proof.
    revert d. induction h as [|[m v|m| |] h IH]; intros d H; cbn [la]; [reflexivity| | | |];
      try (apply IH; intros u I; apply (H u); right; exact I).
    rewrite IH; [|intros u I; apply (H u); right; exact I].
    destruct (String.eqb_spec n m) as [->|]; [exfalso; apply (H v); left; reflexivity|reflexivity].
  Qed.

  Lemma la_spec n h x : last_assigned n h x -> forall d, la n h d = match x with Some v => Some v | None => d end.
  Proof.
    intros H d. destruct H as [h H|h1 v h2 H].
    - apply la_none. exact H.
    - rewrite la_app. cbn [la]. rewrite String.eqb_refl. apply la_none. exact H.
  Qed.

  Lemma la_default n h : forall d, (la n h (Some d) = Some d /\ la n h None = None) \/ exists v, forall d', la n h d' = Some v.
  Proof.
    induction h as [|[m v|m| |] h IH]; intro d; cbn [la]; auto.
    destruct (String.eqb n m); [|apply IH].
    destruct (IH v) as [[A B]|[u U]]; right; [exists v; intro; exact A|exists u; intro; apply U].
  Qed.

  Lemma after_kwds p h n : n <> RN ->
    p_kwds V (after p h) n = match p_kwds V p n with Some d => la n h (Some d) | None => None end.
  Proof.
    intro N. revert p. induction h as [|o h IH]; intro p.
    - cbn. destruct (p_kwds V p n); reflexivity.
    - cbn [ProxyModel.after fold_left]. fold (after (fst (step V truthy p o)) h).
      rewrite IH, step_kwds by exact N.
      destruct o as [m v|m| |]; cbn [la]; try reflexivity.
      destruct (String.eqb n m); [|reflexivity]. destruct (p_kwds V p n); reflexivity.
  Qed.

  Lemma init_kwds params kwds n : n <> RN ->
    p_kwds V (init params kwds) n = dupdate (dupdate dempty params) kwds n.
  Proof.
    intro N. unfold ProxyModel.init, setattr, din. cbn [p_kwds].
    destruct (dupdate (dupdate dempty params) kwds RN); cbn [p_kwds]; [|reflexivity].
    unfold dput. destruct (String.eqb_spec n RN); [contradiction|reflexivity].
  Qed.

  Lemma la_intended params kwds h n x : once params -> once kwds ->
    intended params kwds h n x ->
    match dupdate (dupdate dempty params) kwds n with Some d => la n h (Some d) | None => None end = x.
  Proof.
    intros O1 O2 I. destruct I as [v w L K|v L K|v L U K|U1 U2].
    - destruct (listed_or kwds n) as [[u J]|U].
      + rewrite (dupdate_listed _ _ _ _ O2 J), (la_spec n h (Some v) L). reflexivity.
      + rewrite dupdate_unlisted by exact U. destruct K as [K|K]; [|exfalso; exact (U w K)].
        rewrite (dupdate_listed _ _ _ _ O1 K), (la_spec n h (Some v) L). reflexivity.
    - rewrite (dupdate_listed _ _ _ _ O2 K). apply (la_spec n h None L).
    - rewrite dupdate_unlisted by exact U. rewrite (dupdate_listed _ _ _ _ O1 K). apply (la_spec n h None L).
    - rewrite !dupdate_unlisted by assumption. reflexivity.
  Qed.

  Lemma process_passes p p' r k n : process V truthy p = (p', Ok (r, k)) -> n <> RN -> k n = p_kwds V p n.
  Proof.
    unfold process. destruct (getattr V _ RN); [|discriminate]. unfold cpp_instance. cbn [p_cpp p_kwds].
    intros H N. injection H as _ _ <-. unfold ddel. destruct (String.eqb_spec n RN); [contradiction|reflexivity].
  Qed.

  Lemma process_no_restore p p' r k : process V truthy p = (p', Ok (r, k)) -> k RN = None.
  Proof.
    unfold process. destruct (getattr V _ RN); [|discriminate]. unfold cpp_instance. cbn [p_cpp p_kwds].
    intro H. injection H as _ _ <-. unfold ddel. reflexivity.
  Qed.

  (** __dict__ *)
  Lemma step_dict p o n :
    p_dict V (fst (step V truthy p o)) n =
    match o with
    | OSet m v => if String.eqb n m then (if din V (p_kwds V p) n then p_dict V p n else Some v) else p_dict V p n
    | _ => p_dict V p n
    end.
  Proof.
    destruct o as [m v|m| |]; cbn [step fst].
    - unfold setattr. destruct (String.eqb_spec n m) as [->|D].
      + destruct (din V (p_kwds V p) m); cbn [p_dict]; [reflexivity|]. unfold dput. rewrite String.eqb_refl. reflexivity.
      + destruct (din V (p_kwds V p) m); cbn [p_dict]; [reflexivity|].
        unfold dput. destruct (String.eqb_spec n m); [contradiction|reflexivity].
    - reflexivity.
    - unfold cpp_instance. destruct (p_cpp V p); reflexivity.
    - unfold process. destruct (getattr V _ RN); [|reflexivity]. unfold cpp_instance. reflexivity.
  Qed.

  Lemma after_dict p h n : n <> RN ->
    p_dict V (after p h) n = if din V (p_kwds V p) n then p_dict V p n else la n h (p_dict V p n).
  Proof.
    intro N. revert p. induction h as [|o h IH]; intro p.
    - cbn. destruct (din V (p_kwds V p) n); reflexivity.
    - cbn [ProxyModel.after fold_left]. fold (after (fst (step V truthy p o)) h). rewrite IH.
      assert (D : din V (p_kwds V (fst (step V truthy p o))) n = din V (p_kwds V p) n).
      { unfold din. rewrite step_kwds by exact N. destruct o as [m v|m| |]; try reflexivity.
        destruct (String.eqb n m); [|reflexivity]. destruct (p_kwds V p n); reflexivity. }
      rewrite D, step_dict. unfold din.
      destruct o as [m v|m| |]; cbn [la]; try reflexivity.
      destruct (String.eqb n m); [|reflexivity]. destruct (p_kwds V p n); reflexivity.
  Qed.

  Lemma init_dict params kwds n : n <> RN -> p_dict V (init params kwds) n = dupdate dempty kwds n.
  Proof.
    intro N. unfold ProxyModel.init, setattr. destruct (din V _ RN); cbn [p_dict]; [reflexivity|].
    unfold dput. destruct (String.eqb_spec n RN); [contradiction|reflexivity].
  Qed.

  (** restore_neutron is neither a parameter nor given: an ordinary attribute *)
  Lemma plain_restore params kwds h : unlisted params RN -> unlisted kwds RN ->
    p_kwds V (after (init params kwds) h) RN = None /\
    p_dict V (after (init params kwds) h) RN = la RN h (Some vFalse).
  Proof.
    intros U1 U2.
    assert (I : p_kwds V (init params kwds) RN = None /\ p_dict V (init params kwds) RN = Some vFalse).
    { unfold ProxyModel.init, setattr, din. cbn [p_kwds]. rewrite !dupdate_unlisted by assumption.
      cbn. rewrite !dupdate_unlisted by assumption. auto. }
    induction h as [|o h IH] using rev_ind; [exact I|].
    destruct IH as [K D]. rewrite after_snoc, step_dict, la_app. unfold din. rewrite K, D. split.
    - destruct o as [m v|m| |]; cbn [step fst].
      + unfold setattr, din. destruct (String.eqb_spec RN m) as [<-|N].
        * rewrite K. cbn [p_kwds]. exact K.
        * destruct (p_kwds V (after (init params kwds) h) m); cbn [p_kwds]; [|exact K].
          unfold dput. destruct (String.eqb_spec RN m); [contradiction|exact K].
      + exact K.
      + unfold cpp_instance. destruct (p_cpp V _); cbn [fst p_kwds]; [exact K|]. reflexivity.
      + unfold process. destruct (getattr V _ RN); cbn [fst p_kwds]; [|exact K]. unfold cpp_instance. cbn. reflexivity.
    - destruct o as [m v|m| |]; cbn [la]; reflexivity.
  Qed.

  (** restore_neutron is a parameter of the component and not given at construction *)
  Lemma gone_restore p h : p_kwds V p RN = None -> p_dict V p RN = None ->
    (forall v, ~ In (OSet RN v) h) ->
    p_kwds V (after p h) RN = None /\ p_dict V (after p h) RN = None.
  Proof.
    intros K D. induction h as [|o h IH] using rev_ind; intro H; [auto|].
    destruct IH as [K' D']; [intros v I; apply (H v), in_or_app; left; exact I|].
    rewrite after_snoc, step_dict. unfold din. rewrite K', D'. split.
    - destruct o as [m v|m| |]; cbn [step fst].
      + unfold setattr, din. destruct (String.eqb_spec RN m) as [<-|N].
        * exfalso. apply (H v), in_or_app. right. left. reflexivity.
        * destruct (p_kwds V (after p h) m); cbn [p_kwds]; [|exact K'].
          unfold dput. destruct (String.eqb_spec RN m); [contradiction|exact K'].
      + exact K'.
      + unfold cpp_instance. destruct (p_cpp V _); cbn [fst p_kwds]; [exact K'|]. reflexivity.
      + unfold process. destruct (getattr V _ RN); cbn [fst p_kwds]; [|exact K']. unfold cpp_instance. cbn. reflexivity.
    - destruct o as [m v|m| |]; try reflexivity.
      destruct (String.eqb_spec RN m) as [<-|N]; [|reflexivity].
      exfalso. apply (H v), in_or_app. right. left. reflexivity.
  Qed.

  Lemma first_run_deletes p : p_dict V p RN = None -> p_kwds V p RN <> None ->
    p_kwds V (fst (step V truthy p OProcess)) RN = None /\ p_dict V (fst (step V truthy p OProcess)) RN = None.
  Proof.
    intros D K. rewrite step_dict. split; [|exact D].
    cbn [step]. unfold process, getattr. cbn [p_dict p_kwds]. rewrite D.
    destruct (p_kwds V p RN) eqn:E; [|contradiction]. unfold cpp_instance. cbn. reflexivity.
  Qed.

  Lemma param_restore params kwds v : once params -> lists params RN v -> unlisted kwds RN ->
    p_dict V (init params kwds) RN = None /\ p_kwds V (init params kwds) RN = Some vFalse.
  Proof.
    intros O L U. unfold ProxyModel.init, setattr, din. cbn [p_kwds].
    rewrite dupdate_unlisted by exact U. rewrite (dupdate_listed _ _ _ _ O L). cbn [p_dict p_kwds].
    rewrite dupdate_unlisted by exact U. split; [reflexivity|]. unfold dput. reflexivity.
  Qed.
  Lemma before_first_run p a : p_dict V p RN = None -> p_kwds V p RN <> None -> p_cpp V p = None ->
    ~ In OProcess a -> ~ In OTouch a ->
    p_dict V (after p a) RN = None /\ p_kwds V (after p a) RN <> None /\ p_cpp V (after p a) = None.
  Proof.
    intros D K C. induction a as [|o a IH] using rev_ind; intros NP NT; [auto|].
    destruct IH as [D' [K' C']]; [intro I; apply NP, in_or_app; auto|intro I; apply NT, in_or_app; auto|].
    rewrite after_snoc, step_dict. destruct o as [m v|m| |].
    - cbn [step fst]. unfold setattr, din. destruct (String.eqb_spec RN m) as [<-|N].
      + destruct (p_kwds V (after p a) RN) eqn:E; [|contradiction]. cbn [p_kwds p_cpp]. split; [exact D'|].
        split; [unfold dput; discriminate|exact C'].
      + split; [exact D'|]. destruct (p_kwds V (after p a) m); cbn [p_kwds p_cpp]; [|auto].
        split; [|exact C']. unfold dput. destruct (String.eqb_spec RN m); [contradiction|exact K'].
    - cbn [step fst]. auto.
    - exfalso. apply NT, in_or_app. right. left. reflexivity.
    - exfalso. apply NP, in_or_app. right. left. reflexivity.
  Qed.

  Lemma second_run_fails params kwds v a o b :
    once params -> lists params RN v -> unlisted kwds RN ->
    ~ In OProcess a -> ~ In OTouch a -> (o = OProcess \/ o = OTouch) ->
    (forall u, ~ In (OSet RN u) b) ->
    exists p', process V truthy (after (init params kwds) (a ++ o :: b)) = (p', Err AttributeError).
  Proof.
    intros O L U NP NT HO HB.
    destruct (param_restore params kwds v O L U) as [D K].
    assert (C : p_cpp V (init params kwds) = None).
    { unfold ProxyModel.init, setattr. destruct (din V _ RN); reflexivity. }
    destruct (before_first_run (init params kwds) a D) as [D1 [K1 C1]]; [congruence|exact C|exact NP|exact NT|].
    rewrite after_app. cbn [ProxyModel.after fold_left]. 
    set (p1 := after (init params kwds) a) in *.
    fold (after (fst (step V truthy p1 o)) b).
    assert (G : p_kwds V (fst (step V truthy p1 o)) RN = None /\ p_dict V (fst (step V truthy p1 o)) RN = None).
    { destruct HO as [->| ->]; [apply first_run_deletes; assumption|].
      cbn [step]. unfold cpp_instance. rewrite C1. cbn. auto. }
    destruct G as [K2 D2]. destruct (gone_restore _ b K2 D2 HB) as [K3 D3].
    unfold process, getattr. cbn [p_dict p_kwds]. rewrite D3, K3. eauto.
  Qed.
End P.
