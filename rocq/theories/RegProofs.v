(** Proofs for C27. *)
From Coq Require Import List String Bool Lia.
From Verif Require Import Base RegModel RegSpec.
Import ListNotations.
Open Scope list_scope.

Lemma key_eqb_spec a b : reflect (a = b) (key_eqb a b).
Proof.
  destruct a as [a1 a2], b as [b1 b2]. unfold key_eqb. cbn.
  destruct (String.eqb_spec a1 b1), (String.eqb_spec a2 b2); cbn; constructor; congruence.
Qed.
Lemma key_eqb_refl a : key_eqb a a = true.
Proof. destruct (key_eqb_spec a a); congruence. Qed.

Section R.
  Variable F : Type.
  Notation registry := (registry F).

  Lemma kget_kset d k f k' : kget (kset d k f) k' = if key_eqb k k' then Some f else kget (F := F) d k'.
  Proof.
    induction d as [|[a b] d IH]; cbn [kset kget].
    - reflexivity.
    - destruct (key_eqb_spec a k) as [->|N]; cbn [kget].
      + destruct (key_eqb k k'); reflexivity.
      + rewrite IH. destruct (key_eqb_spec a k') as [->|M]; [|reflexivity].
        destruct (key_eqb_spec k k'); [congruence|reflexivity].
  Qed.

  Definition lookup (r : registry) k := kget (r_factories r) k.

  Lemma lookup_register r k f k' : lookup (register r k f) k' = if key_eqb k k' then Some f else lookup r k'.
  Proof. apply kget_kset. Qed.

  Lemma static_loop_last imp repos type found : (forall r e, In r repos -> imp r type <> OtherError (F := F) e) ->
    (exists m, last_provides (fun r => imp r type) repos m /\ static_loop imp repos type found = Ok (Some m)) \/
    ((forall r, In r repos -> imp r type = ImportError) /\ static_loop imp repos type found = Ok found).
  Proof.
    revert found. induction repos as [|r repos IH]; intros found C; cbn [static_loop].
    - right. split; [intros r []|reflexivity].
    - assert (C' : forall r0 e, In r0 repos -> imp r0 type <> OtherError e) by (intros; apply C; right; assumption).
      destruct (imp r type) as [m| |e] eqn:I.
      + left. destruct (IH (Some m) C') as [[m' [L E]]|[N E]].
        * exists m'. split; [|exact E]. destruct L as [pre repo post m0 H1 H2]. apply (lp _ (r :: pre)); assumption.
        * exists m. split; [|exact E]. apply (lp _ [] r repos); [|exact I]. intros r' J m' K. rewrite N in K by exact J. discriminate.
      + destruct (IH found C') as [[m' [L E]]|[N E]].
        * left. exists m'. split; [|exact E]. destruct L as [pre repo post m0 H1 H2]. apply (lp _ (r :: pre)); assumption.
        * right. split; [|exact E]. intros r' [<-|J]; auto.
      + exfalso. apply (C r e); [left; reflexivity|exact I].
  Qed.

  (** the last of the reversed list is the first *)
  Lemma last_rev (imp : string -> import F) all m : (forall r e, In r all -> imp r <> OtherError e) ->
    last_provides imp (rev all) m -> first_provides imp all m.
  Proof.
    intros C H. remember (rev all) as l eqn:E. destruct H as [pre repo post m0 H1 H2].
    assert (all = rev post ++ repo :: rev pre).
    { rewrite <- (rev_involutive all), <- E, rev_app_distr. cbn [rev]. rewrite <- app_assoc. reflexivity. }
    subst all. constructor; [|exact H2]. intros r I.
    assert (J : In r post) by (apply in_rev; exact I).
    destruct (imp r) as [m'| |e] eqn:K; [exfalso; exact (H1 r J m' K)|reflexivity|].
    exfalso. apply (C r e); [apply in_or_app; left; exact I|exact K].
  Qed.

  Lemma first_fun (imp : string -> import F) all m m' : first_provides imp all m -> first_provides imp all m' -> m = m'.
  Proof.
    intros H H'. destruct H as [pre repo post m H1 H2]. remember (pre ++ repo :: post) as l eqn:E.
    destruct H' as [pre' repo' post' m' H1' H2'].
    revert pre' H1' E. induction pre as [|x pre IH]; intros [|x' pre'] H1' E; cbn in E; injection E as E1 E2; subst.
    - congruence.
    - rewrite H1' in H2 by (left; reflexivity). discriminate.
    - rewrite H1 in H2' by (left; reflexivity). discriminate.
    - apply (IH (fun r I => H1 r (or_intror I)) pre' (fun r I => H1' r (or_intror I)) E2).
  Qed.

  Lemma static_first imp all k r : clean_imports (fun x => imp x (snd k)) all ->
    (forall m f, first_provides (fun x => imp x (snd k)) all m -> offers m k f ->
       getStaticComponent imp all r k = (register (F := F) r k f, Ok f)) /\
    ((forall x, In x all -> imp x (snd k) = ImportError) -> getStaticComponent imp all r k = (r, Err NotRegisteredError)) /\
    (forall m c, first_provides (fun x => imp x (snd k)) all m -> m_category m = Some c -> c <> fst k ->
       getStaticComponent imp all r k = (r, Err RuntimeError)).
  Proof.
    intro C. unfold getStaticComponent, setup_repos.
    assert (CR : forall x e, In x (rev all) -> imp x (snd k) <> OtherError e) by (intros x e I; apply C, in_rev; exact I).
    destruct (static_loop_last imp (rev all) (snd k) None CR) as [[m [L E]]|[N E]]; rewrite E.
    - pose proof (last_rev (fun x => imp x (snd k)) all m C L) as FP. split; [|split].
      + intros m' f FP' [O1 O2]. rewrite (first_fun _ _ _ _ FP FP'), O1, O2, String.eqb_refl. reflexivity.
      + intro N. destruct L as [pre repo post m0 H1 H2] eqn:?.
        exfalso. destruct FP as [p1 r1 q1 m1 G1 G2]. rewrite N in G2; [discriminate|]. apply in_or_app. right. left. reflexivity.
      + intros m' c FP' O1 D. rewrite (first_fun _ _ _ _ FP FP'), O1.
        destruct (String.eqb_spec (fst k) c); [congruence|reflexivity].
    - split; [|split].
      + intros m f FP _. exfalso. destruct FP as [p1 r1 q1 m1 G1 G2]. rewrite N in G2; [discriminate|].
        apply in_rev. rewrite rev_involutive. apply in_or_app. right. left. reflexivity.
      + intros _. reflexivity.
      + intros m c FP _ _. exfalso. destruct FP as [p1 r1 q1 m1 G1 G2]. rewrite N in G2; [discriminate|].
        apply in_rev. rewrite rev_involutive. apply in_or_app. right. left. reflexivity.
  Qed.

  (** the answer of the static lookup does not depend on the registry *)
  Lemma static_state imp all k r r' : snd (getStaticComponent (F := F) imp all r k) = snd (getStaticComponent imp all r' k).
  Proof.
    unfold getStaticComponent. destruct (static_loop _ _ _ _) as [[m|]|e]; try reflexivity.
    destruct (m_category m); [|reflexivity]. destruct (String.eqb _ _); [|reflexivity]. destruct (m_factory m); reflexivity.
  Qed.

  Lemma static_registers imp all k r r' f : getStaticComponent (F := F) imp all r k = (r', Ok f) -> r' = register r k f.
  Proof.
    unfold getStaticComponent. destruct (static_loop _ _ _ _) as [[m|]|e]; try discriminate.
    destruct (m_category m); [|discriminate]. destruct (String.eqb _ _); [|discriminate]. destruct (m_factory m); [|discriminate].
    intro H. injection H as <- <-. reflexivity.
  Qed.

  Lemma static_error imp all k r r' e : getStaticComponent (F := F) imp all r k = (r', Err e) -> r' = r.
  Proof.
    unfold getStaticComponent. destruct (static_loop _ _ _ _) as [[m|]|x]; try (intro H; injection H as <- _; reflexivity).
    destruct (m_category m); [|intro H; injection H as <- _; reflexivity].
    destruct (String.eqb _ _); [|intro H; injection H as <- _; reflexivity].
    destruct (m_factory m); [discriminate|]. intro H; injection H as <- _; reflexivity.
  Qed.

  Lemma rafter_snoc imp all (h : list (rop F)) o : rafter imp all (h ++ [o]) = rstep imp all (rafter imp all h) o.
  Proof. unfold rafter. rewrite fold_left_app. reflexivity. Qed.

  Lemma last_registered_fun k (h : list (rop F)) x y : last_registered k h x -> last_registered k h y -> x = y.
  Proof.
    intros H H'. destruct H as [h H|h1 f h2 H].
    - remember h as l eqn:E. destruct H' as [h' H'|h1 f h2 H']; [reflexivity|]. subst.
      exfalso. apply (H f), in_or_app. right. left. reflexivity.
    - remember (h1 ++ ORegister k f :: h2) as l eqn:E. destruct H' as [h' H'|h1' f' h2' H'].
      + exfalso. subst. apply (H' f), in_or_app. right. left. reflexivity.
      + f_equal. revert h1' E. induction h1 as [|a h1 IH]; intros [|b h1'] E; cbn in E; injection E as E1 E2; subst.
        * congruence.
        * exfalso. apply (H f'), in_or_app. right. left. reflexivity.
        * exfalso. apply (H' f), in_or_app. right. left. reflexivity.
        * exact (IH h1' E2).
  Qed.

  Lemma last_registered_snoc k (h : list (rop F)) o x : last_registered k h x ->
    last_registered k (h ++ [o]) (match o with ORegister k' f => if key_eqb k' k then Some f else x | _ => x end).
  Proof.
    intro H. 
    assert (SK : (forall f, o <> ORegister k f) -> last_registered k (h ++ [o]) x).
    { intro NO. destruct H as [h H|h1 f h2 H].
      - apply lr_never. intros f I. apply in_app_or in I. destruct I as [I|[I|[]]]; [exact (H f I)|exact (NO f I)].
      - rewrite <- app_assoc. cbn [app]. apply lr_last. intros g I. apply in_app_or in I.
        destruct I as [I|[I|[]]]; [exact (H g I)|exact (NO g I)]. }
    destruct o as [k' f|k']; [|apply SK; discriminate].
    destruct (key_eqb_spec k' k) as [->|N].
    - apply lr_last. intros g [].
    - apply SK. intros f0 E. injection E as E _. congruence.
  Qed.

  Lemma last_registered_total k (h : list (rop F)) : exists x, last_registered k h x.
  Proof.
    induction h as [|o h [x IH]] using rev_ind; [exists None; apply lr_never; intros f []|].
    eexists. apply last_registered_snoc. exact IH.
  Qed.

  (** what a lookup in the table finds *)
  Lemma rafter_lookup imp all (h : list (rop F)) k x : last_registered k h x ->
    match x with
    | Some f => lookup (rafter imp all h) k = Some f
    | None => lookup (rafter imp all h) k = None \/
              exists f, lookup (rafter imp all h) k = Some f /\ snd (getStaticComponent imp all new_registry k) = Ok f
    end.
  Proof.
    revert x. induction h as [|o h IH] using rev_ind; intros x H.
    - assert (x = None) by (eapply last_registered_fun; [exact H|apply lr_never; intros f []]). subst. left. reflexivity.
    - destruct (last_registered_total k h) as [y Hy]. specialize (IH y Hy).
      pose proof (last_registered_snoc k h o y Hy) as Hs.
      pose proof (last_registered_fun _ _ _ _ H Hs) as Ex. rewrite rafter_snoc. subst x.
      destruct o as [k' f|k']; cbn [rstep].
      + rewrite lookup_register. destruct (key_eqb_spec k' k) as [->|N]; [reflexivity|exact IH].
      + unfold getFactory. fold (lookup (rafter imp all h) k').
        destruct (lookup (rafter imp all h) k') as [f|] eqn:L; cbn [fst]; [exact IH|].
        destruct (getStaticComponent imp all (rafter imp all h) k') as [r' [f|e]] eqn:G; cbn [fst].
        * apply static_registers in G as G'. subst r'. rewrite lookup_register.
          destruct (key_eqb_spec k' k) as [->|N]; [|exact IH].
          destruct y as [g|]; [congruence|]. right. exists f. split; [reflexivity|].
          rewrite (static_state imp all k new_registry (rafter imp all h)), G. reflexivity.
        * apply static_error in G. subst r'. exact IH.
  Qed.

  Lemma getFactory_answer imp all (h : list (rop F)) k x : last_registered k h x ->
    snd (getFactory imp all (rafter imp all h) k) =
    match x with Some f => Ok f | None => snd (getStaticComponent imp all new_registry k) end.
  Proof.
    intro H. pose proof (rafter_lookup imp all h k x H) as L. unfold getFactory. fold (lookup (rafter imp all h) k).
    destruct x as [f|].
    - rewrite L. reflexivity.
    - destruct L as [L|[f [L S]]]; rewrite L; cbn [snd]; [apply static_state|symmetry; exact S].
  Qed.

  (** ** listing of types *)
  Definition wf_types (r : registry) : Prop :=
    NoDup (map fst (r_types r)) /\
    (forall c l, In (c, l) (r_types r) -> NoDup l) /\
    (forall c t, In t (types_of (r_types r) c) <-> registered r (c, t) = true).

  Lemma existsb_in t l : existsb (String.eqb t) l = true <-> In t l.
  Proof.
    rewrite existsb_exists. split.
    - intros [x [I E]]. apply String.eqb_eq in E. subst. exact I.
    - intro I. exists t. split; [exact I|apply String.eqb_refl].
  Qed.

  Lemma addType_keys types c t : NoDup (map fst types) -> NoDup (map fst (addType types c t)) /\
    (forall x, In x (map fst (addType types c t)) <-> x = c \/ In x (map fst types)).
  Proof.
    induction types as [|[a l] types IH]; cbn [addType map fst]; intro ND.
    - split; [constructor; [intros []|constructor]|]. intro x. cbn. intuition congruence.
    - apply NoDup_cons_iff in ND. destruct ND as [NI ND].
      destruct (String.eqb_spec a c) as [->|N].
      + assert (K : map fst (if existsb (String.eqb t) l then (c, l) :: types else (c, l ++ [t]) :: types) = c :: map fst types)
          by (destruct (existsb _ l); reflexivity).
        rewrite K. split; [constructor; assumption|]. intro x. cbn. intuition.
      + destruct (IH ND) as [A B]. cbn [map fst]. split.
        * constructor; [|exact A]. intro I. apply B in I. destruct I as [I|I]; [congruence|contradiction].
        * intro x. cbn [In]. rewrite B. intuition.
  Qed.

  Lemma addType_nodup types c t : (forall a l, In (a, l) types -> NoDup l) -> forall a l, In (a, l) (addType types c t) -> NoDup l.
  Proof.
    induction types as [|[b m] types IH]; cbn [addType]; intros H a l I.
    - destruct I as [I|[]]. injection I as _ <-. constructor; [intros []|constructor].
    - destruct (String.eqb b c).
      + destruct (existsb (String.eqb t) m) eqn:E.
        * apply (H a l). exact I.
        * destruct I as [I|I]; [|apply (H a l); right; exact I]. injection I as _ <-.
          assert (ND : NoDup m) by (apply (H b m); left; reflexivity).
          assert (NI : ~ In t m) by (intro J; apply existsb_in in J; congruence).
          clear -ND NI. induction m as [|x m IH]; cbn; [constructor; [intros []|constructor]|].
          apply NoDup_cons_iff in ND. destruct ND as [NX ND]. constructor.
          -- intro I. apply in_app_or in I. destruct I as [I|[<-|[]]]; [contradiction|]. apply NI. left. reflexivity.
          -- apply IH; [exact ND|]. intro J. apply NI. right. exact J.
      + destruct I as [I|I]; [apply (H a l); left; exact I|]. apply (IH (fun a l J => H a l (or_intror J)) a l I).
  Qed.

  Lemma addType_types types c t c' t' :
    In t' (types_of (addType types c t) c') <-> (c = c' /\ t = t') \/ In t' (types_of types c').
  Proof.
    induction types as [|[b m] types IH]; cbn [addType types_of].
    - destruct (String.eqb_spec c c'); cbn; intuition congruence.
    - destruct (String.eqb_spec b c) as [->|N].
      + destruct (existsb (String.eqb t) m) eqn:E; cbn [types_of].
        * destruct (String.eqb_spec c c') as [->|N']; [|intuition congruence].
          split; [auto|]. intros [[_ <-]|I]; [apply existsb_in; exact E|exact I].
        * destruct (String.eqb_spec c c') as [->|N']; [|intuition congruence].
          rewrite in_app_iff. cbn. intuition congruence.
      + cbn [types_of]. destruct (String.eqb_spec b c') as [->|N']; [intuition congruence|exact IH].
  Qed.

  Lemma wf_register r k f : wf_types r -> wf_types (register r k f).
  Proof.
    intros [A [B C]]. split; [|split].
    - apply addType_keys. exact A.
    - apply addType_nodup. exact B.
    - intros c t. cbn [register r_types]. rewrite addType_types, C. unfold registered.
      fold (lookup (register r k f) (c, t)). fold (lookup r (c, t)). rewrite lookup_register.
      destruct (key_eqb_spec k (c, t)) as [->|N]; cbn [fst snd]; [intuition|].
      split; [|auto]. intros [[E1 E2]|H]; [|exact H]. exfalso. apply N. destruct k; cbn in *; congruence.
  Qed.

  Lemma wf_rafter imp all (h : list (rop F)) : wf_types (rafter imp all h).
  Proof.
    induction h as [|o h IH] using rev_ind.
    - split; [constructor|]. split; [intros c l []|]. intros c t. cbn. split; [intros []|discriminate].
    - rewrite rafter_snoc. destruct o as [k f|k]; cbn [rstep]; [apply wf_register; exact IH|].
      unfold getFactory. destruct (kget _ k); cbn [fst]; [exact IH|].
      destruct (getStaticComponent imp all (rafter imp all h) k) as [r' [f|e]] eqn:G; cbn [fst].
      + apply static_registers in G. subst. apply wf_register. exact IH.
      + apply static_error in G. subst. exact IH.
  Qed.

  Lemma types_of_in types c l : In (c, l) types -> NoDup (map fst types) -> types_of types c = l.
  Proof.
    induction types as [|[a m] types IH]; cbn; intros I ND; [destruct I|].
    apply NoDup_cons_iff in ND. destruct ND as [NI ND]. destruct I as [I|I].
    - injection I as -> ->. rewrite String.eqb_refl. reflexivity.
    - destruct (String.eqb_spec a c) as [->|]; [|auto]. exfalso. apply NI. apply in_map_iff. exists (c, l). auto.
  Qed.

  Lemma types_nodup imp all (h : list (rop F)) c : NoDup (types_of (r_types (rafter imp all h)) c).
  Proof.
    destruct (wf_rafter imp all h) as [A [B _]]. induction (r_types (rafter imp all h)) as [|[a m] types IH]; cbn; [constructor|].
    cbn in A. apply NoDup_cons_iff in A. destruct (String.eqb a c).
    - apply (B a m). left. reflexivity.
    - apply IH; [apply A|]. intros c0 l I. apply (B c0 l). right. exact I.
  Qed.

  (** ** mcstas2 *)
  Lemma mcstas_loop_spec imp repos k :
    match mcstas_loop (F := F) imp (rev repos) k with
    | Some m => last_provides (fun r => imp r k) repos m
    | None => forall r, In r repos -> forall m, imp r k <> Imported m
    end.
  Proof.
    assert (G : forall l, match mcstas_loop (F := F) imp l k with
      | Some m => exists pre repo post, l = pre ++ repo :: post /\ imp repo k = Imported m /\ forall r, In r pre -> forall m', imp r k <> Imported m'
      | None => forall r, In r l -> forall m, imp r k <> Imported m end).
    { induction l as [|r l IH]; cbn [mcstas_loop]; [intros r []|].
      destruct (imp r k) as [m| |e] eqn:I.
      - exists [], r, l. split; [reflexivity|]. split; [exact I|intros x []].
      - destruct (mcstas_loop imp l k) as [m|].
        + destruct IH as [pre [repo [post [-> [H1 H2]]]]]. exists (r :: pre), repo, post. split; [reflexivity|]. split; [exact H1|].
          intros x [<-|J] m' K; [congruence|exact (H2 x J m' K)].
        + intros x [<-|J] m' K; [congruence|exact (IH x J m' K)].
      - destruct (mcstas_loop imp l k) as [m|].
        + destruct IH as [pre [repo [post [-> [H1 H2]]]]]. exists (r :: pre), repo, post. split; [reflexivity|]. split; [exact H1|].
          intros x [<-|J] m' K; [congruence|exact (H2 x J m' K)].
        + intros x [<-|J] m' K; [congruence|exact (IH x J m' K)]. }
    specialize (G (rev repos)). destruct (mcstas_loop imp (rev repos) k) as [m|].
    - destruct G as [pre [repo [post [E [H1 H2]]]]].
      rewrite <- (rev_involutive repos), E, rev_app_distr. cbn [rev]. rewrite <- app_assoc. cbn [app].
      constructor; [|exact H1]. intros r I. apply H2. apply in_rev. exact I.
    - intros r I. apply G. apply in_rev in I. exact I.
  Qed.

  Lemma last_provides_fun (imp : string -> import F) all m m' : last_provides imp all m -> last_provides imp all m' -> m = m'.
  Proof.
    intros H H'. destruct H as [pre repo post m H1 H2]. remember (pre ++ repo :: post) as l eqn:E.
    destruct H' as [pre' repo' post' m' H1' H2']. symmetry in E.
    revert pre' E. induction pre as [|x pre IH]; intros [|x' pre'] E; cbn in E; injection E as E1 E2; subst.
    - congruence.
    - exfalso. apply (H1 repo' ltac:(apply in_or_app; right; left; reflexivity) m' H2').
    - exfalso. apply (H1' repo ltac:(apply in_or_app; right; left; reflexivity) m H2).
    - exact (IH pre' E2).
  Qed.

  Lemma mafter_snoc imp all (h : list (rop F)) o : mafter imp all (h ++ [o]) = mstep imp all (mafter imp all h) o.
  Proof. unfold mafter. rewrite fold_left_app. reflexivity. Qed.

  Definition mstatic (imp : string -> key -> import F) (all : list string) (k : key) : result F :=
    match mcstas_loop imp (rev all) k with
    | None => Err NotRegisteredError
    | Some m => match m_factory m with Some f => Ok f | None => Err AttributeError end
    end.

  Lemma mafter_lookup imp all (h : list (rop F)) k x : last_registered k h x ->
    match x with
    | Some f => lookup (mafter imp all h) k = Some f
    | None => lookup (mafter imp all h) k = None \/
              exists f, lookup (mafter imp all h) k = Some f /\ mstatic imp all k = Ok f
    end.
  Proof.
    revert x. induction h as [|o h IH] using rev_ind; intros x H.
    - assert (x = None) by (eapply last_registered_fun; [exact H|apply lr_never; intros f []]). subst. left. reflexivity.
    - destruct (last_registered_total k h) as [y Hy]. specialize (IH y Hy).
      pose proof (last_registered_snoc k h o y Hy) as Hs.
      pose proof (last_registered_fun _ _ _ _ H Hs) as Ex. rewrite mafter_snoc. subst x.
      destruct o as [k' f|k']; cbn [mstep].
      + rewrite lookup_register. destruct (key_eqb_spec k' k) as [->|N]; [reflexivity|exact IH].
      + unfold mcstas_getFactory. fold (lookup (mafter imp all h) k').
        destruct (lookup (mafter imp all h) k') as [f|] eqn:L; cbn [fst]; [exact IH|].
        destruct (mcstas_loop imp (rev all) k') as [m|] eqn:ML; cbn [fst]; [|exact IH].
        destruct (m_factory m) as [f|] eqn:MF; cbn [fst]; [|exact IH].
        rewrite lookup_register. destruct (key_eqb_spec k' k) as [->|N]; [|exact IH].
        destruct y as [g|]; [congruence|]. right. exists f. split; [reflexivity|]. unfold mstatic. rewrite ML, MF. reflexivity.
  Qed.

  Lemma mcstas_answer imp all (h : list (rop F)) k x : last_registered k h x ->
    snd (mcstas_getFactory imp all (mafter imp all h) k) =
    match x with Some f => Ok f | None => mstatic imp all k end.
  Proof.
    intro H. pose proof (mafter_lookup imp all h k x H) as L. unfold mcstas_getFactory. fold (lookup (mafter imp all h) k).
    destruct x as [f|].
    - rewrite L. reflexivity.
    - unfold mstatic. destruct L as [L|[f [L S]]]; rewrite L; cbn [snd].
      + destruct (mcstas_loop imp (rev all) k) as [m|]; [|reflexivity]. destruct (m_factory m); reflexivity.
      + unfold mstatic in S. symmetry. exact S.
  Qed.
End R.
