(** Property C27: looking up component factories. *)
From Coq Require Import List String Bool.
From Verif Require Import Base RegModel RegSpec RegProofs.
Import ListNotations.
Open Scope string_scope.
Open Scope list_scope.

(** After any history of registrations and lookups, looking up a key that was ever registered gives the factory registered last. *)
Theorem C27_last_registration_wins :
  forall (F : Type) (imp : string -> string -> import F) (all : list string) (h : list (rop F)) (k : key) (f : F),
  last_registered k h (Some f) ->
  snd (getFactory imp all (rafter imp all h) k) = Ok f.
Proof. intros F imp all h k f H. rewrite (getFactory_answer F imp all h k (Some f) H). reflexivity. Qed.
Print Assumptions C27_last_registration_wins.

(** A key never registered: provided failing imports raise ImportError only, the answer, after any history, is that of the FIRST
    repository of repositories.all that has a module of that name; RuntimeError if that module is of another category (even if a later
    repository has a fitting one); NotRegisteredError if no repository has it.  Earlier lookups have no influence. *)
Theorem C27_unregistered_lookup :
  forall (F : Type) (imp : string -> string -> import F) (all : list string) (h : list (rop F)) (k : key),
  last_registered k h None ->
  clean_imports (fun r => imp r (snd k)) all ->
  let answer := snd (getFactory imp all (rafter imp all h) k) in
  (forall m f, first_provides (fun r => imp r (snd k)) all m -> offers m k f -> answer = Ok f) /\
  (forall m c, first_provides (fun r => imp r (snd k)) all m -> m_category m = Some c -> c <> fst k -> answer = Err RuntimeError) /\
  ((forall r, In r all -> imp r (snd k) = ImportError) -> answer = Err NotRegisteredError).
Proof.
  intros F imp all h k H C. cbv zeta. rewrite (getFactory_answer F imp all h k None H).
  destruct (static_first F imp all k new_registry C) as [A [B D]]. split; [|split].
  - intros m f P O. rewrite (A m f P O). reflexivity.
  - intros m c P O N. rewrite (D m c P O N). reflexivity.
  - intro N. rewrite (B N). reflexivity.
Qed.
Print Assumptions C27_unregistered_lookup.

(** What is listed as registered, after any history: within a category each type once, and exactly the types for which "registered"
    answers yes; which are all the keys ever registered and all those looked up with success. *)
Theorem C27_listing :
  forall (F : Type) (imp : string -> string -> import F) (all : list string) (h : list (rop F)),
  let r := rafter imp all h in
  (forall c, NoDup (types_of (r_types r) c)) /\
  (forall c t, In t (types_of (r_types r) c) <-> registered r (c, t) = true) /\
  (forall k f, In (ORegister k f) h -> registered r k = true) /\
  (forall k f, snd (getFactory imp all r k) = Ok f -> registered (rafter imp all (h ++ [OLookup k])) k = true).
Proof.
  intros F imp all h. cbv zeta. split; [|split; [|split]].
  - apply types_nodup.
  - apply (wf_rafter F imp all h).
  - intros k f I. destruct (last_registered_total F k h) as [x H]. pose proof (rafter_lookup F imp all h k x H) as L.
    destruct x as [g|].
    + unfold registered. unfold lookup in L. rewrite L. reflexivity.
    + exfalso. remember None as z eqn:Z. destruct H as [h H|]; [exact (H f I)|discriminate].
  - intros k f G. rewrite rafter_snoc. cbn [rstep]. revert G. unfold getFactory, registered.
    destruct (kget (r_factories (rafter imp all h)) k) eqn:K; cbn [fst snd]; [rewrite K; reflexivity|].
    destruct (getStaticComponent imp all (rafter imp all h) k) as [r' [g|e]] eqn:S; cbn [fst snd]; [|discriminate].
    intros _. apply static_registers in S. subst r'. cbn [register r_factories]. rewrite kget_kset, key_eqb_refl. reflexivity.
Qed.
Print Assumptions C27_listing.

(** The registry of McStas components: the last registration wins there too, but among the repositories the LAST one that can provide the
    component is taken, and any failure to import counts as "not there". *)
Theorem C27_mcstas_lookup :
  forall (F : Type) (imp : string -> key -> import F) (all : list string) (h : list (rop F)) (k : key) x,
  last_registered k h x ->
  let answer := snd (mcstas_getFactory imp all (mafter imp all h) k) in
  (forall f, x = Some f -> answer = Ok f) /\
  (x = None -> forall m f, last_provides (fun r => imp r k) all m -> m_factory m = Some f -> answer = Ok f) /\
  (x = None -> (forall r, In r all -> forall m, imp r k <> Imported m) -> answer = Err NotRegisteredError).
Proof.
  intros F imp all h k x H. cbv zeta. rewrite (mcstas_answer F imp all h k x H). split; [|split].
  - intros f ->. reflexivity.
  - intros -> m f L O. unfold mstatic. pose proof (mcstas_loop_spec F imp all k) as S.
    destruct (mcstas_loop imp (rev all) k) as [m'|].
    + rewrite (last_provides_fun F _ _ _ _ S L), O. reflexivity.
    + exfalso. destruct L as [pre repo post m H1 H2]. apply (S repo ltac:(apply in_or_app; right; left; reflexivity) m H2).
  - intros -> N. unfold mstatic. pose proof (mcstas_loop_spec F imp all k) as S.
    destruct (mcstas_loop imp (rev all) k) as [m'|]; [|reflexivity].
    exfalso. destruct S as [pre repo post m H1 H2]. apply (N repo ltac:(apply in_or_app; right; left; reflexivity) m H2).
Qed.
Print Assumptions C27_mcstas_lookup.

(** ** Concrete case and findings *)
Definition demo_imp (repo type : string) : import nat :=
  if String.eqb type "Moderator" then
    (if String.eqb repo "mcni.components" then Imported (mkMod (Some "sources") (Some 1))
     else if String.eqb repo "user.components" then Imported (mkMod (Some "sources") (Some 2)) else ImportError)
  else ImportError.
Definition demo_repos : list string := ["mcni.components"; "user.components"].

Example C27_example :
  last_registered ("sources", "Moderator") [OLookup (F := nat) ("sources", "Moderator"); ORegister ("samples", "V") 9] None /\
  clean_imports (fun r => demo_imp r "Moderator") demo_repos /\
  first_provides (fun r => demo_imp r "Moderator") demo_repos (mkMod (Some "sources") (Some 1)) /\
  last_provides (fun r => demo_imp r "Moderator") demo_repos (mkMod (Some "sources") (Some 2)) /\
  last_registered ("samples", "V") [ORegister ("samples", "V") 8; OLookup ("samples", "V"); ORegister ("samples", "V") 9] (Some 9) /\
  snd (getFactory demo_imp demo_repos new_registry ("samples", "Moderator")) = Err RuntimeError /\
  types_of (r_types (rafter demo_imp demo_repos [ORegister ("sources", "A") 5; OLookup ("sources", "Moderator"); ORegister ("sources", "A") 6])) "sources"
    = ["A"; "Moderator"].
Proof.
  split; [apply lr_never; intros f [H|[H|[]]]; discriminate|].
  split; [intros r e [<-|[<-|[]]]; discriminate|].
  split; [apply (fp (fun r => demo_imp r "Moderator") [] "mcni.components" ["user.components"]); [intros r []|reflexivity]|].
  split; [apply (lp (fun r => demo_imp r "Moderator") ["mcni.components"] "user.components" []); [intros r []|reflexivity]|].
  split; [apply (lr_last ("samples", "V") [ORegister ("samples", "V") 8; OLookup ("samples", "V")]); intros g []|].
  split; reflexivity.
Qed.

(** Finding: the comment in the McStas registry, "look in the last repository first", which the mcni registry copies by reversing its
    list, is not what the mcni registry does: with the same two repositories the two registries choose differently. *)
Theorem C27_last_repository_first_refuted :
  exists (imp : string -> string -> import nat) (all : list string) (k : key) (m : module nat) (f : nat),
    clean_imports (fun r => imp r (snd k)) all /\
    last_provides (fun r => imp r (snd k)) all m /\ offers m k f /\
    snd (mcstas_getFactory (fun r key => imp r (snd key)) all new_registry k) = Ok f /\
    snd (getFactory imp all new_registry k) <> Ok f.
Proof.
  exists demo_imp, demo_repos, ("sources", "Moderator"), (mkMod (Some "sources") (Some 2)), 2.
  split; [apply C27_example|]. split; [apply C27_example|]. split; [split; reflexivity|]. split; [reflexivity|].
  cbn. discriminate.
Qed.
Print Assumptions C27_last_repository_first_refuted.
