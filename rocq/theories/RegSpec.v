(** Vocabulary for C27. *)
From Coq Require Import List String.
From Verif Require Import Base RegModel.
Import ListNotations.
Open Scope list_scope.

(** the factory registered last under [k], if any *)
Inductive last_registered {F} (k : key) : list (rop F) -> option F -> Prop :=
| lr_never : forall h, (forall f, ~ In (ORegister k f) h) -> last_registered k h None
| lr_last : forall h1 f h2, (forall g, ~ In (ORegister k g) h2) ->
    last_registered k (h1 ++ ORegister k f :: h2) (Some f).

(** [m] is what the first repository of [all] that has the type provides *)
Inductive first_provides {F} (imp : string -> import F) : list string -> module F -> Prop :=
| fp : forall pre repo post m,
    (forall r, In r pre -> imp r = ImportError) -> imp repo = Imported m ->
    first_provides imp (pre ++ repo :: post) m.
(** [m] is what the last repository of [all] that has the type provides *)
Inductive last_provides {F} (imp : string -> import F) : list string -> module F -> Prop :=
| lp : forall pre repo post m,
    (forall r, In r post -> forall m', imp r <> Imported m') -> imp repo = Imported m ->
    last_provides imp (pre ++ repo :: post) m.

(** all a failed import ever raises is ImportError *)
Definition clean_imports {F} (imp : string -> import F) (all : list string) : Prop :=
  forall r e, In r all -> imp r <> OtherError e.

(** [m] is a component module for key [k]: right category, and it has the factory [f] *)
Definition offers {F} (m : module F) (k : key) (f : F) : Prop :=
  m_category m = Some (fst k) /\ m_factory m = Some f.
