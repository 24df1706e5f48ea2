(** Vocabulary for C26. *)
From Coq Require Import List String.
From Verif Require Import Base ProxyModel.
Import ListNotations.
Open Scope string_scope.
Open Scope list_scope.

(** the value of the last assignment to [n] in a history *)
Inductive last_assigned {V} (n : string) : list (op V) -> option V -> Prop :=
| la_never : forall h, (forall v, ~ In (OSet n v) h) -> last_assigned n h None
| la_last : forall h1 v h2, (forall u, ~ In (OSet n u) h2) ->
    last_assigned n (h1 ++ OSet n v :: h2) (Some v).

(** [v] is listed for name [n] *)
Definition lists {V} (l : list (string * V)) (n : string) (v : V) : Prop := In (n, v) l.
Definition unlisted {V} (l : list (string * V)) (n : string) : Prop := forall v, ~ In (n, v) l.

(** the value a parameter should have: the last one assigned; else the one given
    at construction; else the default; else none *)
Inductive intended {V} (params kwds : list (string * V)) (h : list (op V)) (n : string) : option V -> Prop :=
| in_assigned : forall v w, last_assigned n h (Some v) -> lists params n w \/ lists kwds n w ->
    intended params kwds h n (Some v)
| in_given : forall v, last_assigned n h None -> lists kwds n v -> intended params kwds h n (Some v)
| in_default : forall v, last_assigned n h None -> unlisted kwds n -> lists params n v ->
    intended params kwds h n (Some v)
| in_unknown : unlisted kwds n -> unlisted params n -> intended params kwds h n None.

(** names occur once *)
Definition once {V} (l : list (string * V)) : Prop := NoDup (map fst l).
