(** Vocabulary for C46, C47. *)
From Coq Require Import List String.
From Verif Require Import Base DirModel.
Import ListNotations.

(** where a relative path leads from a directory; the root is its own parent *)
Inductive leads : path -> list string -> path -> Prop :=
| leads_here : forall c, leads c [] c
| leads_dot : forall c l t, leads c l t -> leads c ("."%string :: l) t
| leads_up : forall c x l t, leads c l t -> leads (c ++ [x]) (".."%string :: l) t
| leads_root : forall l t, leads [] l t -> leads [] (".."%string :: l) t
| leads_down : forall c n l t, n <> "."%string -> n <> ".."%string -> leads (c ++ [n]) l t -> leads c (n :: l) t.
(** the directory that the caller means *)
Inductive meant (c : path) : dirspec -> path -> Prop :=
| meant_abs : forall p, meant c (Abs p) p
| meant_rel : forall l t, leads c l t -> meant c (Rel l) t.

(** the function removes no directory *)
Definition removes_nothing {X A} (f : action X A) : Prop :=
  forall w p, dirs w p = true -> dirs (fst (f w)) p = true.

(** all of the ranks 0 .. n-1 have ended *)
Definition all_ended (n : nat) (s : shared) : Prop := forall r, r < n -> ended (at_ s r) = true.
(** only ranks below n move *)
Definition of_ranks (n : nat) (sched : list nat) : Prop := forall r, In r sched -> r < n.
