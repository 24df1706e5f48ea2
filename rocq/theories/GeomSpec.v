(** Vocabulary for C21: what declarations of positions and orientations mean. *)
From Verif Require Import Base GeomModel.

(** [r] is what the reference [ref] means in the declaration of [e]: itself, or for "previous" the element just before the first
    occurrence of [e] in the sequence. *)
Definition refers (seq : option (list string)) (ref e r : string) : Prop :=
  (ref <> "previous"%string /\ r = ref) \/
  (ref = "previous"%string /\ exists before after, seq = Some (before ++ r :: e :: after) /\ ~ In e (before ++ [r])).

Section Spec.
Context {P O : Type} (transformer : P -> O -> P -> O -> P * O) (zero : P) (ident : O).
Variables (reg : string -> option (coord P * coord O)) (seq : option (list string)).

(** The orientation of [e] is [o], found by following a chain of [d] declarations. *)
Inductive has_ori : nat -> string -> O -> Prop :=
| ori_absolute : forall e cp v, reg e = Some (cp, Absolute v) -> has_ori 1 e v
| ori_relative : forall e cp v ref r d o, reg e = Some (cp, Relative v ref) -> refers seq ref e r -> has_ori d r o ->
    has_ori (S d) e (snd (transformer zero o zero v)).

(** The position of [e] is [p]; the chains needed are not longer than [d]. *)
Inductive has_pos : nat -> string -> P -> Prop :=
| pos_absolute : forall e v co, reg e = Some (Absolute v, co) -> has_pos 1 e v
| pos_relative : forall e co v ref r d d' p o, reg e = Some (Relative v ref, co) -> refers seq ref e r ->
    has_pos d r p -> has_ori d' r o -> has_pos (S (max d d')) e (fst (transformer p o v ident)).

(** A set of elements each of which is placed (oriented) relative to another one of them. *)
Definition cyclic_ori (C : string -> Prop) : Prop :=
  forall e, C e -> exists cp v ref r, reg e = Some (cp, Relative v ref) /\ refers seq ref e r /\ C r.
Definition cyclic_pos (C : string -> Prop) : Prop :=
  forall e, C e -> exists v ref co r, reg e = Some (Relative v ref, co) /\ refers seq ref e r /\ C r.
End Spec.

(** The registry after a list of calls; the last registration of a name counts. *)
Fixpoint declared {P O} (l : list (gop P O)) (reg : string -> option (coord P * coord O)) : string -> option (coord P * coord O) :=
  match l with
  | [] => reg
  | ORegister e p o :: l' => declared l' (fun q => if String.eqb e q then Some (p, o) else reg q)
  | _ :: l' => declared l' reg
  end.
Definition declarations {P O} (l : list (gop P O)) := declared l (fun _ => None).
(** names in the order of their registration *)
Fixpoint registered {P O} (l : list (gop P O)) : list string :=
  match l with [] => [] | ORegister e _ _ :: l' => e :: registered l' | _ :: l' => registered l' end.
