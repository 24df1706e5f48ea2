(** Vocabulary for C59 and C60. *)
From Coq Require Import Reals Sorted.
From Verif Require Import Base RotModel RotSpec ShapeModel ShapeSpec ScatSpec HitModel.
Open Scope R_scope.

(** The neutron is in the open body of element [i] during some time (a,b) that is not over yet, and in no body between now and [a]. *)
Definition first_met (shapes : list shape) (r v : vec3) (i : nat) : Prop :=
  exists s a b, nth_error shapes i = Some s /\ 0 <= a < b /\ (forall t, a < t < b -> core s (on_line r v t)) /\
    forall s' t, In s' shapes -> 0 < t <= a -> ~ core s' (on_line r v t).
(** The neutron does not come into any body. *)
Definition none_met (shapes : list shape) (r v : vec3) : Prop := forall s t, In s shapes -> 0 < t -> ~ core s (on_line r v t).

(** The stretches of time the line spends in a body, in order. *)
Definition profile (s : shape) (r v : vec3) (ivs : list (R * R)) : Prop :=
  (forall a b, In (a, b) ivs -> a < b) /\ StronglySorted (fun p q => snd p <= fst q) ivs /\
  (forall t, core s (on_line r v t) <-> exists a b, In (a, b) ivs /\ a < t < b) /\
  (forall t, solid s (on_line r v t) <-> exists a b, In (a, b) ivs /\ a <= t <= b).
(** The ends of the stretches. *)
Definition ends (ivs : list (R * R)) : list R := flat_map (fun p => [fst p; snd p]) ivs.
(** The line is followed correctly through one body: exactly the ends of the stretches are reported, and no stretch still to come is thin compared
    to the tolerance. *)
Definition followed (tol : R) (s : shape) (r v : vec3) : Prop :=
  exists ivs, profile s r v ivs /\ intersect tol s r v = ends ivs /\
    forall a b, In (a, b) ivs -> 0 < b -> locate tol s (on_line r v ((Rmax a 0 + b) / 2)) = Inside.
(** No two of the bodies overlap on the line; they may touch. *)
Definition apart (shapes : list shape) (r v : vec3) : Prop :=
  forall i j s s' t, nth_error shapes i = Some s -> nth_error shapes j = Some s' -> i <> j -> core s (on_line r v t) -> ~ core s' (on_line r v t).

(** The middle of what lies ahead in the body, if anything, is not within the tolerance of the surface. *)
Definition thick (tol : R) (s : shape) (r v : vec3) : Prop :=
  forall a b, entry_exit s r v a b -> 0 < b -> locate tol s (on_line r v ((Rmax a 0 + b) / 2)) = Inside.

(** Overlap of two bodies: the open bodies have a point in common. *)
Definition overlap (s s' : shape) : Prop := exists p, core s p /\ core s' p.
(** The bodies touch or overlap, up to the tolerance: a point of the surface of the first is not outside of the second. *)
Definition in_contact (tol : R) (s s' : shape) : Prop := exists p, locate tol s p = Onborder /\ locate tol s' p <> Outside.
