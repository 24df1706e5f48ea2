(** Vocabulary for C61 and C62. *)
From Coq Require Import Reals.
From Verif Require Import Base RotModel RotSpec ChanModel ShapeModel ShapeSpec ScatModel HitModel HitSpec CmpsModel.
Open Scope R_scope.

(** The weights of a list of events, added up. *)
Fixpoint total (l : list event) : R := match l with [] => 0 | x :: l' => e_p x + total l' end.
(** No event has a negative weight. *)
Definition sound (l : list event) : Prop := Forall (fun x => 0 <= e_p x) l.
(** An element that creates no weight: what comes out of an event of weight p weighs at most p; attenuation attenuates. *)
Definition frugal (e : element) : Prop :=
  (forall n ev itype l, 0 <= e_p ev -> el_interactM e n ev = Ok (itype, l) -> sound l /\ total l <= e_p ev) /\
  (forall ev stop, 0 <= el_attenuation e ev stop <= 1).

(** The same event with [k] times the weight. *)
Definition times (k : R) (ev : event) : event := RotModel.mkE (e_r ev) (e_v ev) (e_s1 ev) (e_s2 ev) (e_t ev) (k * e_p ev).
(** Apply a function to a result. *)
Definition over {A B} (f : A -> B) (r : result A) : result B := match r with Ok a => Ok (f a) | Err x => Err x end.
(** An element for which the weight is only a factor, when several events are made of one. *)
Definition linearM (e : element) : Prop :=
  (forall k n ev, 0 < k -> el_interactM e n (times k ev) = over (fun r => (fst r, map (times k) (snd r))) (el_interactM e n ev)) /\
  (forall k ev stop, 0 < k -> el_attenuation e (times k ev) stop = el_attenuation e ev stop).
(** Likewise, when one event is made of one. *)
Definition linear (e : element) : Prop :=
  (forall k n ev, 0 < k -> el_interact e n (times k ev) = over (fun r => (fst r, times k (snd r))) (el_interact e n ev)) /\
  (forall k ev stop, 0 < k -> el_attenuation e (times k ev) stop = el_attenuation e ev stop).

(** The neutron after flying on for the time [t] (before, when [t] is negative). *)
Definition later (ev : event) (t : R) : event :=
  RotModel.mkE (on_line (e_r ev) (e_v ev) t) (e_v ev) (e_s1 ev) (e_s2 ev) (e_t ev + t) (e_p ev).
(** An element that lets every neutron through as it is. *)
Definition transparentM (e : element) : Prop :=
  (forall n ev itype l, el_interactM e n ev = Ok (itype, l) -> itype <> Absorption /\ exists t, l = [later ev t]) /\
  (forall ev stop, el_attenuation e ev stop = 1).
Definition transparent (e : element) : Prop :=
  (forall n ev itype x, el_interact e n ev = Ok (itype, x) -> itype <> Absorption /\ exists t, x = later ev t) /\
  (forall ev stop, el_attenuation e ev stop = 1).

(** From now on the neutron is not in the open body. *)
Definition gone (s : shape) (ev : event) : Prop := forall t, 0 <= t -> ~ core s (on_line (e_r ev) (e_v ev) t).
(** From every point of the line exactly the ends of the stretches that it spends in the body are reported. *)
Definition exact_line (tol : R) (s : shape) (r v : vec3) : Prop :=
  exists ivs, profile s r v ivs /\ forall t0, intersect tol s (on_line r v t0) v = map (fun t => t - t0) (ends ivs).
(** No stretch that is still to come is thin compared to the tolerance. *)
Definition thick_ahead (tol : R) (s : shape) (r v : vec3) : Prop :=
  forall ivs a b, profile s r v ivs -> In (a, b) ivs -> 0 < b -> locate tol s (on_line r v ((Rmax a 0 + b) / 2)) = Inside.
(** A neutron that comes from outside and passes through a body, [a] and [b] being the times of its entry and exit. *)
Definition passes (tol : R) (s : shape) (ev : event) (a b : R) : Prop :=
  plain s /\ positive s /\ regular s (e_r ev) (e_v ev) /\ 0 < a /\ entry_exit s (e_r ev) (e_v ev) a b /\
  locate tol s (e_r ev) = Outside /\ locate tol s (on_line (e_r ev) (e_v ev) ((a + b) / 2)) = Inside /\ 1 / 1000000 < sqrt (vdot (e_v ev) (e_v ev)).
(** A body that only absorbs: its kernel gives scattered neutrons no weight. *)
Definition absorber (h : hscatterer) : Prop :=
  (forall x, 0 <= mu h x) /\ (forall x, 0 <= sigma h x) /\ (forall n x, e_p (k_scatter (h_kernel h) n x) = 0).
