(** Specification for C39. *)
From Coq Require Import Reals.
From Coquelicot Require Import Coquelicot.
From Verif Require Import Base RotModel RotSpec ChanModel ShapeModel ScatModel ScatSpec KernModel.
Open Scope R_scope.

(** Sum of a list. *)
Definition total (l : list R) : R := fold_right Rplus 0 l.
(** Sum of the first [i] elements. *)
Definition before (ws : list R) (i : nat) : R := total (firstn i ws).
(** The share of each weight. *)
Definition share (ws : list R) (i : nat) : R := nth i ws 0 / total ws.

(** What sub-kernel [k], mounted with orientation [m], does on its own with an event: it sees the velocity in its own axes. *)
Definition mounted (act : event -> event) (m : mat3) (ev : event) : event :=
  let out := act (mkE (e_r ev) (dot_mv (transpose m) (e_v ev)) (e_s1 ev) (e_s2 ev) (e_t ev) (e_p ev)) in
  mkE (e_r out) (dot_mv m (e_v out)) (e_s1 out) (e_s2 out) (e_t out) (e_p out).
(** An action that treats the weight as a weight. *)
Definition linear (act : event -> event) : Prop :=
  forall e e' k, 0 < k -> same_but_weight e e' -> e_p e' = k * e_p e ->
    same_but_weight (act e) (act e') /\ e_p (act e') = k * e_p (act e).
(** The weight found in an observable. *)
Definition seen (Q : event -> R) (ev : event) : R := e_p ev * Q ev.
Definition seen_in (Q : event -> R) (r : result event) : R := match r with Ok ev => seen Q ev | Err _ => 0 end.
(** Sum over the kernels with a positive weight. *)
Fixpoint over (f : kernel -> mat3 -> R) (ks : list kernel) (ws : list R) (ms : list mat3) : R :=
  match ks, ws, ms with
  | k :: ks, w :: ws, m :: ms => (if Rlt_dec 0 w then f k m else 0) + over f ks ws ms
  | _, _, _ => 0
  end.
