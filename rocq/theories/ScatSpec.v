(** Vocabulary for C37 and C38: expectations over uniform random numbers, time spent inside a body. *)
From Coq Require Import Reals.
From Coquelicot Require Import Coquelicot.
From Verif Require Import Base RotModel RotSpec ShapeModel ShapeSpec ScatModel.
Open Scope R_scope.

(** 1 when the proposition holds, else 0. *)
Definition indicator (P : Prop) : R := if ClassicalDedekindReals.sig_not_dec P then 1 else 0.
(** During the first [T] units of time on the line from [r] with velocity [v], [d] are spent in the open body. *)
Definition time_inside (s : shape) (r v : vec3) (T d : R) : Prop :=
  is_RInt (fun t => indicator (core s (on_line r v t))) 0 T d.
(** Length of a vector. *)
Definition len (a : vec3) : R := sqrt (norm2 a).

(** The mean of [f] over two independent random numbers, uniform in [0,1], is [m]. *)
Definition mean2 (f : R -> R -> R) (m : R) : Prop :=
  exists g, (forall u1, 0 < u1 < 1 -> is_RInt (f u1) 0 1 (g u1)) /\ is_RInt g 0 1 m.
(** Same with one random number. *)
Definition mean1 (f : R -> R) (m : R) : Prop := is_RInt f 0 1 m.

(** Times at which the path over [0,T] is cut: its two ends and the reported crossings in between. *)
Definition stop_at (tol : R) (s : shape) (r v : vec3) (T t : R) : Prop := t = 0 \/ t = T \/ (0 < t < T /\ In t (intersect tol s r v)).
(** In the middle between two neighbouring cuts the point is not within the tolerance of the surface: no piece is that thin. *)
Definition clear (tol : R) (s : shape) (r v : vec3) (T : R) : Prop :=
  forall a b, stop_at tol s r v T a -> stop_at tol s r v T b -> a < b -> (forall c, stop_at tol s r v T c -> ~ (a < c < b)) ->
  locate tol s (on_line r v ((a + b) / 2)) <> Onborder.
(** The conditions under which the crossings reported along a ray give the whole picture up to time [T]: a bounded body with positive sizes,
    no crossing missed, no piece too thin. *)
Definition surveyed (tol : R) (s : shape) (r v : vec3) (T : R) : Prop :=
  0 < tol /\ positive s /\ members s /\ v <> mkV 0 0 0 /\ clear tol s r v T /\
  (forall t, 0 < t -> border s (on_line r v t) -> In t (intersect tol s r v)).

(** The body of an element with orientation [m] and position [p], seen in the coordinates of the composite. *)
Definition placed (s : shape) (p : vec3) (m : mat3) : shape := Translation (Rotation s m) p.
(** The flight time to the end point as the code computes it for an element: the start is expressed in the coordinates of the element,
    the end point is taken as it is. *)
Definition flight (ev : event) (stop p : vec3) (m : mat3) : R := len (vsub stop (dot_mv (transpose m) (vsub (e_r ev) p))) / len (e_v ev).
(** Sum over two lists of the same length. *)
Definition sum2 {A : Type} (f : A -> R -> R) (l : list A) (ds : list R) : R :=
  fold_right Rplus 0 (map (fun '(a, d) => f a d) (combine l ds)).

(** The absorption and the scattering coefficient of a scatterer: those of its kernel, or of the calculator given for absorption, times the
    packing factor. *)
Definition absorption_of (h : hscatterer) (ev : event) : R :=
  match h_mu_calc h with Some f => f ev | None => k_absorption (h_kernel h) ev end * h_packing h.
Definition scattering_of (h : hscatterer) (ev : event) : R := k_scattering (h_kernel h) ev * h_packing h.

(** What can be seen of one interaction.  The weight that is transmitted; the weight handed to the kernel to be absorbed, and to be scattered,
    each multiplied by any function [G] of place and time; the weight that leaves after a scattering, multiplied by any function of the event. *)
Definition transmitted (o : result outcome) : R :=
  match o with Ok o => match o_type o with NoInteraction => e_p (o_final o) | _ => 0 end | Err _ => 0 end.
Definition absorbed (G : vec3 -> R -> R) (o : result outcome) : R :=
  match o with Ok o => match o_call o with CallAbsorb e => e_p e * G (e_r e) (e_t e) | _ => 0 end | Err _ => 0 end.
Definition handed (G : vec3 -> R -> R) (o : result outcome) : R :=
  match o with Ok o => match o_call o with CallScatter e => e_p e * G (e_r e) (e_t e) | _ => 0 end | Err _ => 0 end.
Definition scattered (Q : event -> R) (o : result outcome) : R :=
  match o with Ok o => match o_type o with Scattering => e_p (o_final o) * Q (o_final o) | _ => 0 end | Err _ => 0 end.

(** [ev] reaches the scatterer as [ev0] (itself if it is inside already) and has flight time [tof] in it before it leaves for the first time. *)
Definition enters (tol : R) (h : hscatterer) (ev ev0 : event) (tof : R) : Prop :=
  (if loc_eqb (locate_ev tol ev (h_shape h)) Inside then Ok ev else propagate_to_next_incident_surface tol ev (h_shape h)) = Ok ev0 /\
  tof_before_exit tol ev0 (h_shape h) = Ok tof /\ e_v ev0 <> mkV 0 0 0.
Definition total_w (w : weights) : R := w_transmission w + w_absorption w + w_scattering w.
(** Monte Carlo weights a user may give: not negative, not all zero.  A zero weight switches that kind of interaction off. *)
Definition proper_w (w : weights) : Prop := 0 <= w_absorption w /\ 0 <= w_scattering w /\ 0 <= w_transmission w /\ 0 < total_w w.
(** The same scatterer with other Monte Carlo weights. *)
Definition reweigh (h : hscatterer) (w : weights) : hscatterer := mkH (h_shape h) (h_kernel h) (h_mu_calc h) w (h_packing h) (h_loops h) (h_min h).
(** [e'] is [e] with another weight. *)
Definition same_but_weight (e e' : event) : Prop :=
  e_r e = e_r e' /\ e_v e = e_v e' /\ e_s1 e = e_s1 e' /\ e_s2 e = e_s2 e' /\ e_t e = e_t e'.
(** Kernels that treat the weight as a weight: coefficients do not depend on it, scattering multiplies it by a number that does not depend on it. *)
Definition blind (h : hscatterer) : Prop :=
  (forall e e', same_but_weight e e' -> absorption_of h e = absorption_of h e' /\ scattering_of h e = scattering_of h e') /\
  (forall n e e' k, 0 < k -> same_but_weight e e' -> e_p e' = k * e_p e ->
     same_but_weight (k_scatter (h_kernel h) n e) (k_scatter (h_kernel h) n e') /\
     e_p (k_scatter (h_kernel h) n e') = k * e_p (k_scatter (h_kernel h) n e)).
