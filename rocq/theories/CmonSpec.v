(** What cylindrical monitors should do. *)
From Coq Require Import Reals List.
From Verif Require Import Base RotModel ShapeSpec OptModel OptSpec BmonModel BmonSpec McsSpec.
Open Scope R_scope.

(** the neutron starts inside the cylinder and leaves it after the time s through the side *)
Definition leaves_side (radius height : R) (r : ray) (s : R) : Prop :=
  open_cylinder radius height (r_pos r) /\ 0 < s /\ axis_dist2 (on_line (r_pos r) (r_vel r) s) = radius * radius /\ - height / 2 < vy (on_line (r_pos r) (r_vel r) s) < height / 2.
(** ... or through an end *)
Definition leaves_end (radius height : R) (r : ray) (s : R) : Prop :=
  open_cylinder radius height (r_pos r) /\ 0 < s /\ axis_dist2 (on_line (r_pos r) (r_vel r) s) <= radius * radius /\ Rabs (vy (on_line (r_pos r) (r_vel r) s)) = height / 2.
(** element k has one neutron of the weight p more, and nothing else is changed *)
Definition counted (h h' : list cell) (k : nat) (p : R) : Prop :=
  List.length h' = List.length h /\ (exists c c', nth_error h k = Some c /\ nth_error h' k = Some c' /\ c_N c' = c_N c + 1 /\ c_p c' = c_p c + p /\ c_p2 c' = c_p2 c + p ^ 2) /\
  forall m, m <> k -> nth_error h' m = nth_error h m.
