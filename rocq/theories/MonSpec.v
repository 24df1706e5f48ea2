(** Vocabulary for C32 and C33. *)
From Coq Require Import Reals Lra.
From Verif Require Import Base RotModel ChanModel ChanSpec MonModel.
Open Scope R_scope.

(** [m] is the neutron [n] at the moment (before or after now) at which it is in the plane z = 0. *)
Definition crosses (n m : event) : Prop :=
  exists dt, vz (e_r n) + vz (e_v n) * dt = 0 /\ vz (e_v n) <> 0 /\
    e_r m = displaced (e_r n) (e_v n) dt /\ e_v m = e_v n /\ e_t m = e_t n + dt /\
    e_s1 m = e_s1 n /\ e_s2 m = e_s2 n /\ e_p m = e_p n.

(** [ms] are, in order, the crossings of those neutrons of [ns] for which the crossing satisfies [P]. *)
Inductive crossings (P : event -> Prop) : list event -> list event -> Prop :=
| cr_nil : crossings P [] []
| cr_take n m ns ms : crosses n m -> P m -> crossings P ns ms -> crossings P (n :: ns) (m :: ms)
| cr_skip n ns ms : (forall m, crosses n m -> ~ P m) -> crossings P ns ms -> crossings P (n :: ns) ms.

(** Closed rectangle of given size centred on the axis. *)
Definition on_monitor (w h : R) (m : event) : Prop := - w / 2 <= vx (e_r m) <= w / 2 /\ - h / 2 <= vy (e_r m) <= h / 2.

(** Valid axes: a range and at least one bin. *)
Definition axis_ok (a : axis) : Prop := a_min a < a_max a /\ (0 < a_bins a)%nat.

(** The k-th bin of an axis: the k-th of [a_bins] equal parts of the range, half open, the last one closed. *)
Definition in_bin (a : axis) (k : nat) (x : R) : bool :=
  let w := (a_max a - a_min a) / INR (a_bins a) in
  (Nat.ltb k (a_bins a) && Rleb (a_min a + INR k * w) x &&
   (Rltb x (a_min a + (INR k + 1) * w) || (Nat.eqb (S k) (a_bins a) && Rleb x (a_max a))))%bool.
(** A neutron is in the bin with this multi-index: its value on every axis is a number and in the bin. *)
Fixpoint in_bins (axes : list axis) (idx : list nat) (m : event) : bool :=
  match axes, idx with
  | [], [] => true
  | a :: axes', k :: idx' => (match a_expr a m with Some x => in_bin a k x | None => false end && in_bins axes' idx' m)%bool
  | _, _ => false
  end.
(** A neutron is within all axis ranges. *)
Definition in_ranges (axes : list axis) (m : event) : bool :=
  forallb (fun a => match a_expr a m with Some x => (Rleb (a_min a) x && Rleb x (a_max a))%bool | None => false end) axes.

(** All multi-indexes of an array of the given shape. *)
Fixpoint all_indices (shape : list nat) : list (list nat) :=
  match shape with
  | [] => [[]]
  | b :: s => flat_map (fun k => map (cons k) (all_indices s)) (seq 0 b)
  end.
Definition rsum (l : list R) : R := fold_right Rplus 0 l.
Definition sum_bins (shape : list nat) (f : list nat -> R) : R := rsum (map f (all_indices shape)).

(** Position of a neutron in units of pixels, from the corner (xmin, ymin), and its time in units of time bins. *)
Definition x_pos (a : area) (m : event) : R := (vx (e_r m) - xmin a) * IZR (nx a) / (xmax a - xmin a).
Definition y_pos (a : area) (m : event) : R := (vy (e_r m) - ymin a) * IZR (ny a) / (ymax a - ymin a).
Definition t_pos (a : area) (m : event) : R := (e_t m - tmin a) * IZR (ntof a) / (tmax a - tmin a).
Definition area_ok (a : area) : Prop :=
  xmin a < xmax a /\ ymin a < ymax a /\ tmin a < tmax a /\ (0 < nx a)%Z /\ (0 < ny a)%Z /\ (0 < ntof a <= 2 ^ 32)%Z /\
  (nx a * ny a + ny a <= 2 ^ 32)%Z.
(** The half-open window of the detector. *)
Definition in_detector (a : area) (m : event) : Prop :=
  in_interval (xmin a) (xmax a) (vx (e_r m)) /\ in_interval (ymin a) (ymax a) (vy (e_r m)) /\ in_interval (tmin a) (tmax a) (e_t m).
(** x is in the k-th cell of a grid with unit spacing *)
Definition in_cell (k : Z) (x : R) : Prop := IZR k <= x < IZR k + 1.
