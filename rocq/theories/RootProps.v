(** C65: finding the roots of a function. *)
From Coq Require Import Reals Lra.
From Verif Require Import Base RotModel ShapeModel ChanModel RootModel RootSpec RootProofs RootProofs2 RootProofs3.
Open Scope R_scope.

(** C65.  ZRidd gives a value if f changes sign between the ends, and says it failed otherwise; it throws nothing. *)
Theorem C65_zridd_finds : forall (f : R -> R) (x1 x2 xacc : R),
  0 < xacc -> -111 * 10 ^ 28 + xacc < Rmin x1 x2 -> Rabs (x2 - x1) <= 2 ^ 59 * xacc ->
  (changes_sign f x1 x2 -> exists x, ZRidd_solve xacc x1 x2 f = Found x) /\ (~ changes_sign f x1 x2 -> ZRidd_solve xacc x1 x2 f = Failed).
Proof.
  intros f x1 x2 xacc X U W. rewrite <- UNUSED_eq in U. split; intros H; [apply zridd_finds; try assumption; now apply sign_cases|].
  apply zridd_failed, Rnot_le_lt. intros K. now apply H, sign_cases.
Qed.
Print Assumptions C65_zridd_finds.

(** C65.  The value is between the ends.  It is a root, or f changes sign between it and a point at most xacc away, or it is an end of an interval in which f changes sign and in which the next estimate is at most xacc away. *)
Theorem C65_zridd_answer : forall (f : R -> R) (x1 x2 xacc x : R),
  ZRidd_solve xacc x1 x2 f = Found x ->
  changes_sign f x1 x2 /\ within x1 x2 x /\
  (f x = 0 \/ exists a b, within x1 x2 a /\ within x1 x2 b /\ f a * f b < 0 /\ (x = a \/ x = b) /\ (Rabs (b - a) <= xacc \/ exists y, within a b y /\ Rabs (y - x) <= xacc)).
Proof. intros f x1 x2 xacc x H. apply zridd_found in H. rewrite sign_cases. destruct H as (A & B & [C|(a & b & C & D & E & F & [G|(y & G1 & _ & G2)])]); split; try exact A; split; try exact B; [now left| |]; right; exists a, b; eauto 10. Qed.
Print Assumptions C65_zridd_answer.

(** C65.  Where f is continuous a value means a root between the ends. *)
Theorem C65_zridd_root : forall (f : R -> R) (x1 x2 xacc x : R),
  continuous_between f x1 x2 -> ZRidd_solve xacc x1 x2 f = Found x -> exists r, within x1 x2 r /\ f r = 0.
Proof. intros f x1 x2 xacc x C H. apply zridd_found in H. apply ivt; tauto. Qed.
Print Assumptions C65_zridd_root.

(** C65.  The root of a straight line is found exactly. *)
Theorem C65_zridd_line : forall (m c x1 x2 xacc : R),
  0 <= xacc -> -111 * 10 ^ 28 + xacc < Rmin x1 x2 -> (m * x1 + c) * (m * x2 + c) < 0 ->
  exists x, ZRidd_solve xacc x1 x2 (fun x => m * x + c) = Found x /\ m * x + c = 0.
Proof.
  intros m c x1 x2 xacc X U S. rewrite <- UNUSED_eq in U. exists (- c / m). split; [now apply zridd_linear|]. field. intros ->. nra.
Qed.
Print Assumptions C65_zridd_line.

(** C65.  If the slopes of f are between m > 0 and M, or those of - f, the value is at most 2 (M/m)^2 xacc from a root. *)
Theorem C65_zridd_accuracy : forall (f : R -> R) (x1 x2 xacc x m M : R),
  0 <= xacc -> 0 < m -> m <= M -> continuous_between f x1 x2 -> slopes_within f x1 x2 m M \/ slopes_within (fun x => - f x) x1 x2 m M -> ZRidd_solve xacc x1 x2 f = Found x ->
  exists r, within x1 x2 r /\ f r = 0 /\ Rabs (x - r) <= 2 * (M / m) ^ 2 * xacc.
Proof. intros f x1 x2 xacc x m M X m0 mM C S H. exact (zridd_accuracy f x1 x2 xacc x m M C S m0 mM X H). Qed.
Print Assumptions C65_zridd_accuracy.

(** C65.  The value need not be near a root, also for a continuous function: there is one where the nearest root is more than twenty tolerances away. *)
Theorem C65_accuracy_refuted : ~ (forall (f : R -> R) (x1 x2 xacc x : R),
  0 < xacc -> -111 * 10 ^ 28 + xacc < Rmin x1 x2 -> Rabs (x2 - x1) <= 2 ^ 59 * xacc -> continuous_between f x1 x2 -> ZRidd_solve xacc x1 x2 f = Found x -> exists r, f r = 0 /\ Rabs (r - x) <= 20 * xacc).
Proof.
  intros H. destruct (H spike 0 2 (1 / 1000) (9 / 5)) as (r & E & A); try lra; [unfold Rmin; destruct (Rle_dec 0 2); lra|rewrite Rabs_right; lra|intros x _; apply spike_continuous|exact spike_answer|]. apply spike_far in E. lra.
Qed.
Print Assumptions C65_accuracy_refuted.

(** C65.  FindRootsEvenly gives one value for each step in which f changes sign, in the order of the steps, and none for the others. *)
Theorem C65_find_roots : forall (f : R -> R) (x1 x2 xacc : R) (n : nat),
  0 < xacc -> -111 * 10 ^ 28 + xacc < Rmin x1 x2 -> Rabs (x2 - x1) <= INR n * (2 ^ 59 * xacc) ->
  exists r : nat -> list R, find_roots_evenly (ZRidd_solve xacc) n x1 x2 f = flat_map r (seq 0 n) /\
    forall i, (i < n)%nat ->
      (changes_sign f (grid x1 x2 n i) (grid x1 x2 n (i + 1)) -> exists x, r i = [x] /\ within (grid x1 x2 n i) (grid x1 x2 n (i + 1)) x) /\
      (~ changes_sign f (grid x1 x2 n i) (grid x1 x2 n (i + 1)) -> r i = []).
Proof.
  intros f x1 x2 xacc n X U W. rewrite <- UNUSED_eq in U. exists (root_of_step (ZRidd_solve xacc) f x1 ((x2 - x1) / INR n)). split; [reflexivity|].
  intros i I. destruct (root_of_step_spec f xacc x1 x2 n i I X U W) as [A B]. split; [intros H; destruct (A H) as (x & E & K & _); eauto|exact B].
Qed.
Print Assumptions C65_find_roots.

(** C65.  Not every root is found: a root at which f does not change sign between the ends of a step is missed. *)
Theorem C65_all_roots_refuted : ~ (forall (f : R -> R) (x1 x2 xacc : R) (n : nat) (r : R),
  0 < xacc -> (0 < n)%nat -> x1 < x2 -> (forall x, continuity_pt f x) -> x1 < r < x2 -> f r = 0 -> find_roots_evenly (ZRidd_solve xacc) n x1 x2 f <> []).
Proof.
  intros H. apply (H (fun x => (x - 1) * (x - 2)) 0 3 1 1%nat 1); try lra; [lia|intros x; apply derivable_continuous_pt; reg|].
  unfold find_roots_evenly. cbn [seq flat_map]. unfold root_of_step, ZRidd_solve. rewrite zridd_failed; [reflexivity|]. replace (INR (0 + 1)) with 1 by reflexivity. replace (INR 0) with 0 by reflexivity. replace (INR 1) with 1 by reflexivity. lra.
Qed.
Print Assumptions C65_all_roots_refuted.

(** C65.  A root is not found once only: one at an inner point of the grid is found twice. *)
Theorem C65_once_refuted : ~ (forall (f : R -> R) (x1 x2 xacc : R) (n : nat), 0 < xacc -> NoDup (find_roots_evenly (ZRidd_solve xacc) n x1 x2 f)).
Proof.
  intros H. specialize (H (fun x => x) (-1) 1 1 2%nat ltac:(lra)). unfold find_roots_evenly in H. cbn [seq flat_map] in H. unfold root_of_step, ZRidd_solve in H.
  replace (INR 2) with 2 in H by reflexivity. replace (INR 0) with 0 in H by reflexivity. replace (INR (0 + 1)) with 1 in H by reflexivity. replace (INR 1) with 1 in H by reflexivity. replace (INR (1 + 1)) with 2 in H by reflexivity.
  replace (-1 + (1 - -1) / 2 * 0) with (-1) in H by lra. replace (-1 + (1 - -1) / 2 * 1) with 0 in H by lra. replace (-1 + (1 - -1) / 2 * 2) with 1 in H by lra.
  unfold zridd in H. rewrite !(proj2 (Rleb_iff 0 _)) in H by lra. rewrite (proj2 (Reqb_not (-1) 0)) in H by lra. rewrite !(proj2 (Reqb_iff 0 0)) in H by reflexivity. cbn [app] in H. inversion H as [|? ? N _]. apply N. now left.
Qed.
Print Assumptions C65_once_refuted.

Example C65_finds_example : exists x, ZRidd_solve (1 / 1000) 0 3 (fun x => x * x * x - 2) = Found x.
Proof.
  apply C65_zridd_finds; [lra|unfold Rmin; destruct (Rle_dec 0 3); lra|rewrite Rabs_right; lra|]. left. lra.
Qed.
Example C65_failed_example : ZRidd_solve (1 / 1000) 2 3 (fun x => x * x * x - 2) = Failed.
Proof. apply C65_zridd_finds; [lra|unfold Rmin; destruct (Rle_dec 2 3); lra|rewrite Rabs_right; lra|]. unfold changes_sign. lra. Qed.
Example C65_answer_example : ZRidd_solve (1 / 1000) 0 2 spike = Found (9 / 5).
Proof. exact spike_answer. Qed.
Example C65_root_example : continuous_between spike 0 2. Proof. intros x _. apply spike_continuous. Qed.
Example C65_line_example : exists x, ZRidd_solve 0 (-1) 4 (fun x => 2 * x + -3) = Found x /\ 2 * x + -3 = 0.
Proof. apply C65_zridd_line; [lra|unfold Rmin; destruct (Rle_dec (-1) 4); lra|lra]. Qed.
Example C65_find_roots_example : ~ changes_sign (fun x => x * x - 2) (grid (-4) 4 4 0) (grid (-4) 4 4 1) /\ changes_sign (fun x => x * x - 2) (grid (-4) 4 4 2) (grid (-4) 4 4 3).
Proof.
  unfold grid. replace (INR 4) with 4 by (cbn; lra). replace (INR 3) with 3 by (cbn; lra). replace (INR 1) with 1 by reflexivity. replace (INR 0) with 0 by reflexivity. replace (INR 2) with 2 by reflexivity.
  unfold changes_sign. split; [|left]; lra.
Qed.
Example C65_accuracy_example : slopes_within (fun x => x * x) 1 3 2 6 /\ slopes_within (fun x => - (4 - x * x)) 1 3 2 6.
Proof. split; intros x y X Y L; unfold within in *; rewrite Rmin_left, Rmax_right in * by lra; split; nra. Qed.
