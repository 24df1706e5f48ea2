(** C93: a mirror plate. *)
From Coq Require Import Reals Lra Lia.
From Verif Require Import Base RotModel ChanModel ShapeModel ChanProofs GridProofs OptModel OptSpec GuidModel MirrModel MirrSpec MirrProofs.
Open Scope R_scope.

(** the documented example *)
Definition example_plate (transmit : bool) : plate := mkPlate (1 / 10) (1 / 10) (99 / 100) (21 / 1000) (61 / 10) 2 (3 / 1000) true transmit None.

(** A neutron whose line meets the plate, now or later, is moved there and reflected: its velocity is the mirror image.  With the reflectivity B, the value of the
    formula or of the table brought between 0 and 1: without [transmit] its weight is multiplied with B; with [transmit] it is reflected when the random number is
    below B and passes otherwise, with its weight.  For m = 0 it is absorbed. *)
Theorem C93_mirror : forall c u r s, vz (r_vel r) <> 0 -> reaches c r s ->
  exists at_plate back, flown weightless r s at_plate /\ vz (r_pos at_plate) = 0 /\ mirror_image at_plate back /\ r_p back = r_p r /\
    (p_m c = 0 -> plate_trace c u r = absorb back) /\
    (p_m c <> 0 -> exists B, nearest B (plate_B c (transfer r)) /\
      (p_transmit c = false -> (B = 0 -> plate_trace c u r = absorb back) /\ (0 < B -> plate_trace c u r = with_p back (r_p r * B))) /\
      (p_transmit c = true -> 0 <= u -> (u < B -> plate_trace c u r = back) /\ (B <= u -> plate_trace c u r = at_plate))).
Proof. exact reached. Qed.
Print Assumptions C93_mirror.
Example C93_mirror_ex : reaches (example_plate true) (mkRay (mkV 0 0 (-1)) (mkV 0 (1 / 50) 1) 0 0 0 1) 1 /\
  transfer (mkRay (mkV 0 0 (-1)) (mkV 0 (1 / 50) 1) 0 0 0 1) <= p_Qc (example_plate true).
Proof.
  split; [|unfold transfer; cbn; rewrite Rabs_R1; lra]. unfold reaches, on_plate, coordinate. cbn. split; [lra|]. split; [lra|]. split; apply Rabs_le; lra.
Qed.

(** Every other neutron is left as it is. *)
Theorem C93_other : forall c u r, (vz (r_vel r) = 0 \/ forall s, ~ reaches c r s) -> plate_trace c u r = r.
Proof. intros c u r [Z|N]; [now apply along_plane|now apply passes_by]. Qed.
Print Assumptions C93_other.
Example C93_other_ex : plate_trace (example_plate true) 0 (mkRay (mkV 0 0 1) (mkV 0 0 1) 0 0 0 1) = mkRay (mkV 0 0 1) (mkV 0 0 1) 0 0 0 1.
Proof. apply C93_other. right. intros s (S0 & Sz & _). unfold coordinate in Sz. cbn in Sz. lra. Qed.

(** Weights do not grow: a neutron leaves with a weight between 0 and its own, or absorbed. *)
Theorem C93_weight : forall c u r, 0 <= r_p r -> 0 <= r_p (plate_trace c u r) <= r_p r \/ r_p (plate_trace c u r) = -1.
Proof.
  intros c u r P. unfold plate_trace. cbv zeta. destruct (Reqb (vz (r_vel r)) 0); [left; lra|]. destruct (Rltb _ 0); [left; lra|]. destruct (plate_hit c _ _); [|left; lra].
  destruct (Reqb (p_m c) 0); [right; reflexivity|]. pose proof (clip_nearest (plate_B c (Rabs (2 * vz (r_vel r) * V2Q)))) as (N & _). set (B := clip _) in *. clearbody B.
  destruct (p_transmit c); [destruct (Reqb B 0 || Rleb B u)%bool; left; cbn; lra|]. destruct (Reqb B 0); [right; reflexivity|left; cbn; nra].
Qed.
Print Assumptions C93_weight.
Example C93_weight_ex : 0 <= r_p (plate_trace (example_plate true) 0 (mkRay (mkV 0 0 (-1)) (mkV 0 0 1) 0 0 0 1)) <= 1 \/ r_p (plate_trace (example_plate true) 0 (mkRay (mkV 0 0 (-1)) (mkV 0 0 1) 0 0 0 1)) = -1.
Proof. apply C93_weight. cbn. lra. Qed.

(** The formula: R0 up to Qc, never above R0, 0 from ten widths above m Qc. *)
Theorem C93_reflectivity : forall c q, p_table c = None -> 0 <= p_R0 c -> 0 <= p_alpha c -> 0 <= p_W c ->
  (q <= p_Qc c -> plate_B c q = p_R0 c) /\ plate_B c q <= p_R0 c /\ (p_Qc c < q -> p_m c * p_Qc c + 10 * p_W c <= q -> plate_B c q = 0).
Proof. exact plate_B_bounds. Qed.
Print Assumptions C93_reflectivity.
Example C93_reflectivity_ex : plate_B (example_plate true) (1 / 100) = 99 / 100 /\ plate_B (example_plate true) (1 / 10) = 0.
Proof.
  destruct (C93_reflectivity (example_plate true) (1 / 100)) as (A & _); try reflexivity; try (cbn; lra).
  destruct (C93_reflectivity (example_plate true) (1 / 10)) as (_ & _ & B); try reflexivity; try (cbn; lra). cbn in A, B. split; [apply A|apply B]; lra.
Qed.
(** The other half of the formula: below ten widths above m Qc it is this. *)
Theorem C93_formula : forall c q, p_table c = None -> 0 < p_W c -> p_Qc c < q -> q < p_m c * p_Qc c + 10 * p_W c ->
  let e := exp (2 * ((q - p_m c * p_Qc c) / p_W c)) in plate_B c q = p_R0 c * (1 - p_alpha c * (q - p_Qc c)) / (1 + e).
Proof.
  intros c q T W Q L e. unfold plate_B. rewrite T, (proj2 (Rltb_t _ _) Q), (proj2 (Reqb_f (p_W c) 0)) by lra. cbv zeta. set (arg := (q - p_m c * p_Qc c) / p_W c) in *.
  assert (A : arg < 10) by (subst arg; apply Rmult_lt_reg_r with (p_W c); [lra|]; unfold Rdiv; rewrite Rmult_assoc, Rinv_l by lra; lra). rewrite (proj2 (Rltb_t _ _) A).
  assert (E : e = exp arg * exp arg) by (subst e; rewrite <- exp_plus; f_equal; ring). rewrite E. unfold tanh, sinh, cosh. rewrite exp_Ropp. pose proof (exp_pos arg) as P. set (a := exp arg) in *. clearbody a.
  assert (0 < a * a) by nra. field. repeat split; try lra; nra.
Qed.
Print Assumptions C93_formula.
Example C93_formula_ex : plate_B (example_plate true) (42 / 1000) = 99 / 100 * (1 - 61 / 10 * (42 / 1000 - 21 / 1000)) / 2.
Proof.
  rewrite (C93_formula (example_plate true) (42 / 1000)); [|reflexivity|cbn; lra|cbn; lra|cbn; lra]. cbn [p_R0 p_alpha p_Qc p_m p_W example_plate].
  replace (2 * ((42 / 1000 - 2 * (21 / 1000)) / (3 / 1000))) with 0 by field. rewrite exp_0. field.
Qed.
