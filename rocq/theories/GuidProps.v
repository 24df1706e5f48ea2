(** C91: the neutron guide. *)
From Coq Require Import Reals List Lra Lia.
From Verif Require Import Base RotModel ChanModel ShapeModel ChanProofs GridProofs OptModel OptSpec GuidModel GuidSpec GuidProofs GuidProofs2.
Import ListNotations.
Open Scope R_scope.

(** A neutron that comes to the entrance between the mirrors makes a journey: straight flights within the guide, from mirror to mirror, each ended by a
    reflection, with the factor of the reflectivity for the momentum transfer of that reflection, up to the one after which it is free or goes back, or is
    absorbed.  It is left at the place of the last reflection, not at the end of the guide.  A neutron that comes to the entrance elsewhere is absorbed.
    The speed is kept. *)
Theorem C91_guide : forall G r fuel r', 0 < g_l G -> vz (r_vel r) <> 0 -> guide_trace fuel None G r = Ok r' ->
  exists s q, flown weightless r s q /\ vz (r_pos q) = 0 /\ dot (r_vel r') (r_vel r') = dot (r_vel r) (r_vel r) /\
    (Rabs (vx (r_pos q)) < g_w1 G / 2 /\ Rabs (vy (r_pos q)) < g_h1 G / 2 -> journey G q r') /\
    (g_w1 G / 2 <= Rabs (vx (r_pos q)) \/ g_h1 G / 2 <= Rabs (vy (r_pos q)) -> lost q r').
Proof. exact guide_journey. Qed.
Print Assumptions C91_guide.
(** A straight guide always ends its loop for forward neutrons, and keeps vz and the absolute values of vx and vy. *)
Theorem C91_straight : forall G r, 0 < g_l G -> 0 < g_w1 G -> 0 < g_h1 G -> g_w2 G = g_w1 G -> g_h2 G = g_h1 G -> 0 < vz (r_vel r) ->
  exists n r', (forall fuel, (n <= fuel)%nat -> guide_trace fuel None G r = Ok r') /\
    vz (r_vel r') = vz (r_vel r) /\ Rabs (vx (r_vel r')) = Rabs (vx (r_vel r)) /\ Rabs (vy (r_vel r')) = Rabs (vy (r_vel r)).
Proof. exact straight_trace. Qed.
Print Assumptions C91_straight.
Definition tube : guide := mkG 2 2 2 2 10 1 1 0 1 1 None.
Definition slanted : ray := mkRay (mkV 0 0 0) (mkV 1 0 1) 0 0 0 1.
Example C91_straight_case : exists n r', guide_trace n None tube slanted = Ok r' /\ Rabs (vx (r_pos slanted)) < g_w1 tube / 2 /\ first_hit tube slanted <> None.
Proof.
  destruct (C91_straight tube slanted) as (n & r' & E & _); try (cbn; lra). exists n, r'. split; [apply E; lia|]. split; [cbn; rewrite Rabs_R0; lra|].
  unfold first_hit. cbn [slanted r_vel r_pos vx vy vz tube g_l]. assert (Z : Reqb 1 0 = false) by (apply Reqb_f; lra). rewrite Z.
  cbn [fold_left]. unfold attempt, vdotn, cdotn, ww, hh, whalf, hhalf. cbn [tube g_l g_w1 g_w2 g_h1 g_h2 slanted r_vel r_pos vx vy vz fst].
  match goal with |- context [Rltb ?a 0] => assert (E1 : Rltb a 0 = false) by (apply Rltb_f; lra); rewrite E1; clear E1 end.
  match goal with |- context [Rltb ?a 0] => assert (E1 : Rltb a 0 = true) by (apply Rltb_t; lra); rewrite E1; clear E1 end. cbn [below fst].
  repeat match goal with |- context [Rltb ?a 0] => let E := fresh in assert (E : Rltb a 0 = false) by (apply Rltb_f; lra); rewrite E; clear E end.
  cbn [below fst].
  match goal with |- context [Rltb ?a ((10 - 0) / 1)] => assert (E1 : Rltb a ((10 - 0) / 1) = true) by (apply Rltb_t; lra); rewrite E1; clear E1 end.
  cbn; discriminate.
Qed.
(** The reflectivity without a table: R0 up to Qc; above, not more than R0 and none beyond m Qc + 10 W; not negative as long as alpha (q - Qc) <= 1. *)
Theorem C91_reflectivity : forall G q, g_table G = None -> guide_init G = Ok G -> 0 <= g_alpha G ->
  (g_m G = 0 -> reflectivity G q = None) /\
  (g_m G <> 0 -> q <= g_Qc G -> reflectivity G q = Some (g_R0 G)) /\
  (forall f, reflectivity G q = Some f -> g_Qc G < q -> q < g_m G * g_Qc G + 10 * g_W G /\ f <= g_R0 G /\ (g_alpha G * (q - g_Qc G) <= 1 -> 0 <= f)).
Proof. exact reflectivity_bounds. Qed.
Print Assumptions C91_reflectivity.
(** Not otherwise: with the default parameters and m = 10 there are momentum transfers with a negative factor, which takes the neutron out of the beam. *)
Theorem C91_reflectivity_refuted : guide_init m10 = Ok m10 /\ exists f, reflectivity m10 (2 / 10) = Some f /\ f < 0.
Proof. exact negative_reflectivity. Qed.
Print Assumptions C91_reflectivity_refuted.
Example C91_reflectivity_case : g_table m10 = None /\ guide_init m10 = Ok m10 /\ 0 <= g_alpha m10 /\ reflectivity m10 (1 / 100) = Some (99 / 100).
Proof.
  destruct negative_reflectivity as [I _]. split; [reflexivity|]. split; [exact I|]. split; [cbn; lra|].
  destruct (C91_reflectivity m10 (1 / 100) eq_refl I) as (_ & A & _); [cbn; lra|]. apply A; cbn; lra.
Qed.
(** A neutron that flies along the entrance plane between the mirrors makes the program hang. *)
Theorem C91_ends_refuted : guide_init box = Ok box /\ exists r, forall fuel, guide_trace fuel None box r = Err OutOfFuel.
Proof. exact hangs. Qed.
Print Assumptions C91_ends_refuted.
(** A neutron that flies backwards through the entrance gets out as if there were no mirrors, moved to the entrance plane. *)
Theorem C91_backward : forall G r, 0 < g_l G -> vz (r_vel r) < 0 ->
  let q := prop_z0 None r in Rabs (vx (r_pos q)) < g_w1 G / 2 -> Rabs (vy (r_pos q)) < g_h1 G / 2 -> forall fuel, guide_trace (S fuel) None G r = Ok q.
Proof. exact backward_passes. Qed.
Print Assumptions C91_backward.
Example C91_backward_case : exists q, guide_trace 1 None tube (mkRay (mkV 0 0 5) (mkV 1 0 (-10)) 0 0 0 1) = Ok q /\ vz (r_vel q) = -10.
Proof.
  set (r := mkRay (mkV 0 0 5) (mkV 1 0 (-10)) 0 0 0 1). assert (N : vz (r_vel r) <> 0) by (cbn; lra).
  assert (E : prop_z0 None r = prop_dt_nogravity (- 5 / -10) r) by (cbn; unfold prop_z0_nogravity; rewrite (proj2 (Reqb_f _ _) N); reflexivity).
  eexists. split; [apply C91_backward; try (cbn [tube g_l r r_vel vz]; lra)|].
  - rewrite E. cbn. apply Rabs_def1; lra.
  - rewrite E. cbn. apply Rabs_def1; lra.
  - rewrite E. reflexivity.
Qed.
