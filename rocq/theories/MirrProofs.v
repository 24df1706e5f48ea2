From Coq Require Import Reals Lra Lia.
From Verif Require Import Base RotModel ChanModel ShapeModel ChanProofs GridProofs OptModel OptSpec GuidModel MirrModel MirrSpec.
Open Scope R_scope.

Lemma plate_hit_iff c x y : plate_hit c x y = true <-> on_plate c x y.
Proof.
  unfold plate_hit, on_plate. destruct (p_center c); rewrite !Bool.andb_true_iff, !Rleb_true.
  - split; [intros [[[A B] C] D]; split; apply Rabs_le; lra|]. intros [A B]. pose proof (Rle_abs x). pose proof (Rle_abs (- x)) as X. pose proof (Rle_abs y). pose proof (Rle_abs (- y)) as Y. rewrite Rabs_Ropp in X, Y. repeat split; lra.
  - tauto.
Qed.
Lemma on_plate_eq c x y x' y' : x = x' -> y = y' -> on_plate c x y -> on_plate c x' y'.
Proof. now intros -> ->. Qed.
Lemma clip_nearest x : nearest (clip x) x.
Proof.
  unfold nearest, clip. destruct (Rltb x 0) eqn:A; [apply Rltb_t in A; repeat split; lra|apply Rltb_f in A].
  destruct (Rltb 1 x) eqn:B; [apply Rltb_t in B; repeat split; lra|apply Rltb_f in B]. repeat split; lra.
Qed.
Lemma passes_by c u r : (forall s, ~ reaches c r s) -> plate_trace c u r = r.
Proof.
  intros N. unfold plate_trace. cbv zeta. destruct (Reqb (vz (r_vel r)) 0) eqn:Z; [reflexivity|]. apply Reqb_f in Z.
  destruct (Rltb (- vz (r_pos r) / vz (r_vel r)) 0) eqn:D; [reflexivity|]. apply Rltb_f in D.
  destruct (plate_hit c _ _) eqn:H; [|reflexivity]. exfalso. apply plate_hit_iff in H. apply (N (- vz (r_pos r) / vz (r_vel r))).
  split; [exact D|]. unfold coordinate. split; [field; exact Z|]. 
  refine (on_plate_eq c _ _ _ _ _ _ H); field; exact Z.
Qed.
Lemma reached c u r s : vz (r_vel r) <> 0 -> reaches c r s ->
  exists at_plate back, flown weightless r s at_plate /\ vz (r_pos at_plate) = 0 /\ mirror_image at_plate back /\ r_p back = r_p r /\
    (p_m c = 0 -> plate_trace c u r = absorb back) /\
    (p_m c <> 0 -> exists B, nearest B (plate_B c (transfer r)) /\
      (p_transmit c = false -> (B = 0 -> plate_trace c u r = absorb back) /\ (0 < B -> plate_trace c u r = with_p back (r_p r * B))) /\
      (p_transmit c = true -> 0 <= u -> (u < B -> plate_trace c u r = back) /\ (B <= u -> plate_trace c u r = at_plate))).
Proof.
  intros Z (S0 & Sz & Sp). assert (Es : s = - vz (r_pos r) / vz (r_vel r)). { unfold coordinate in Sz. apply Rmult_eq_reg_r with (vz (r_vel r)); [|exact Z]. unfold Rdiv. rewrite Rmult_assoc, Rinv_l by exact Z. lra. }
  set (x := vx (r_pos r) + vx (r_vel r) * s). set (y := vy (r_pos r) + vy (r_vel r) * s).
  assert (H : plate_hit c x y = true) by (apply plate_hit_iff; subst x y; unfold coordinate in Sp; refine (on_plate_eq c _ _ _ _ _ _ Sp); field).
  set (back := mkRay (mkV x y 0) (mkV (vx (r_vel r)) (vy (r_vel r)) (- vz (r_vel r))) (r_t r + s) (r_s1 r) (r_s2 r) (r_p r)).
  set (through := mkRay (mkV x y 0) (r_vel r) (r_t r + s) (r_s1 r) (r_s2 r) (r_p r)).
  assert (Q : Rabs (2 * vz (r_vel r) * V2Q) = transfer r) by (unfold transfer, V2Q; rewrite !Rabs_mult, (Rabs_right 2), (Rabs_right (158801 / 100000000)) by lra; ring).
  exists through, back. split.
  { unfold flown, through, weightless. cbn [r_pos r_vel r_t r_s1 r_s2 r_p vx vy vz]. unfold coordinate in *. repeat split; try ring; [subst x; field|subst y; field|]. lra. }
  split; [reflexivity|]. split; [unfold mirror_image; repeat split|]. split; [reflexivity|].
  assert (T : plate_trace c u r = if Reqb (p_m c) 0 then absorb back else let B := clip (plate_B c (transfer r)) in
     if p_transmit c then (if (Reqb B 0 || Rleb B u)%bool then through else back) else if Reqb B 0 then absorb back else with_p back (r_p r * B)).
  { unfold plate_trace. cbv zeta. replace (Reqb (vz (r_vel r)) 0) with false by (symmetry; now apply Reqb_f). rewrite <- Es. replace (Rltb s 0) with false by (symmetry; now apply Rltb_f). fold x y. rewrite H, Q. reflexivity. }
  split; [intros M; rewrite T; now replace (Reqb (p_m c) 0) with true by (symmetry; now apply Reqb_t)|].
  intros M. replace (Reqb (p_m c) 0) with false in T by (symmetry; now apply Reqb_f). cbv zeta in T. exists (clip (plate_B c (transfer r))). pose proof (clip_nearest (plate_B c (transfer r))) as N. split; [exact N|].
  set (B := clip (plate_B c (transfer r))) in *. clearbody B. split; intros Tr; rewrite Tr in T.
  - split; intros K; [replace (Reqb B 0) with true in T by (symmetry; now apply Reqb_t)|replace (Reqb B 0) with false in T by (symmetry; apply Reqb_f; lra)]; exact T.
  - intros U. split; intros K.
    + replace (Reqb B 0) with false in T by (symmetry; apply Reqb_f; lra). replace (Rleb B u) with false in T by (symmetry; apply Rleb_false; lra). exact T.
    + replace (Rleb B u) with true in T by (symmetry; now apply Rleb_true). rewrite Bool.orb_true_r in T. exact T.
Qed.
(** a neutron along the plane is left alone *)
Lemma along_plane c u r : vz (r_vel r) = 0 -> plate_trace c u r = r.
Proof. intros Z. unfold plate_trace. cbv zeta. now replace (Reqb (vz (r_vel r)) 0) with true by (symmetry; now apply Reqb_t). Qed.
(** tanh is between -1 and 1 *)
Lemma tanh_bounds x : -1 < tanh x < 1.
Proof.
  unfold tanh, sinh, cosh. pose proof (exp_pos x). pose proof (exp_pos (- x)). set (a := exp x) in *. set (b := exp (- x)) in *. clearbody a b.
  replace ((a - b) / 2 / ((a + b) / 2)) with ((a - b) / (a + b)) by (field; lra).
  split; apply Rmult_lt_reg_r with (a + b); try lra; unfold Rdiv; rewrite Rmult_assoc, Rinv_l by lra; lra.
Qed.
(** the analytical reflectivity *)
Lemma plate_B_bounds c q : p_table c = None -> 0 <= p_R0 c -> 0 <= p_alpha c -> 0 <= p_W c ->
  (q <= p_Qc c -> plate_B c q = p_R0 c) /\ plate_B c q <= p_R0 c /\ (p_Qc c < q -> p_m c * p_Qc c + 10 * p_W c <= q -> plate_B c q = 0).
Proof.
  intros T R0 A W. unfold plate_B. rewrite T. destruct (Rltb (p_Qc c) q) eqn:Q; [apply Rltb_t in Q|apply Rltb_f in Q; repeat split; lra].
  assert (F : forall t, -1 <= t < 1 -> p_R0 c * (1 / 2 * (1 - t) * (1 - p_alpha c * (q - p_Qc c))) <= p_R0 c).
  { intros t Ht. assert (X : 1 - p_alpha c * (q - p_Qc c) <= 1) by nra. assert (Y : 1 / 2 * (1 - t) * (1 - p_alpha c * (q - p_Qc c)) <= 1) by (set (z := 1 - p_alpha c * (q - p_Qc c)) in *; clearbody z; destruct (Rle_dec z 0); nra). nra. }
  split; [lra|]. destruct (Reqb (p_W c) 0) eqn:W0.
  - apply Reqb_t in W0. rewrite W0. destruct (Rltb q (p_m c * p_Qc c)) eqn:L; [apply Rltb_t in L; split; [apply F; lra|lra]|split; [lra|reflexivity]].
  - apply Reqb_f in W0. cbv zeta. set (arg := (q - p_m c * p_Qc c) / p_W c). destruct (Rltb arg 10) eqn:L.
    + apply Rltb_t in L. pose proof (tanh_bounds arg). split; [apply F; lra|]. intros _ K. exfalso. assert (10 <= arg); [|lra]. subst arg. apply Rmult_le_reg_r with (p_W c); [lra|]. unfold Rdiv. rewrite Rmult_assoc, Rinv_l by lra. lra.
    + split; [lra|reflexivity].
Qed.
