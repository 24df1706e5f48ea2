(** Proofs for C40: directions, energy and momentum. *)
From Coq Require Import Reals Lra Lia.
From Verif Require Import Base RotModel RotSpec ChanModel ChanProofs ShapeModel ShapeSpec ShapeProofs ScatModel ScatSpec UnitModel UnitSpec UnitProofs KinModel KinSpec.
Open Scope R_scope.

Lemma is_energy_iff E v : is_energy E v <-> E = v2E v.
Proof.
  split; [|intros ->; apply energy_of]. intros H. pose proof (energy_of v) as K. unfold is_energy in *. apply (Rmult_eq_reg_r (160217733 / 10 ^ 30)); [congruence|lra].
Qed.
Lemma is_wavenumber_iff k v : is_wavenumber k v <-> k = v2k * v.
Proof.
  split; [|intros ->; apply wavenumber_of]. intros H. pose proof (wavenumber_of v) as K. unfold is_wavenumber in *.
  assert (k * 10 ^ 10 = v2k * v * 10 ^ 10) by (apply (Rmult_eq_reg_l (1054571628 / 10 ^ 43)); [congruence|lra]). lra.
Qed.
Lemma arrives_iff v Ei ki : arrives v Ei ki <-> Ei = v2E (vnorm v) /\ ki = v2k * vnorm v.
Proof. unfold arrives. rewrite is_energy_iff, is_wavenumber_iff. reflexivity. Qed.
Lemma wave_at_iff E k : wave_at E k <-> 0 <= E /\ E2k E = Some k.
Proof.
  unfold wave_at. split.
  - intros (v & P & A & B). rewrite is_energy_iff in A. rewrite is_wavenumber_iff in B. subst. split; [apply v2E_nonneg|now apply E2k_v2E].
  - intros [P H]. destruct (E2v_inv E P) as (v & A & B & C). exists v. split; [exact B|]. rewrite is_energy_iff, is_wavenumber_iff. split; [congruence|]. unfold E2k in H. rewrite A in H. cbn in H. injection H as <-. ring.
Qed.
Lemma wave_pos E k : wave_at E k -> 0 <= k.
Proof. intros (v & P & _ & B). rewrite is_wavenumber_iff in B. subst k. apply Rmult_le_pos; [left; apply v2k_pos|exact P]. Qed.
Lemma wave_pos_lt E k : 0 < E -> wave_at E k -> 0 < k.
Proof.
  intros P (v & V & A & B). rewrite is_energy_iff in A. rewrite is_wavenumber_iff in B. subst. apply Rmult_lt_0_compat; [apply v2k_pos|]. destruct (Req_dec v 0) as [->|]; [unfold v2E in P; lra|lra].
Qed.
Lemma speed_norm v : speed v * speed v = norm2 v.
Proof. apply sqrt_sqrt. unfold norm2, sdot. nra. Qed.
Lemma speed_scale k v : 0 <= k -> speed (vscale k v) = k * speed v.
Proof.
  intros K. unfold speed. replace (norm2 (vscale k v)) with (k * k * norm2 v) by (unfold norm2, sdot, vscale; cbn; ring). rewrite sqrt_mult; [|nra|unfold norm2, sdot; nra]. now rewrite sqrt_square.
Qed.
Lemma speed_eq v s : 0 <= s -> norm2 v = s * s -> speed v = s.
Proof. intros S H. unfold speed. rewrite H. now apply sqrt_square. Qed.

(** axes *)
Definition orthonormal (a : vec3 * vec3 * vec3) : Prop :=
  let '(e1, e2, e3) := a in norm2 e1 = 1 /\ norm2 e2 = 1 /\ sdot e1 e2 = 0 /\ e3 = vcross e1 e2.
Definition along (v e1 : vec3) : Prop := v = vscale (speed v) e1 /\ norm2 e1 = 1.
Lemma normalize_some v : v <> mkV 0 0 0 -> exists e, normalize v = Some e /\ along v e.
Proof.
  intros N. pose proof (speed_pos v N) as P. unfold normalize. change (vnorm v) with (speed v). destruct (Req_EM_T (speed v) 0) as [Z|_]; [lra|]. eexists. split; [reflexivity|]. split.
  - destruct v as [a b c]. unfold vscale; cbn [vx vy vz]. f_equal; field; lra.
  - replace (norm2 (vscale (1 / speed v) v)) with (norm2 v / (speed v * speed v)) by (unfold norm2, sdot, vscale; cbn; field; lra). rewrite speed_norm. field. pose proof (speed_norm v). nra.
Qed.
Lemma normalize_zero v : normalize v = None <-> v = mkV 0 0 0.
Proof.
  split.
  - intros H. destruct (Req_dec (speed v) 0) as [Z|Z].
    + pose proof (speed_norm v) as S. rewrite Z in S. unfold norm2, sdot in S. destruct v as [a b c]; cbn in S. f_equal; nra.
    + unfold normalize in H. change (vnorm v) with (speed v) in H. destruct (Req_EM_T (speed v) 0); [contradiction|discriminate].
  - intros ->. unfold normalize. replace (vnorm (mkV 0 0 0)) with 0; [destruct (Req_EM_T 0 0); [reflexivity|contradiction]|]. unfold vnorm, vdot; cbn. replace (0 * 0 + 0 * 0 + 0 * 0) with 0 by ring. now rewrite sqrt_0.
Qed.
Lemma cross_perp a b : sdot a (vcross b a) = 0. Proof. unfold sdot, vcross; cbn; ring. Qed.
Lemma sdot_scale_r k a b : sdot a (vscale k b) = k * sdot a b. Proof. unfold sdot, vscale; cbn; ring. Qed.
Lemma sdot_scale_l k a b : sdot (vscale k a) b = k * sdot a b. Proof. unfold sdot, vscale; cbn; ring. Qed.
(** e2 from a cross product with an axis which is not parallel *)
Lemma cross_axis a e1 : norm2 e1 = 1 -> vcross a e1 <> mkV 0 0 0 -> exists e2, normalize (vcross a e1) = Some e2 /\ orthonormal (e1, e2, vcross e1 e2).
Proof.
  intros U N. destruct (normalize_some _ N) as (e2 & E & [A B]). exists e2. split; [exact E|]. unfold orthonormal. repeat split; [exact U|exact B|].
  pose proof (cross_perp e1 a) as P. rewrite A, sdot_scale_r in P. pose proof (speed_pos _ N). apply Rmult_integral in P. destruct P; [lra|assumption].
Qed.
Lemma axes_cross_ok v eps : v <> mkV 0 0 0 -> 0 <= eps < 1 / 2 -> exists e1 e2 e3, axes_cross eps v = Some (e1, e2, e3) /\ orthonormal (e1, e2, e3) /\ along v e1.
Proof.
  intros N EP. destruct (normalize_some v N) as (e1 & E & A). unfold axes_cross. rewrite E. destruct A as [A U]. destruct (orb _ _) eqn:C.
  - destruct (cross_axis (mkV 0 0 1) e1 U) as (e2 & E2 & O).
    + intros Z. unfold vcross in Z; cbn in Z. injection Z; intros. apply orb_prop in C. destruct C as [C|C]; apply Rltb_t in C; [replace (vx e1) with 0 in C by lra|replace (vy e1) with 0 in C by lra]; rewrite Rabs_R0 in C; lra.
    + rewrite E2. exists e1, e2, (vcross e1 e2). split; [reflexivity|]. split; [exact O|split; assumption].
  - apply orb_false_elim in C. destruct C as [C1 C2]. apply Rltb_f in C1, C2. destruct (cross_axis (mkV 1 0 0) e1 U) as (e2 & E2 & O).
    + intros Z. unfold vcross in Z; cbn in Z. injection Z; intros. unfold norm2, sdot in U. assert (ZZ : vz e1 = 0) by lra. assert (YY : vy e1 = 0) by lra. rewrite ZZ, YY in U.
      assert (vx e1 = 1 \/ vx e1 = -1) as [X|X] by nra; rewrite X in C1; [rewrite Rabs_R1 in C1|rewrite Rabs_left in C1 by lra]; lra.
    + rewrite E2. exists e1, e2, (vcross e1 e2). split; [reflexivity|]. split; [exact O|split; assumption].
Qed.
Lemma axes_fixed_far v eps : v <> mkV 0 0 0 -> 0 <= eps < 1 / 2 -> off_axis eps v -> exists e1 e2 e3, axes_fixed eps v = Some (e1, e2, e3) /\ orthonormal (e1, e2, e3) /\ along v e1.
Proof.
  intros N EP OFF. destruct (normalize_some v N) as (e1 & E & [A U]). pose proof (speed_pos v N) as SP. unfold axes_fixed. rewrite E.
  assert (VX : vx v = speed v * vx e1) by (rewrite A at 1; reflexivity). assert (VY : vy v = speed v * vy e1) by (rewrite A at 1; reflexivity).
  destruct (orb _ _) eqn:C.
  - destruct (cross_axis (mkV 0 0 1) e1 U) as (e2 & E2 & O).
    + intros Z. unfold vcross in Z; cbn in Z. injection Z; intros. apply orb_prop in C. destruct C as [C|C]; apply Rltb_t in C; [replace (vx e1) with 0 in C by lra|replace (vy e1) with 0 in C by lra]; rewrite Rabs_R0 in C; lra.
    + rewrite E2. exists e1, e2, (vcross e1 e2). split; [reflexivity|]. split; [exact O|split; assumption].
  - apply orb_false_elim in C. destruct C as [C1 C2]. apply Rltb_f in C1, C2.
    assert (X0 : vx e1 = 0).
    { destruct OFF as [H|[H|H]].
      - rewrite VX, Rabs_mult, Rabs_pos_eq in H by lra. nra.
      - rewrite VY, Rabs_mult, Rabs_pos_eq in H by lra. nra.
      - rewrite VX in H. apply Rmult_integral in H. destruct H; [lra|assumption]. }
    exists e1, (mkV 1 0 0), (vcross e1 (mkV 1 0 0)). split; [reflexivity|]. split; [|split; assumption]. unfold orthonormal. repeat split; [exact U|unfold norm2, sdot; cbn; ring|unfold sdot; cbn; rewrite X0; ring].
Qed.
Lemma axes_fixed_near v eps : v <> mkV 0 0 0 -> 0 <= eps < 1 / 2 -> ~ off_axis eps v -> exists e1, axes_fixed eps v = Some (e1, mkV 1 0 0, vcross e1 (mkV 1 0 0)) /\ along v e1 /\ Rabs (vx e1) <= eps.
Proof.
  intros N EP OFF. destruct (normalize_some v N) as (e1 & E & [A U]). pose proof (speed_pos v N) as SP. exists e1. unfold axes_fixed. rewrite E.
  assert (VX : vx v = speed v * vx e1) by (rewrite A at 1; reflexivity). assert (VY : vy v = speed v * vy e1) by (rewrite A at 1; reflexivity).
  assert (X : Rabs (vx e1) <= eps). { destruct (Rle_lt_dec (Rabs (vx e1)) eps) as [|L]; [assumption|]. exfalso. apply OFF. left. rewrite VX, Rabs_mult, (Rabs_pos_eq (speed v)) by lra. nra. }
  assert (Y : Rabs (vy e1) <= eps). { destruct (Rle_lt_dec (Rabs (vy e1)) eps) as [|L]; [assumption|]. exfalso. apply OFF. right; left. rewrite VY, Rabs_mult, (Rabs_pos_eq (speed v)) by lra. nra. }
  rewrite (proj2 (Rltb_f _ _) X), (proj2 (Rltb_f _ _) Y). cbn [orb]. split; [reflexivity|]. split; [split; assumption|exact X].
Qed.

(** directions *)
Lemma turned_unit a cost sint phi d : orthonormal a -> cost * cost + sint * sint = 1 -> turned (Some a) cost sint phi = Some d -> norm2 d = 1 /\ sdot (fst (fst a)) d = cost.
Proof.
  destruct a as [[e1 e2] e3]. intros (U1 & U2 & O & ->) CS H. cbn in H. injection H as <-. cbn [fst].
  pose proof (sin2_cos2 phi) as SC. unfold Rsqr in SC. set (c := cos phi) in *. set (s := sin phi) in *.
  assert (U3 : norm2 (vcross e1 e2) = 1). { replace (norm2 (vcross e1 e2)) with (norm2 e1 * norm2 e2 - sdot e1 e2 * sdot e1 e2) by (unfold norm2, sdot, vcross; cbn; ring). rewrite U1, U2, O. ring. }
  assert (P1 : sdot e1 (vcross e1 e2) = 0) by (unfold sdot, vcross; cbn; ring). assert (P2 : sdot e2 (vcross e1 e2) = 0) by (unfold sdot, vcross; cbn; ring).
  set (e3 := vcross e1 e2) in *. clearbody e3. split.
  - replace (norm2 _) with (cost * cost * norm2 e1 + sint * sint * (c * c * norm2 e2 + s * s * norm2 e3) + 2 * cost * sint * c * sdot e1 e2 + 2 * cost * sint * s * sdot e1 e3 + 2 * sint * sint * c * s * sdot e2 e3).
    2:{ unfold norm2, sdot, vadd, vscale; cbn. ring. }
    rewrite U1, U2, U3, O, P1, P2. replace (cost * cost * 1 + sint * sint * (c * c * 1 + s * s * 1) + 2 * cost * sint * c * 0 + 2 * cost * sint * s * 0 + 2 * sint * sint * c * s * 0) with (cost * cost + sint * sint * (s * s + c * c)) by ring. rewrite SC. lra.
  - replace (sdot e1 _) with (cost * norm2 e1 + sint * c * sdot e1 e2 + sint * s * sdot e1 e3). 2:{ unfold norm2, sdot, vadd, vscale; cbn. ring. } rewrite U1, O, P1. ring.
Qed.
Lemma turned_near e1 cost sint phi d : norm2 e1 = 1 -> cost * cost + sint * sint = 1 -> turned (Some (e1, mkV 1 0 0, vcross e1 (mkV 1 0 0))) cost sint phi = Some d ->
  norm2 d = 1 + 2 * cost * sint * cos phi * vx e1 - sint * sint * (sin phi * sin phi) * (vx e1 * vx e1) /\ sdot e1 d = cost + sint * cos phi * vx e1.
Proof.
  intros U CS H. cbn in H. injection H as <-. pose proof (sin2_cos2 phi) as SC. unfold Rsqr in SC. set (c := cos phi) in *. set (s := sin phi) in *.
  destruct e1 as [x y z]. unfold norm2, sdot in U. cbn [vx vy vz] in U. split.
  - transitivity (cost * cost * (x * x + y * y + z * z) + sint * sint * (c * c + s * s * (y * y + z * z)) + 2 * cost * sint * c * x).
    + unfold norm2, sdot, vadd, vscale, vcross; cbn [vx vy vz]. ring.
    + cbn [vx]. rewrite U. replace (y * y + z * z) with (1 - x * x) by lra. replace (sint * sint * (c * c + s * s * (1 - x * x))) with (sint * sint * (s * s + c * c) - sint * sint * (s * s) * (x * x)) by ring. rewrite SC. lra.
  - transitivity (cost * (x * x + y * y + z * z) + sint * c * x); [unfold sdot, vadd, vscale, vcross; cbn [vx vy vz]; ring|]. rewrite U. cbn [vx]. ring.
Qed.
Lemma turned_by_some axes cost phi : -1 <= cost <= 1 -> exists sint, 0 <= sint /\ cost * cost + sint * sint = 1 /\ turned_by axes cost phi = turned axes cost sint phi.
Proof.
  intros C. assert (P : 0 <= 1 - cost * cost) by nra. exists (sqrt (1 - cost * cost)). split; [apply sqrt_pos|]. split; [rewrite sqrt_sqrt by exact P; ring|].
  unfold turned_by, fsqrt. now rewrite (proj2 (Rltb_f _ 0)) by lra.
Qed.
Lemma turned_by_nan axes cost phi : ~ (-1 <= cost <= 1) -> turned_by axes cost phi = None.
Proof. intros C. unfold turned_by, fsqrt. rewrite (proj2 (Rltb_t _ 0)); [reflexivity|]. destruct (Rlt_le_dec cost (-1)); [nra|]. assert (1 < cost) by lra. nra. Qed.

(** what a direction with the right angle transfers *)
Lemma transfer_of v e1 d vf cost Q : v <> mkV 0 0 0 -> along v e1 -> norm2 d = 1 -> sdot e1 d = cost -> 0 <= vf -> 0 <= Q ->
  2 * (v2k * speed v) * (v2k * vf) * cost = (v2k * speed v) * (v2k * speed v) + (v2k * vf) * (v2k * vf) - Q * Q ->
  transfers v (vscale vf d) Q (v2E (speed v) - v2E vf).
Proof.
  intros N [A U] D C V QP H. exists (v2E (speed v)), (v2E vf). assert (SD : speed (vscale vf d) = vf). { rewrite speed_scale by exact V. replace (speed d) with 1; [ring|]. symmetry. apply speed_eq; lra. }
  rewrite SD. split; [apply energy_of|]. split; [apply energy_of|]. split; [reflexivity|]. apply is_wavenumber_iff.
  pose proof v2k_pos as K. assert (SS : speed (vsub v (vscale vf d)) = Q / v2k).
  { apply speed_eq; [apply Rmult_le_pos; [exact QP|left; now apply Rinv_0_lt_compat]|].
    assert (E : norm2 (vsub v (vscale vf d)) = norm2 v + vf * vf * norm2 d - 2 * vf * sdot v d) by (unfold norm2, sdot, vsub, vscale; cbn; ring).
    assert (F : sdot v d = speed v * cost). { rewrite A at 1. rewrite sdot_scale_l, C. reflexivity. }
    rewrite E, F, D, <- speed_norm. apply (Rmult_eq_reg_l (v2k * v2k)); [|nra]. replace (v2k * v2k * (Q / v2k * (Q / v2k))) with (Q * Q) by (field; lra). lra. }
  rewrite SS. field. lra.
Qed.
Lemma cos_range ki kf Q : 0 < ki -> 0 < kf -> triangle ki kf Q -> -1 <= (ki * ki + kf * kf - Q * Q) / (2 * ki * kf) <= 1.
Proof.
  intros A B [L U]. assert (P : 0 < 2 * ki * kf) by nra. assert (Q0 : 0 <= Q) by (pose proof (Rabs_pos (ki - kf)); lra).
  assert (SQ : (ki - kf) * (ki - kf) <= Q * Q). { pose proof (Rabs_pos (ki - kf)). assert (E : Rabs (ki - kf) * Rabs (ki - kf) = (ki - kf) * (ki - kf)) by (rewrite <- Rabs_mult; apply Rabs_pos_eq; apply (Rle_0_sqr (ki - kf))). rewrite <- E. apply Rmult_le_compat; lra. }
  assert (SP : Q * Q <= (ki + kf) * (ki + kf)) by (apply Rmult_le_compat; lra).
  assert (E : (ki * ki + kf * kf - Q * Q) / (2 * ki * kf) * (2 * ki * kf) = ki * ki + kf * kf - Q * Q) by (field; lra).
  split; apply (Rmult_le_reg_r (2 * ki * kf)); try exact P; rewrite E; lra.
Qed.
Lemma cos_out ki kf Q : 0 < ki -> 0 < kf -> 0 <= Q -> -1 <= (ki * ki + kf * kf - Q * Q) / (2 * ki * kf) <= 1 -> triangle ki kf Q.
Proof.
  intros A B Q0 [L U]. assert (P : 0 < 2 * ki * kf) by nra.
  assert (E : (ki * ki + kf * kf - Q * Q) / (2 * ki * kf) * (2 * ki * kf) = ki * ki + kf * kf - Q * Q) by (field; lra). set (c := _ / _) in *.
  assert (H1 : Q * Q <= (ki + kf) * (ki + kf)) by nra. assert (H2 : (ki - kf) * (ki - kf) <= Q * Q) by nra. clear - A B Q0 H1 H2.
  split; [|nra]. apply Rabs_le. split; nra.
Qed.
