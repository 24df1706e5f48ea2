(** Proofs for C44 and C53. *)
From Coq Require Import Reals Lra Lia Machin.
From Verif Require Import Base RotModel RotSpec ChanModel ChanProofs ShapeModel ShapeProofs UnitModel UnitSpec.
Open Scope R_scope.

Lemma sqrte2v_pos : 0 < sqrte2v. Proof. apply sqrt_lt_R0. unfold electron_charge, neutron_mass. lra. Qed.
Lemma k2v_pos : 0 < k2v. Proof. unfold k2v, hbar, neutron_mass. lra. Qed.
Lemma vsq2e_pos : 0 < vsq2e. Proof. unfold vsq2e, electron_charge, neutron_mass. lra. Qed.
Lemma v2k_pos : 0 < v2k. Proof. pose proof k2v_pos. unfold v2k, Rdiv. rewrite Rmult_1_l. now apply Rinv_0_lt_compat. Qed.
Lemma k2v_v2k : k2v * v2k = 1. Proof. pose proof k2v_pos. unfold v2k. field. lra. Qed.
Lemma se_vs : sqrte2v * sqrte2v * vsq2e = 1.
Proof. unfold sqrte2v. rewrite sqrt_sqrt by (unfold electron_charge, neutron_mass; lra). unfold vsq2e, electron_charge, neutron_mass. field. Qed.

Lemma energy_of v : is_energy (v2E v) v.
Proof. unfold is_energy, v2E, vsq2e, electron_charge, neutron_mass. field. Qed.
Lemma wavenumber_of v : is_wavenumber (v2k * v) v.
Proof. unfold is_wavenumber, v2k, k2v, hbar, neutron_mass. field. Qed.

Lemma E2v_some E : 0 <= E -> E2v E = Some (sqrt E * sqrte2v).
Proof. intros H. unfold E2v, fsqrt. now rewrite (proj2 (Rltb_f E 0) ltac:(lra)). Qed.
Lemma E2v_nan E : E < 0 -> E2v E = None.
Proof. intros H. unfold E2v, fsqrt. now rewrite (proj2 (Rltb_t E 0) H). Qed.
Lemma E2v_inv E : 0 <= E -> exists v, E2v E = Some v /\ 0 <= v /\ v2E v = E.
Proof.
  intros H. exists (sqrt E * sqrte2v). split; [now apply E2v_some|]. split; [apply Rmult_le_pos; [apply sqrt_pos|left; apply sqrte2v_pos]|].
  unfold v2E. replace (sqrt E * sqrte2v * (sqrt E * sqrte2v) * vsq2e) with (sqrt E * sqrt E * (sqrte2v * sqrte2v * vsq2e)) by ring. rewrite se_vs, sqrt_sqrt by assumption. ring.
Qed.
Lemma v2E_nonneg v : 0 <= v2E v.
Proof. unfold v2E. apply Rmult_le_pos; [nra|left; apply vsq2e_pos]. Qed.
Lemma v2E_inj a b : 0 <= a -> 0 <= b -> v2E a = v2E b -> a = b.
Proof. unfold v2E. intros A B H. pose proof vsq2e_pos. assert (a * a = b * b) by (apply (Rmult_eq_reg_r vsq2e); lra). nra. Qed.
Lemma v2E_inv v : 0 <= v -> E2v (v2E v) = Some v.
Proof. intros H. destruct (E2v_inv (v2E v) (v2E_nonneg v)) as (w & E & P & Q). rewrite E. f_equal. now apply v2E_inj. Qed.
Lemma k2E_v k : k2E k = v2E (k2v * k). Proof. unfold k2E, ksquare2E, vsquare2E, v2E. ring. Qed.
Lemma E2k_inv E : 0 <= E -> exists k, E2k E = Some k /\ 0 <= k /\ k2E k = E.
Proof.
  intros H. destruct (E2v_inv E H) as (v & Ev & P & Q). exists (v * v2k). unfold E2k. rewrite Ev. split; [reflexivity|]. split; [apply Rmult_le_pos; [assumption|left; apply v2k_pos]|].
  rewrite k2E_v. replace (k2v * (v * v2k)) with (k2v * v2k * v) by ring. now rewrite k2v_v2k, Rmult_1_l.
Qed.
Lemma k2E_inv k : 0 <= k -> E2k (k2E k) = Some k.
Proof. intros H. rewrite k2E_v. unfold E2k. rewrite v2E_inv by (apply Rmult_le_pos; [left; apply k2v_pos|assumption]). cbn. f_equal. replace (k2v * k * v2k) with (k2v * v2k * k) by ring. rewrite k2v_v2k. ring. Qed.
Lemma E2k_v2E v : 0 <= v -> E2k (v2E v) = Some (v2k * v).
Proof. intros H. unfold E2k. rewrite v2E_inv by assumption. cbn. f_equal. ring. Qed.

(** Bounds of pi *)
Lemma Ratan_val x n : Ratan_seq x n = x ^ (2 * n + 1) / INR (2 * n + 1). Proof. reflexivity. Qed.
Lemma PI_bounds : 31415926535 / 10 ^ 10 < PI < 31415926536 / 10 ^ 10.
Proof.
  destruct (PI_2_3_7_ineq 5) as [L U]. change (S (2 * 5)) with 11%nat in L. change (2 * 5)%nat with 10%nat in U.
  unfold sum_f_R0, tg_alt, PI_2_3_7_tg, Ratan_seq in L, U. simpl in L, U. lra.
Qed.

Lemma wave_bound x : 0 < x -> within (2 / 10 ^ 9) (2 * py_PI * x) (2 * PI * x).
Proof.
  intros X. pose proof PI_bounds as [L U]. unfold within. replace (2 * py_PI * x - 2 * PI * x) with (- (2 * (PI - py_PI) * x)) by ring.
  rewrite Rabs_Ropp, Rabs_pos_eq; unfold py_PI in *; nra.
Qed.

(** MCPL *)
Lemma vnorm_speed v : vnorm v = speed v. Proof. reflexivity. Qed.
Lemma speed_pos v : v <> mkV 0 0 0 -> 0 < speed v.
Proof.
  intros N. apply sqrt_lt_R0. unfold norm2, sdot. destruct v as [a b c]; cbn. destruct (Req_dec a 0) as [->|A]; [|nra]. destruct (Req_dec b 0) as [->|B]; [|nra]. destruct (Req_dec c 0) as [->|C]; [contradiction|nra].
Qed.
Lemma py_e2v_E2v E : py_e2v E = E2v E. Proof. reflexivity. Qed.

Lemma arctan2_dir rho t : 0 < rho -> - PI < t <= PI -> arctan2 (rho * sin t) (rho * cos t) = t.
Proof.
  intros P T. pose proof PI_RGT_0 as PP. unfold arctan2.
  assert (TAN : forall u, cos u <> 0 -> rho * sin u / (rho * cos u) = tan u) by (intros u C; unfold tan; field; split; lra).
  destruct (Rlt_le_dec (- (PI / 2)) t) as [A|A]; [destruct (Rlt_le_dec t (PI / 2)) as [B|B]|].
  - pose proof (cos_gt_0 t A B). rewrite (proj2 (Rltb_t 0 _)) by nra. rewrite TAN by lra. apply atan_tan; lra.
  - destruct (Req_dec t (PI / 2)) as [->|N].
    + rewrite cos_PI2, sin_PI2, Rmult_0_r, Rmult_1_r. rewrite (proj2 (Rltb_f 0 0)) by lra. now rewrite (proj2 (Rltb_t 0 rho)) by lra.
    + assert (C : cos t < 0) by (apply cos_lt_0; lra). rewrite (proj2 (Rltb_f 0 _)) by nra. rewrite (proj2 (Rltb_t _ 0)) by nra.
      assert (S : 0 <= sin t) by (apply sin_ge_0; lra). rewrite (proj2 (Rltb_f _ 0)) by nra. rewrite TAN by lra.
      replace (tan t) with (tan (t - PI)). 2:{ unfold tan. rewrite sin_minus, cos_minus, sin_PI, cos_PI. field. lra. }
      rewrite atan_tan; lra.
  - destruct (Req_dec t (- (PI / 2))) as [->|N].
    + rewrite sin_neg, cos_neg, cos_PI2, sin_PI2, Rmult_0_r. rewrite (proj2 (Rltb_f 0 0)) by lra. rewrite (proj2 (Rltb_f 0 _)) by lra. now rewrite (proj2 (Rltb_t _ 0)) by lra.
    + assert (C : cos t < 0). { rewrite <- cos_neg. apply cos_lt_0; lra. }
      rewrite (proj2 (Rltb_f 0 _)) by nra. rewrite (proj2 (Rltb_t _ 0)) by nra.
      assert (S : sin t < 0). { assert (0 < sin (- t)) by (apply sin_gt_0; lra). rewrite sin_neg in H. lra. }
      rewrite (proj2 (Rltb_t _ 0)) by nra. rewrite TAN by lra.
      replace (tan t) with (tan (t + PI)). 2:{ unfold tan. rewrite sin_plus, cos_plus, sin_PI, cos_PI. field. lra. }
      rewrite atan_tan; lra.
Qed.
(** every pair is (rho sin, rho cos) of what arctan2 returns *)
Lemma arctan2_range y x : (x <> 0 \/ y <> 0) -> let t := arctan2 y x in - PI < t <= PI /\ y = sqrt (x * x + y * y) * sin t /\ x = sqrt (x * x + y * y) * cos t.
Proof.
  intros N t. pose proof PI_RGT_0 as PP.
  assert (RP : 0 < sqrt (x * x + y * y)) by (apply sqrt_lt_R0; destruct N; nra).
  assert (RR : sqrt (x * x + y * y) * sqrt (x * x + y * y) = x * x + y * y) by (apply sqrt_sqrt; nra).
  assert (AT : forall z, cos (atan z) * sqrt (1 + z * z) = 1 /\ sin (atan z) = z * cos (atan z)).
  { intros z. pose proof (atan_bound z) as [B1 B2]. pose proof (cos_gt_0 (atan z) ltac:(lra) B2) as C. pose proof (tan_atan z) as TA. unfold tan in TA.
    assert (SI : sin (atan z) = z * cos (atan z)) by (rewrite <- TA at 2; field; lra). split; [|exact SI].
    pose proof (sin2_cos2 (atan z)) as SC. unfold Rsqr in SC. rewrite SI in SC.
    assert (Q : cos (atan z) * cos (atan z) * (1 + z * z) = 1) by lra.
    assert (S1 : sqrt (1 + z * z) * sqrt (1 + z * z) = 1 + z * z) by (apply sqrt_sqrt; nra). assert (S0 : 0 < sqrt (1 + z * z)) by (apply sqrt_lt_R0; nra).
    assert (0 < cos (atan z) * sqrt (1 + z * z)) by nra. nra. }
  assert (XN : x <> 0 -> sqrt (x * x + y * y) = Rabs x * sqrt (1 + y / x * (y / x))).
  { intros X. rewrite <- sqrt_Rsqr_abs. rewrite <- sqrt_mult by (unfold Rsqr; try nra; pose proof (Rle_0_sqr (y / x)); unfold Rsqr in *; lra). f_equal. unfold Rsqr. field. assumption. }
  unfold t, arctan2. destruct (Rltb 0 x) eqn:E1.
  - apply Rltb_t in E1. destruct (AT (y / x)) as [C S]. pose proof (atan_bound (y / x)) as [B1 B2]. split; [lra|].
    rewrite XN, Rabs_pos_eq by lra. rewrite S. set (q := sqrt (1 + y / x * (y / x))) in *. split.
    + replace (x * q * (y / x * cos (atan (y / x)))) with (x * (y / x) * (cos (atan (y / x)) * q)) by ring. rewrite C. field. lra.
    + replace (x * q * cos (atan (y / x))) with (x * (cos (atan (y / x)) * q)) by ring. rewrite C. ring.
  - apply Rltb_f in E1. destruct (Rltb x 0) eqn:E2.
    + apply Rltb_t in E2. destruct (AT (y / x)) as [C S]. pose proof (atan_bound (y / x)) as [B1 B2].
      assert (K : forall u, sin u = - sin (atan (y / x)) -> cos u = - cos (atan (y / x)) -> y = sqrt (x * x + y * y) * sin u /\ x = sqrt (x * x + y * y) * cos u).
      { intros u SU CU. rewrite SU, CU, XN, Rabs_left by lra. rewrite S. set (q := sqrt (1 + y / x * (y / x))) in *. split.
        - replace (- x * q * - (y / x * cos (atan (y / x)))) with (x * (y / x) * (cos (atan (y / x)) * q)) by ring. rewrite C. field. lra.
        - replace (- x * q * - cos (atan (y / x))) with (x * (cos (atan (y / x)) * q)) by ring. rewrite C. ring. }
      destruct (Rltb y 0) eqn:E3.
      * apply Rltb_t in E3. assert (0 < atan (y / x)). { rewrite <- atan_0. apply atan_increasing. replace (y / x) with ((- y) * / (- x)) by (field; lra). apply Rmult_lt_0_compat; [lra|apply Rinv_0_lt_compat; lra]. }
        split; [lra|]. apply K; [rewrite sin_minus|rewrite cos_minus]; rewrite sin_PI, cos_PI; ring.
      * apply Rltb_f in E3. assert (atan (y / x) <= 0).
        { destruct (Req_dec y 0) as [->|Y]; [unfold Rdiv; rewrite Rmult_0_l, atan_0; lra|]. left. rewrite <- atan_0. apply atan_increasing.
          replace (y / x) with (- (y * / (- x))) by (field; lra). assert (0 < y * / - x) by (apply Rmult_lt_0_compat; [lra|apply Rinv_0_lt_compat; lra]). lra. }
        split; [lra|]. apply K; [rewrite sin_plus|rewrite cos_plus]; rewrite sin_PI, cos_PI; ring.
    + apply Rltb_f in E2. assert (x = 0) by lra. subst x.
      assert (YN : y <> 0) by (destruct N; lra). replace (0 * 0 + y * y) with (Rsqr y) by (unfold Rsqr; ring). rewrite sqrt_Rsqr_abs.
      destruct (Rltb 0 y) eqn:E3.
      * apply Rltb_t in E3. rewrite sin_PI2, cos_PI2, Rabs_pos_eq by lra. lra.
      * apply Rltb_f in E3. rewrite (proj2 (Rltb_t y 0)) by lra. rewrite sin_neg, cos_neg, sin_PI2, cos_PI2, Rabs_left by lra. lra.
Qed.

Lemma unit_spin s1 s2 : let d := spin_direction s1 s2 in vx d * vx d + vy d * vy d + vz d * vz d = 1.
Proof. cbn. pose proof (sin2_cos2 s1) as A. pose proof (sin2_cos2 s2) as B. unfold Rsqr in *. replace (sin s1 * sin s2 * (sin s1 * sin s2) + cos s1 * cos s1 + sin s1 * cos s2 * (sin s1 * cos s2)) with (sin s1 * sin s1 * (sin s2 * sin s2 + cos s2 * cos s2) + cos s1 * cos s1) by ring. rewrite B. lra. Qed.
Lemma angles_of_unit d : vx d * vx d + vy d * vy d + vz d * vz d = 1 ->
  let s1 := acos (vy d) in let s2 := arctan2 (vx d) (vz d) in spin_direction s1 s2 = d /\ canonical s1 s2.
Proof.
  intros H s1 s2. destruct d as [a b c]; cbn in *. assert (B : -1 <= b <= 1) by nra.
  assert (SN : sin s1 = sqrt (c * c + a * a)) by (unfold s1; rewrite sin_acos by exact B; f_equal; unfold Rsqr; lra).
  assert (CS : cos s1 = b) by (unfold s1; now rewrite cos_acos by exact B).
  destruct (Req_dec (c * c + a * a) 0) as [Z|Z].
  - assert (a = 0 /\ c = 0) as [-> ->] by (split; nra). assert (S0 : s2 = 0).
    { unfold s2, arctan2. now rewrite !(proj2 (Rltb_f 0 0)) by lra. }
    split. { unfold spin_direction. rewrite SN, CS. replace (0 * 0 + 0 * 0) with 0 by ring. rewrite sqrt_0. f_equal; ring. }
    right. split; [|exact S0]. assert (b = 1 \/ b = -1) as [-> | ->] by nra; unfold s1; [left; apply acos_1|right; replace (-1) with (- (1)) by lra; rewrite acos_opp, acos_1; lra].
  - destruct (arctan2_range a c) as (R1 & R2 & R3). { destruct (Req_dec c 0) as [->|]; [|now left]. right. intros ->. apply Z. ring. }
    fold s2 in R1, R2, R3. split. { unfold spin_direction. rewrite SN, CS. f_equal; symmetry; assumption. }
    left. split; [|exact R1]. assert (0 < sqrt (c * c + a * a)) by (apply sqrt_lt_R0; nra). pose proof (acos_bound b) as [L U]. fold s1 in L, U.
    split; [destruct (Req_dec s1 0) as [E0|]; [rewrite E0, sin_0 in SN; lra|lra]|destruct (Req_dec s1 PI) as [E0|]; [rewrite E0, sin_PI in SN; lra|lra]].
Qed.
Lemma canonical_unique s1 s2 : canonical s1 s2 -> acos (cos s1) = s1 /\ arctan2 (sin s1 * sin s2) (sin s1 * cos s2) = s2.
Proof.
  pose proof PI_RGT_0 as PP. intros [[A B]|[A ->]].
  - split; [apply acos_cos; lra|]. apply arctan2_dir; [apply sin_gt_0; lra|exact B].
  - assert (sin s1 = 0) as -> by (destruct A as [-> | ->]; [apply sin_0|apply sin_PI]). split; [apply acos_cos; destruct A as [-> | ->]; lra|].
    rewrite !Rmult_0_l. unfold arctan2. now rewrite !(proj2 (Rltb_f 0 0)) by lra.
Qed.

Lemma back ev : e_v ev <> mkV 0 0 0 ->
  of_particle (to_particle ev) =
  Some (mkE (e_r ev) (e_v ev) (acos (cos (e_s1 ev))) (arctan2 (sin (e_s1 ev) * sin (e_s2 ev)) (sin (e_s1 ev) * cos (e_s2 ev))) (e_t ev) (e_p ev)).
Proof.
  intros N. pose proof (speed_pos _ N) as SP. destruct ev as [[x y z] v s1 s2 t p]; cbn [e_v e_r e_s1 e_s2 e_t e_p] in *. unfold to_particle, of_particle. cbn [e_v e_r e_s1 e_s2 e_t e_p pt_polarisation pt_ekin pt_direction pt_position pt_time pt_weight vx vy vz].
  pose proof (unit_spin s1 s2) as U. cbn in U. rewrite U. rewrite (proj2 (Rltb_t 0 1)) by lra. rewrite sqrt_1. replace (cos s1 / 1) with (cos s1) by field.
  change (vnorm v) with (speed v). destruct (Req_EM_T (speed v) 0) as [Z|_]; [lra|].
  replace (v2E (speed v) / 10 ^ 9 * 10 ^ 9) with (v2E (speed v)) by (field). rewrite py_e2v_E2v, v2E_inv by lra.
  do 2 f_equal; [f_equal; field|destruct v as [a b c]; unfold vscale; cbn [vx vy vz]; f_equal; field; lra|cbn [pow]; field].
Qed.
