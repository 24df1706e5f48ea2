From Coq Require Import Reals Lra Lia.
From Verif Require Import Base RotModel ChanModel ShapeModel ChanProofs GridProofs McsModel OptModel BsrcModel BsrcSpec.
Open Scope R_scope.

Lemma qf a b : a <> b -> Reqb a b = false.
Proof. apply Reqb_f. Qed.
Lemma qt a b : a = b -> Reqb a b = true.
Proof. apply Reqb_t. Qed.
Lemma lf a b : b <= a -> Rltb a b = false.
Proof. apply Rltb_f. Qed.
Lemma lt_ a b : a < b -> Rltb a b = true.
Proof. apply Rltb_t. Qed.
Lemma sq_pos x : 0 <= x -> sqrt (x * x) = x.
Proof. exact (sqrt_square x). Qed.
Lemma unit_cross_y d : 0 < d -> unit_of (vcross (mkV 0 0 d) (mkV 0 1 0)) = Some (mkV (-1) 0 0).
Proof.
  intros D. unfold unit_of, vcross. cbn [vx vy vz].
  replace ((0 * 0 - d * 1) * (0 * 0 - d * 1) + (d * 0 - 0 * 0) * (d * 0 - 0 * 0) + (0 * 1 - 0 * 0) * (0 * 1 - 0 * 0)) with (d * d) by ring.
  rewrite sqrt_square by lra. rewrite qf by lra. f_equal. f_equal; field; lra.
Qed.
Lemma unit_cross_n d : 0 < d -> unit_of (vcross (mkV 0 0 d) (mkV (-1) 0 0)) = Some (mkV 0 (-1) 0).
Proof.
  intros D. unfold unit_of, vcross. cbn [vx vy vz].
  replace ((0 * 0 - d * 0) * (0 * 0 - d * 0) + (d * -1 - 0 * 0) * (d * -1 - 0 * 0) + (0 * 0 - 0 * -1) * (0 * 0 - 0 * -1)) with (d * d) by ring.
  rewrite sqrt_square by lra. rewrite qf by lra. f_equal. f_equal; field; lra.
Qed.
Lemma distance_pos a b x y d : 0 < d -> 0 < distance a b x y d.
Proof. intros D. unfold distance. apply sqrt_lt_R0. pose proof (pow2_ge_0 (x - a)). pose proof (pow2_ge_0 (y - b)). pose proof (pow_lt d 2 D). lra. Qed.
Lemma distance2 a b x y d : distance a b x y d ^ 2 = (x - a) ^ 2 + (y - b) ^ 2 + d ^ 2.
Proof. unfold distance. apply pow2_sqrt. pose proof (pow2_ge_0 (x - a)). pose proof (pow2_ge_0 (y - b)). pose proof (pow2_ge_0 d). lra. Qed.
Lemma aim_eq u1 u2 d w h : 0 < d -> w <> 0 -> h <> 0 ->
  aim u1 u2 d w h = Ok (w * (1 - 2 * u1) / 2, h * (1 - 2 * u2) / 2, w * h * seen 0 0 (w * (1 - 2 * u1) / 2) (h * (1 - 2 * u2) / 2) d).
Proof.
  intros D W H. unfold aim, randvec_target_rect. rewrite !qf by assumption. cbn [orb]. cbv zeta.
  assert (B : rot_apply (rot_transpose norotation) (mkV 0 0 d) = mkV 0 0 d) by (unfold rot_apply, rot_transpose, norotation; cbn; f_equal; ring).
  rewrite B, (unit_cross_y d D). cbv beta iota zeta. rewrite (unit_cross_n d D). cbv beta iota zeta. cbn [vx vy vz].
  replace (0 * 0 + 0 * 0 + d * d) with (d * d) by ring. rewrite (sq_pos d) by lra. unfold randpm1.
  set (x := w * (1 - 2 * u1) / 2). set (y := h * (1 - 2 * u2) / 2).
  replace (sqrt (w * (2 * u1 - 1) / 2 * (w * (2 * u1 - 1) / 2) + h * (2 * u2 - 1) / 2 * (h * (2 * u2 - 1) / 2) + d * d)) with (distance 0 0 x y d)
    by (unfold distance; f_equal; subst x y; field).
  pose proof (distance_pos 0 0 x y d D) as P. rewrite qf by lra.
  f_equal. unfold rot_apply, norotation. cbn [vx vy vz m00 m01 m02 m10 m11 m12]. f_equal; [f_equal; subst x y; field|]. unfold seen. field. lra.
Qed.
Lemma launch_eq v d x y xf yf : 0 < d ->
  launch v d x y xf yf = Ok (mkV (v * (xf - x) / distance x y xf yf d) (v * (yf - y) / distance x y xf yf d) (v * d / distance x y xf yf d)).
Proof.
  intros D. unfold launch. cbv zeta.
  replace (sqrt ((xf - x) * (xf - x) + (yf - y) * (yf - y) + d * d)) with (distance x y xf yf d) by (unfold distance; f_equal; ring).
  pose proof (distance_pos x y xf yf d D). now rewrite qf by lra.
Qed.
(** the velocity of [launch] *)
Lemma launch_flies v d x y xf yf t s1 s2 p : 0 < d -> 0 < v ->
  flies_to (mkRay (mkV x y 0) (mkV (v * (xf - x) / distance x y xf yf d) (v * (yf - y) / distance x y xf yf d) (v * d / distance x y xf yf d)) t s1 s2 p) d xf yf.
Proof.
  intros D V. pose proof (distance_pos x y xf yf d D) as P. set (q := distance x y xf yf d) in *. clearbody q. exists (q / v). cbn [r_pos r_vel vx vy vz].
  split; [apply Rlt_le, Rdiv_lt_0_compat; assumption|]. repeat split; field; lra.
Qed.
Lemma launch_speed v d x y xf yf t s1 s2 p : 0 < d ->
  velocity2 (mkRay (mkV x y 0) (mkV (v * (xf - x) / distance x y xf yf d) (v * (yf - y) / distance x y xf yf d) (v * d / distance x y xf yf d)) t s1 s2 p) = v ^ 2.
Proof.
  intros D. pose proof (distance_pos x y xf yf d D) as P. pose proof (distance2 x y xf yf d) as Q. set (q := distance x y xf yf d) in *. clearbody q.
  unfold velocity2. cbn [r_vel vx vy vz].
  replace ((v * (xf - x) / q) ^ 2 + (v * (yf - y) / q) ^ 2 + (v * d / q) ^ 2) with (v ^ 2 * ((xf - x) ^ 2 + (yf - y) ^ 2 + d ^ 2) / q ^ 2) by (field; lra).
  rewrite <- Q. field. lra.
Qed.
Lemma disk_in u1 u2 r : fraction u2 -> (let '(x, y) := disk_point u1 u2 r in x ^ 2 + y ^ 2 = r ^ 2 * u2).
Proof.
  intros [A B]. unfold disk_point. cbv zeta. pose proof (sin2_cos2 (2 * PI * u1)) as S. unfold Rsqr in S.
  replace ((sqrt u2 * r * cos (2 * PI * u1)) ^ 2 + (sqrt u2 * r * sin (2 * PI * u1)) ^ 2) with ((sqrt u2 * sqrt u2) * r ^ 2 * (sin (2 * PI * u1) * sin (2 * PI * u1) + cos (2 * PI * u1) * cos (2 * PI * u1))) by ring.
  rewrite S, sqrt_sqrt by lra. ring.
Qed.
Lemma energy_speed E : 0 <= E -> speed_of_energy E = Ok (sqrt E * SE2V) /\ (sqrt E * SE2V) ^ 2 = (4373949 / 10000) ^ 2 * E /\ 0 <= sqrt E * SE2V /\ (0 < E -> 0 < sqrt E * SE2V).
Proof.
  intros H. unfold speed_of_energy. rewrite (lf E 0) by lra. split; [reflexivity|]. split; [unfold SE2V; rewrite Rpow_mult_distr, pow2_sqrt by lra; ring|].
  pose proof (sqrt_pos E). split; [unfold SE2V; lra|]. intros K. pose proof (sqrt_lt_R0 E K). unfold SE2V. lra.
Qed.
Lemma wave_speed l : 0 < l -> speed_of_wavelength l = Ok (K2V * (2 * PI / l)) /\ (K2V * (2 * PI / l)) ^ 2 = (629719 / 1000 * (2 * PI) / l) ^ 2 /\ 0 < K2V * (2 * PI / l).
Proof.
  intros H. unfold speed_of_wavelength. rewrite qf by lra. split; [reflexivity|]. split; [unfold K2V; field; lra|].
  pose proof PI_RGT_0. unfold K2V. apply Rmult_lt_0_compat; [lra|]. apply Rdiv_lt_0_compat; lra.
Qed.
Lemma band E0 dE u : fraction u -> 0 <= dE -> E0 - dE <= E0 + dE * randpm1 u <= E0 + dE.
Proof. intros [A B] D. unfold randpm1. nra. Qed.
Lemma square_point w u : fraction u -> Rabs (w * (u - 1 / 2)) <= Rabs w / 2.
Proof. intros [A B]. rewrite Rabs_mult. pose proof (Rabs_pos w). assert (Rabs (u - 1 / 2) <= 1 / 2) by (apply Rabs_le; lra). nra. Qed.
Lemma target_in w u : fraction u -> 0 <= w -> Rabs (w * (1 - 2 * u) / 2) <= w / 2.
Proof. intros [A B] W. apply Rabs_le. nra. Qed.
Lemma centred w u : fraction u -> 0 <= w -> Rabs (randpm1 u * w / 2) <= w / 2.
Proof. intros [A B] W. unfold randpm1. apply Rabs_le. nra. Qed.

(** INITIALIZE *)
Lemma bad_band_iff E0 dE L0 dL : bad_band E0 dE L0 dL = true <->
  (L0 = 0 /\ dL = 0 /\ (E0 <= 0 \/ dE < 0 \/ E0 <= dE)) \/ (E0 = 0 /\ dE = 0 /\ (L0 <= 0 \/ dL < 0 \/ L0 <= dL)).
Proof.
  unfold bad_band. rewrite !Bool.orb_true_iff, !Bool.andb_true_iff, !Bool.orb_true_iff.
  assert (Q : forall a b, Reqb a b = true <-> a = b) by (intros; unfold Reqb; destruct (Req_EM_T a b); split; congruence).
  assert (LE : forall a b, Rleb a b = true <-> a <= b) by (intros a b; split; [apply Rleb_true|intros; destruct (Rleb a b) eqn:K; [reflexivity|apply Rleb_false in K; lra]]).
  assert (LT : forall a b, Rltb a b = true <-> a < b) by (intros a b; unfold Rltb; destruct (Rlt_dec a b); split; congruence || tauto).
  rewrite !Q, !LE, !LT. assert (forall a b, a - b <= 0 <-> a <= b) as -> by (intros; lra). assert (forall a b, a - b <= 0 <-> a <= b) as -> by (intros; lra). tauto.
Qed.
