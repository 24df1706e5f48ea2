(** Proofs for C66. *)
From Coq Require Import Reals Lra Lia.
From Coquelicot Require Import Coquelicot.
From Verif Require Import Base RotModel RotSpec ChanModel ChanProofs ShapeModel ShapeSpec ShapeProofs ScatModel ScatSpec UnitModel UnitSpec UnitProofs KinModel KinSpec KinProofs KinProofs2 KinProofs3 KinProofs4 GridProofs PowdModel PowdSpec PowdProofs ConeModel ConeSpec.
Open Scope R_scope.

Lemma frame_of v w : v <> mkV 0 0 0 -> w <> mkV 0 0 0 -> sdot v w = 0 -> exists e1 e2 e3, orthonormal (e1, e2, e3) /\ along v e1 /\ along w e3 /\ normalize v = Some e1 /\ normalize w = Some e3 /\ e2 = vcross e3 e1.
Proof.
  intros N N2 P. destruct (normalize_some v N) as (e1 & E1 & A1). destruct (normalize_some _ N2) as (e3 & E3 & A3).
  pose proof (speed_pos v N) as S1. pose proof (speed_pos _ N2) as S2. pose proof (units_perp _ _ _ _ A1 A3 S1 S2 P) as D.
  exists e1, (vcross e3 e1), e3. split; [|repeat split; try assumption; try apply A1; apply A3]. destruct A1 as [A1 U1], A3 as [A3 U3].
  assert (L : norm2 (vcross e3 e1) = norm2 e3 * norm2 e1 - sdot e1 e3 * sdot e1 e3) by (unfold norm2, sdot, vcross; destruct e1, e3; cbn; ring).
  unfold orthonormal. repeat split; [exact U1|rewrite L, U1, U3, D; ring|unfold sdot, vcross; destruct e1, e3; cbn; ring|].
  unfold norm2, sdot in U1, D. destruct e1 as [a b c], e3 as [d e f]. cbn in U1, D. unfold vcross; cbn. f_equal.
  - transitivity (d * (a * a + b * b + c * c) - a * (a * d + b * e + c * f)); [rewrite U1, D; ring|ring].
  - transitivity (e * (a * a + b * b + c * c) - b * (a * d + b * e + c * f)); [rewrite U1, D; ring|ring].
  - transitivity (f * (a * a + b * b + c * c) - c * (a * d + b * e + c * f)); [rewrite U1, D; ring|ring].
Qed.
Lemma two_rotations_of v w tt e1 e2 e3 : v <> mkV 0 0 0 -> w <> mkV 0 0 0 -> sdot v w = 0 -> orthonormal (e1, e2, e3) -> along v e1 -> along w e3 -> normalize v = Some e1 -> normalize w = Some e3 ->
  rotate (1 / 10 ^ 7) v w (Some tt) = Some (on_cone e1 e2 e3 (speed v) tt 0) /\
  forall a, rotate (1 / 10 ^ 7) (on_cone e1 e2 e3 (speed v) tt 0) v (Some a) = Some (on_cone e1 e2 e3 (speed v) tt (if Rltb (1 - Rabs (cos tt)) (1 / 10 ^ 7) then 0 else a)).
Proof.
  intros N N2 P O A1 A3 E1 E3. pose proof (speed_pos v N) as S1. pose proof (speed_pos _ N2) as S2.
  destruct O as (U1 & U2 & D & H3). assert (D13 : sdot v e3 = 0). { destruct A1 as [A1 _]. rewrite A1, H3, sdot_scale_l. replace (sdot e1 (vcross e1 e2)) with 0 by (unfold sdot, vcross; destruct e1, e2; cbn; ring). ring. }
  assert (X : vcross e3 e1 = e2). { rewrite H3. unfold norm2, sdot in U1, D. destruct e1 as [a b c], e2 as [d e f]. cbn in U1, D. unfold vcross; cbn. f_equal.
  - transitivity (d * (a * a + b * b + c * c) - a * (a * d + b * e + c * f)); [ring|rewrite U1, D; ring].
  - transitivity (e * (a * a + b * b + c * c) - b * (a * d + b * e + c * f)); [ring|rewrite U1, D; ring].
  - transitivity (f * (a * a + b * b + c * c) - c * (a * d + b * e + c * f)); [ring|rewrite U1, D; ring]. }
  split.
  - rewrite (rotate_eq (1 / 10 ^ 7) v w e3 tt ltac:(lra) N N2 A3 E3). rewrite D13, Rabs_R0. replace (1 - 0 / speed v) with 1 by (field; lra). rewrite Rabs_R1. rewrite (proj2 (Rltb_f _ _)) by lra. f_equal. unfold turn. rewrite D13.
    destruct A1 as [A1 _]. assert (XV : vcross e3 v = vscale (speed v) e2). { rewrite A1 at 1. transitivity (vscale (speed v) (vcross e3 e1)); [unfold vcross, vscale; destruct e3, e1; cbn; f_equal; ring|now rewrite X]. }
    rewrite XV. rewrite A1 at 1. unfold on_cone. rewrite cos_0, sin_0. unfold vadd, vscale, vsub; destruct e1, e2, e3; cbn; f_equal; ring.
  - intros a. destruct (cone_norm e1 e2 e3 (speed v) tt 0 (conj U1 (conj U2 (conj D H3)))) as [NC DC]. assert (SC : speed (on_cone e1 e2 e3 (speed v) tt 0) = speed v) by (apply speed_eq; [lra|exact NC]).
    rewrite (rotate_eq (1 / 10 ^ 7) _ v e1 a ltac:(lra)); [|intros Z; rewrite Z, (speed_eq (mkV 0 0 0) 0 ltac:(lra) ltac:(unfold norm2, sdot; cbn; ring)) in SC; lra|assumption|assumption|assumption].
    rewrite SC, DC. rewrite Rabs_mult, (Rabs_pos_eq (speed v)) by lra. replace (speed v * Rabs (cos tt) / speed v) with (Rabs (cos tt)) by (field; lra).
    assert (CL : Rabs (cos tt) <= 1) by (pose proof (COS_bound tt); apply Rabs_le; lra). rewrite (Rabs_pos_eq (1 - _)) by lra. f_equal. destruct (Rltb _ _); [reflexivity|].
    unfold turn. rewrite DC. unfold on_cone. rewrite cos_0, sin_0. rewrite H3. set (e := vcross e1 e2) in *.
    assert (C2 : vcross e1 (vscale (speed v) (vadd (vscale (cos tt) e1) (vscale (sin tt) (vadd (vscale 1 e2) (vscale 0 e))))) = vscale (speed v * sin tt) e) by (unfold e, vcross, vscale, vadd; destruct e1, e2; cbn; f_equal; ring).
    rewrite C2. unfold vadd, vscale, vsub; destruct e1, e2, e; cbn; f_equal; ring.
Qed.

Lemma axis_ok v : v <> mkV 0 0 0 -> axis_of v <> mkV 0 0 0 /\ sdot v (axis_of v) = 0.
Proof.
  intros N. split; [|unfold axis_of, normal_of, sdot, vcross; destruct (andb _ _); cbn; ring].
  unfold axis_of, normal_of. destruct v as [a b c]. cbn [vx vy vz]. destruct (Reqb a 0) eqn:A; [apply Reqb_t in A|apply Reqb_f in A]; (destruct (Reqb c 0) eqn:C; [apply Reqb_t in C|apply Reqb_f in C]); cbn [andb]; intros Z; unfold vcross in Z; cbn [vx vy vz] in Z; injection Z; intros Z1 Z2 Z3.
  - subst. apply N. f_equal. lra.
  - assert (c * c <> 0) by (apply Rmult_integral_contrapositive; tauto). nra.
  - assert (a * a <> 0) by (apply Rmult_integral_contrapositive; tauto). nra.
  - assert (0 < a * a) by (apply Rsqr_pos_lt in A; exact A). assert (0 <= c * c) by nra. nra.
Qed.
Lemma n2_pos v : v <> mkV 0 0 0 -> 0 < norm2 v.
Proof. intros N. pose proof (speed_pos v N). rewrite <- speed_norm. nra. Qed.
Lemma half_range c r : c <> mkV 0 0 0 -> -1 <= half_opening c r <= 1 /\ (0 <= r -> 0 < half_opening c r).
Proof.
  intros N. pose proof (n2_pos c N) as P. unfold half_opening. assert (D : 0 < norm2 c + r * r) by nra. assert (B : 0 < norm2 c / (norm2 c + r * r) <= 1).
  { split; [now apply Rdiv_lt_0_compat|]. apply (Rmult_le_reg_r (norm2 c + r * r)); [exact D|]. replace (norm2 c / (norm2 c + r * r) * (norm2 c + r * r)) with (norm2 c) by (field; lra). nra. }
  pose proof (sqrt_lt_R0 _ (proj1 B)) as S. assert (S1 : sqrt (norm2 c / (norm2 c + r * r)) <= 1) by (rewrite <- sqrt_1; apply sqrt_le_1; lra). destruct (Rlt_dec r 0); split; intros; lra.
Qed.
Lemma half_eq c r : c <> mkV 0 0 0 -> costheta_max c r = Some (half_opening c r).
Proof.
  intros N. pose proof (n2_pos c N) as P. unfold costheta_max, half_opening. change (vdot c c) with (norm2 c). rewrite (proj2 (Reqb_f _ 0)) by nra. rewrite (Rplus_comm (r * r)). f_equal. unfold Rltb. destruct (Rlt_dec r 0); ring.
Qed.
Lemma sin_acos_eq c : -1 <= c <= 1 -> sin (acos c) = sqrt (1 - c * c).
Proof. intros C. rewrite sin_acos by exact C. reflexivity. Qed.
Lemma cone_angle e1 e2 e3 s c phi : -1 <= c <= 1 -> on_cone e1 e2 e3 s (acos c) phi = at_angle e1 e2 e3 s c phi.
Proof. intros C. unfold on_cone, at_angle. rewrite cos_acos, sin_acos_eq by exact C. reflexivity. Qed.
Lemma directions c r : c <> mkV 0 0 0 -> exists e1 e2 e3, frame_along c e1 e2 e3 /\ orthonormal (e1, e2, e3) /\
  forall u1 u2, 0 <= u1 <= 1 -> let x := random u1 (half_opening c r) 1 in
    choose_direction_to u1 u2 c r = (Some (at_angle e1 e2 e3 (speed c) x (if Rltb (1 - Rabs x) (1 / 10 ^ 7) then 0 else random u2 0 (2 * PI))), Some (2 * PI * (1 - half_opening c r))).
Proof.
  intros N. destruct (axis_ok c N) as [N2 P]. destruct (frame_of c (axis_of c) N N2 P) as (e1 & e2 & e3 & O & A1 & A3 & E1 & E3 & X). exists e1, e2, e3. split; [|split; [exact O|]].
  { destruct O as (U1 & U2 & D & H3). destruct A1 as [A1 _]. unfold frame_along. repeat split; assumption. }
  intros u1 u2 U x. unfold choose_direction_to. rewrite half_eq by exact N. fold x. destruct (half_range c r N) as [HB _]. assert (XB : -1 <= x <= 1) by (unfold x, random; split; nra).
  destruct (two_rotations_of c (axis_of c) (acos x) e1 e2 e3 N N2 P O A1 A3 E1 E3) as [T1 T2]. rewrite T1, T2. rewrite cos_acos by exact XB. f_equal. f_equal. now apply cone_angle.
Qed.
Lemma angle_norm e1 e2 e3 s c phi : orthonormal (e1, e2, e3) -> -1 <= c <= 1 -> norm2 (at_angle e1 e2 e3 s c phi) = s * s /\ sdot (at_angle e1 e2 e3 s c phi) e1 = s * c.
Proof. intros O C. rewrite <- cone_angle by exact C. destruct (cone_norm e1 e2 e3 s (acos c) phi O) as [A B]. rewrite A, B, cos_acos by exact C. tauto. Qed.
(** A direction with a cosine not below that of the half opening hits the disk. *)
Lemma hits c r d : c <> mkV 0 0 0 -> 0 <= r -> norm2 d = norm2 c -> half_opening c r * norm2 c <= sdot d c -> hits_disk c r d.
Proof.
  intros N Rp E H. pose proof (n2_pos c N) as P. destruct (half_range c r N) as [HB HP]. specialize (HP Rp). set (h := half_opening c r) in *. set (L := norm2 c) in *. assert (S : 0 < sdot d c) by nra.
  assert (HH : h * h * (L + r * r) = L). { unfold h, half_opening. destruct (Rlt_dec r 0); [lra|]. rewrite sqrt_sqrt; [fold L; field; nra|]. fold L. apply Rlt_le, Rdiv_lt_0_compat; nra. }
  exists (L / sdot d c). split; [now apply Rdiv_lt_0_compat|]. split.
  - replace (sdot (vsub (vscale (L / sdot d c) d) c) c) with (L / sdot d c * sdot d c - L) by (unfold L, norm2, sdot, vsub, vscale; destruct c, d; cbn; ring). field. lra.
  - set (t := L / sdot d c). assert (Et : t * sdot d c = L) by (unfold t; field; lra). replace (norm2 (vsub (vscale t d) c)) with (t * t * norm2 d - 2 * (t * sdot d c) + L) by (unfold L, norm2, sdot, vsub, vscale; destruct c, d; cbn; ring).
    rewrite Et, E. fold L. assert (T0 : 0 < t) by (unfold t; now apply Rdiv_lt_0_compat). assert (T1 : t * h <= 1).
    { apply (Rmult_le_reg_r L); [exact P|]. replace (t * h * L) with (t * (h * L)) by ring. rewrite Rmult_1_l. rewrite <- Et at 2. apply Rmult_le_compat_l; lra. }
    assert (T2 : t * h * (t * h) <= 1) by (assert (0 <= t * h) by nra; nra). assert (T3 : t * t * L <= L + r * r). { apply (Rmult_le_reg_l (h * h)); [nra|]. rewrite HH. replace (h * h * (t * t * L)) with (t * h * (t * h) * L) by ring. nra. } lra.
Qed.
Lemma cone_hits c r u1 u2 : c <> mkV 0 0 0 -> 0 <= r -> 0 <= u1 <= 1 -> exists d, fst (choose_direction_to u1 u2 c r) = Some d /\ norm2 d = norm2 c /\ hits_disk c r d.
Proof.
  intros N Rp U. destruct (directions c r N) as (e1 & e2 & e3 & F & O & D). rewrite (D u1 u2 U). eexists. split; [reflexivity|]. destruct (half_range c r N) as [HB _]. set (x := random u1 (half_opening c r) 1).
  assert (XB : half_opening c r <= x <= 1) by (unfold x, random; split; nra). destruct (angle_norm e1 e2 e3 (speed c) x (if Rltb (1 - Rabs x) (1 / 10 ^ 7) then 0 else random u2 0 (2 * PI)) O ltac:(lra)) as [A B].
  set (d := at_angle _ _ _ _ _ _) in *. rewrite speed_norm in A. split; [exact A|]. apply hits; try assumption. destruct F as (_ & _ & _ & _ & EC). rewrite EC at 3. rewrite sdot_scale_r. change (sqrt (norm2 c)) with (speed c). rewrite B, <- speed_norm. pose proof (speed_nonneg c). nra.
Qed.
