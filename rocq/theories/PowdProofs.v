(** Proofs for C57: rotations and the choice of peaks. *)
From Coq Require Import Reals Lra Lia.
From Coquelicot Require Import Coquelicot.
From Verif Require Import Base RotModel RotSpec ChanModel ChanProofs ShapeModel ShapeSpec ShapeProofs ScatModel ScatSpec UnitModel UnitSpec UnitProofs KinModel KinSpec KinProofs KinProofs2 KinProofs3 KinProofs4 GridProofs PowdModel PowdSpec.
Open Scope R_scope.

Lemma dot_is a b : vdot a b = sdot a b. Proof. reflexivity. Qed.
Lemma norm_is v : vnorm v = speed v. Proof. reflexivity. Qed.
Lemma scale_n2 k v : norm2 (vscale k v) = k * k * norm2 v. Proof. unfold norm2, sdot, vscale; cbn; ring. Qed.
Lemma scale_speed k v : speed (vscale k v) = Rabs k * speed v.
Proof. apply speed_eq; [apply Rmult_le_pos; [apply Rabs_pos|apply speed_nonneg]|]. rewrite scale_n2, <- speed_norm. assert (Rabs k * Rabs k = k * k) by (rewrite <- Rabs_mult; apply Rabs_pos_eq; nra). nra. Qed.
Lemma unit_speed n : norm2 n = 1 -> speed n = 1.
Proof. intros H. apply speed_eq; [lra|rewrite H; ring]. Qed.

(** the rotation in terms of the unit vector *)
Definition turn (n : vec3) (a : R) (v : vec3) : vec3 :=
  vadd (vadd (vscale (sdot v n) n) (vscale (cos a) (vsub v (vscale (sdot v n) n)))) (vscale (sin a) (vcross n v)).
Lemma turn_about c a v n : norm2 n = 1 -> c = vscale (speed c) n -> turned_about c a v (turn n a v).
Proof. intros U E. exists n. repeat split; assumption. Qed.
Lemma rotate_eq eps v c n a : 0 < eps -> v <> mkV 0 0 0 -> c <> mkV 0 0 0 -> along c n -> normalize c = Some n ->
  rotate eps v c (Some a) = Some (if Rltb (Rabs (1 - Rabs (sdot v n) / speed v)) eps then v else turn n a v).
Proof.
  intros EP NV NC [A U] E. unfold rotate. rewrite E. cbv zeta. rewrite !norm_is, dot_is. pose proof (speed_pos v NV) as SV.
  rewrite (proj2 (Reqb_f _ _)) by lra. rewrite scale_speed, (unit_speed n U), Rmult_1_r. destruct (Rltb _ _) eqn:B; [reflexivity|].
  set (pp := vsub v (vscale (sdot v n) n)). assert (NP : pp <> mkV 0 0 0).
  { intros Z. apply Rltb_f in B. assert (HV : v = vscale (sdot v n) n). { unfold pp, vsub, vscale in Z. destruct v as [a1 a2 a3], n as [b1 b2 b3]. unfold sdot, vscale in *. cbn in *. injection Z; intros. f_equal; lra. }
    assert (HS : speed v = Rabs (sdot v n)) by (rewrite HV at 1; rewrite scale_speed, (unit_speed n U); ring). rewrite <- HS in B. replace (1 - speed v / speed v) with 0 in B by (field; lra). rewrite Rabs_R0 in B. lra. }
  destruct (normalize_some pp NP) as (e & EE & [AE UE]). rewrite EE, !norm_is. f_equal. unfold turn. fold pp.
  assert (HX : vcross n v = vscale (speed pp) (vcross n e)).
  { transitivity (vcross n pp); [unfold pp, vcross, vsub, vscale; destruct v, n; cbn; f_equal; ring|]. rewrite AE at 1. unfold vcross, vscale; destruct e, n; cbn; f_equal; ring. }
  rewrite HX. rewrite AE at 2. unfold vadd, vscale, vsub, vcross; destruct e, n; cbn; f_equal; ring.
Qed.
Lemma turn_speed n a v : norm2 n = 1 -> norm2 (turn n a v) = norm2 v.
Proof.
  intros U. assert (C2 : cos a * cos a = 1 - sin a * sin a) by (pose proof (sin2_cos2 a) as H; unfold Rsqr in H; lra).
  assert (E : norm2 (turn n a v) = sdot v n * sdot v n * norm2 n + cos a * cos a * (norm2 v - 2 * (sdot v n * sdot v n) + sdot v n * sdot v n * norm2 n) + sin a * sin a * (norm2 n * norm2 v - sdot v n * sdot v n) + 2 * cos a * (sdot v n * sdot v n) * (1 - norm2 n)).
  { unfold turn, norm2, sdot, vadd, vscale, vsub, vcross; destruct v, n; cbn; ring. }
  rewrite E, U, C2. ring.
Qed.

(** the two rotations of the kernel *)
Definition second_axis (v : vec3) : vec3 := vcross v (if Rltb (Rabs (vdot (mkV 1 0 0) v)) (Rabs (vdot (mkV 0 0 1) v)) then mkV 1 0 0 else mkV 0 0 1).
Lemma second_axis_ok v : v <> mkV 0 0 0 -> second_axis v <> mkV 0 0 0 /\ sdot v (second_axis v) = 0.
Proof.
  intros N. split.
  - unfold second_axis. destruct v as [a b c]. unfold vdot; cbn [vx vy vz]. replace (1 * a + 0 * b + 0 * c) with a by ring. replace (0 * a + 0 * b + 1 * c) with c by ring.
    destruct (Rltb (Rabs a) (Rabs c)) eqn:B; intros Z; unfold vcross in Z; cbn in Z; injection Z; intros.
    + apply Rltb_t in B. assert (c = 0) by lra. subst c. rewrite Rabs_R0 in B. pose proof (Rabs_pos a). lra.
    + apply Rltb_f in B. assert (b = 0) by lra. assert (a = 0) by lra. subst. rewrite Rabs_R0 in B. apply N. f_equal. pose proof (Rabs_pos c). destruct (Req_dec c 0) as [|NC]; [assumption|]. apply Rabs_no_R0 in NC. lra.
  - unfold second_axis. unfold sdot, vcross; destruct (Rltb _ _); cbn; ring.
Qed.
Lemma units_perp a b e f : along a e -> along b f -> 0 < speed a -> 0 < speed b -> sdot a b = 0 -> sdot e f = 0.
Proof.
  intros [A _] [B _] PA PB H. set (x := speed a) in *. set (y := speed b) in *. clearbody x y. subst a b. rewrite sdot_scale_l, sdot_scale_r in H. apply Rmult_integral in H. destruct H as [H|H]; [lra|]. apply Rmult_integral in H. destruct H; [lra|assumption].
Qed.
Lemma frame v : v <> mkV 0 0 0 -> exists e1 e2 e3, orthonormal (e1, e2, e3) /\ along v e1 /\ along (second_axis v) e3 /\ normalize v = Some e1 /\ normalize (second_axis v) = Some e3 /\ e2 = vcross e3 e1.
Proof.
  intros N. destruct (second_axis_ok v N) as [N2 P]. destruct (normalize_some v N) as (e1 & E1 & A1). destruct (normalize_some _ N2) as (e3 & E3 & A3).
  pose proof (speed_pos v N) as S1. pose proof (speed_pos _ N2) as S2. pose proof (units_perp _ _ _ _ A1 A3 S1 S2 P) as D.
  exists e1, (vcross e3 e1), e3. split; [|repeat split; try assumption; try apply A1; apply A3]. destruct A1 as [A1 U1], A3 as [A3 U3].
  assert (L : norm2 (vcross e3 e1) = norm2 e3 * norm2 e1 - sdot e1 e3 * sdot e1 e3) by (unfold norm2, sdot, vcross; destruct e1, e3; cbn; ring).
  unfold orthonormal. repeat split; [exact U1|rewrite L, U1, U3, D; ring|unfold sdot, vcross; destruct e1, e3; cbn; ring|].
  unfold norm2, sdot in U1, D. destruct e1 as [a b c], e3 as [d e f]. cbn in U1, D. unfold vcross; cbn. f_equal.
  - transitivity (d * (a * a + b * b + c * c) - a * (a * d + b * e + c * f)); [rewrite U1, D; ring|ring].
  - transitivity (e * (a * a + b * b + c * c) - b * (a * d + b * e + c * f)); [rewrite U1, D; ring|ring].
  - transitivity (f * (a * a + b * b + c * c) - c * (a * d + b * e + c * f)); [rewrite U1, D; ring|ring].
Qed.
Lemma cone_norm e1 e2 e3 s tt phi : orthonormal (e1, e2, e3) -> norm2 (on_cone e1 e2 e3 s tt phi) = s * s /\ sdot (on_cone e1 e2 e3 s tt phi) e1 = s * cos tt.
Proof.
  intros (U1 & U2 & D & ->). assert (D3 : norm2 (vcross e1 e2) = 1). { replace (norm2 (vcross e1 e2)) with (norm2 e1 * norm2 e2 - sdot e1 e2 * sdot e1 e2) by (unfold norm2, sdot, vcross; destruct e1, e2; cbn; ring). rewrite U1, U2, D. ring. }
  assert (P1 : sdot e1 (vcross e1 e2) = 0) by (unfold sdot, vcross; destruct e1, e2; cbn; ring). assert (P2 : sdot e2 (vcross e1 e2) = 0) by (unfold sdot, vcross; destruct e1, e2; cbn; ring).
  set (e3 := vcross e1 e2) in *. pose proof (sin2_cos2 tt) as T1. pose proof (sin2_cos2 phi) as T2. unfold Rsqr in T1, T2. split.
  - transitivity (s * s * (cos tt * cos tt * norm2 e1 + sin tt * sin tt * (cos phi * cos phi * norm2 e2 + sin phi * sin phi * norm2 e3 + 2 * cos phi * sin phi * sdot e2 e3) + 2 * cos tt * sin tt * (cos phi * sdot e1 e2 + sin phi * sdot e1 e3))).
    + unfold on_cone, norm2, sdot, vscale, vadd; destruct e1, e2, e3; cbn; ring.
    + rewrite U1, U2, D3, D, P1, P2. replace (cos phi * cos phi * 1 + sin phi * sin phi * 1 + 2 * cos phi * sin phi * 0) with 1 by lra. replace (cos tt * cos tt * 1 + sin tt * sin tt * 1 + 2 * cos tt * sin tt * (cos phi * 0 + sin phi * 0)) with 1 by lra. ring.
  - transitivity (s * (cos tt * norm2 e1 + sin tt * (cos phi * sdot e1 e2 + sin phi * sdot e1 e3))); [unfold on_cone, norm2, sdot, vscale, vadd; destruct e1, e2, e3; cbn; ring|]. rewrite U1, D, P1. ring.
Qed.
Lemma two_rotations v tt e1 e2 e3 : v <> mkV 0 0 0 -> orthonormal (e1, e2, e3) -> along v e1 -> along (second_axis v) e3 -> normalize v = Some e1 -> normalize (second_axis v) = Some e3 ->
  rotate (1 / 10 ^ 7) v (second_axis v) (Some tt) = Some (on_cone e1 e2 e3 (speed v) tt 0) /\
  forall a, rotate (1 / 10 ^ 7) (on_cone e1 e2 e3 (speed v) tt 0) v (Some a) = Some (on_cone e1 e2 e3 (speed v) tt (if Rltb (1 - Rabs (cos tt)) (1 / 10 ^ 7) then 0 else a)).
Proof.
  intros N O A1 A3 E1 E3. destruct (second_axis_ok v N) as [N2 P]. pose proof (speed_pos v N) as S1. pose proof (speed_pos _ N2) as S2.
  destruct O as (U1 & U2 & D & H3). assert (D13 : sdot v e3 = 0). { destruct A1 as [A1 _]. rewrite A1, H3, sdot_scale_l. replace (sdot e1 (vcross e1 e2)) with 0 by (unfold sdot, vcross; destruct e1, e2; cbn; ring). ring. }
  assert (X : vcross e3 e1 = e2). { rewrite H3. unfold norm2, sdot in U1, D. destruct e1 as [a b c], e2 as [d e f]. cbn in U1, D. unfold vcross; cbn. f_equal.
  - transitivity (d * (a * a + b * b + c * c) - a * (a * d + b * e + c * f)); [ring|rewrite U1, D; ring].
  - transitivity (e * (a * a + b * b + c * c) - b * (a * d + b * e + c * f)); [ring|rewrite U1, D; ring].
  - transitivity (f * (a * a + b * b + c * c) - c * (a * d + b * e + c * f)); [ring|rewrite U1, D; ring]. }
  split.
  - rewrite (rotate_eq (1 / 10 ^ 7) v (second_axis v) e3 tt ltac:(lra) N N2 A3 E3). rewrite D13, Rabs_R0. replace (1 - 0 / speed v) with 1 by (field; lra). rewrite Rabs_R1. rewrite (proj2 (Rltb_f _ _)) by lra. f_equal. unfold turn. rewrite D13.
    destruct A1 as [A1 _]. assert (XV : vcross e3 v = vscale (speed v) e2). { rewrite A1 at 1. transitivity (vscale (speed v) (vcross e3 e1)); [unfold vcross, vscale; destruct e3, e1; cbn; f_equal; ring|now rewrite X]. }
    rewrite XV. rewrite A1 at 1. unfold on_cone. rewrite cos_0, sin_0. unfold vadd, vscale, vsub; destruct e1, e2, e3; cbn; f_equal; ring.
  - intros a. destruct (cone_norm e1 e2 e3 (speed v) tt 0 (conj U1 (conj U2 (conj D H3)))) as [NC DC]. assert (SC : speed (on_cone e1 e2 e3 (speed v) tt 0) = speed v) by (apply speed_eq; [lra|exact NC]).
    rewrite (rotate_eq (1 / 10 ^ 7) _ v e1 a ltac:(lra)); [|intros Z; rewrite Z, (speed_eq (mkV 0 0 0) 0 ltac:(lra) ltac:(unfold norm2, sdot; cbn; ring)) in SC; lra|assumption|assumption|assumption].
    rewrite SC, DC. rewrite Rabs_mult, (Rabs_pos_eq (speed v)) by lra. replace (speed v * Rabs (cos tt) / speed v) with (Rabs (cos tt)) by (field; lra).
    assert (CL : Rabs (cos tt) <= 1) by (pose proof (COS_bound tt); apply Rabs_le; lra). rewrite (Rabs_pos_eq (1 - _)) by lra. f_equal. destruct (Rltb _ _); [reflexivity|].
    unfold turn. rewrite DC. unfold on_cone. rewrite cos_0, sin_0. rewrite H3. set (e := vcross e1 e2) in *.
    assert (C2 : vcross e1 (vscale (speed v) (vadd (vscale (cos tt) e1) (vscale (sin tt) (vadd (vscale 1 e2) (vscale 0 e))))) = vscale (speed v * sin tt) e) by (unfold e, vcross, vscale, vadd; destruct e1, e2; cbn; f_equal; ring).
    rewrite C2. unfold vadd, vscale, vsub; destruct e1, e2, e; cbn; f_equal; ring.
Qed.
(** the momentum transfer on a cone *)
Lemma cone_transfer v e1 e2 e3 x phi : along v e1 -> orthonormal (e1, e2, e3) -> -1 <= x <= 1 ->
  let v' := on_cone e1 e2 e3 (speed v) (2 * asin x) phi in speed v' = speed v /\ speed (vsub v v') = 2 * speed v * Rabs x.
Proof.
  intros A1 O X v'. destruct (cone_norm e1 e2 e3 (speed v) (2 * asin x) phi O) as [NC DC]. fold v' in NC, DC. pose proof (speed_nonneg v) as SV. split; [apply speed_eq; assumption|].
  apply speed_eq; [apply Rmult_le_pos; [lra|apply Rabs_pos]|]. assert (L : norm2 (vsub v v') = norm2 v + norm2 v' - 2 * sdot v' v) by (unfold norm2, sdot, vsub; destruct v, v'; cbn; ring).
  assert (DV : sdot v' v = speed v * (speed v * cos (2 * asin x))). { destruct A1 as [A1 _]. rewrite A1 at 1. rewrite sdot_scale_r, DC. reflexivity. }
  rewrite L, NC, DV, <- speed_norm, cos_2a_sin, sin_asin by lra. assert (Rabs x * Rabs x = x * x) by (rewrite <- Rabs_mult; apply Rabs_pos_eq; nra). nra.
Qed.
