(** C66, C67, C68: directions in a cone, scattering by spheres, and scattering towards a detector pixel. *)
From Coq Require Import Reals Lra Lia.
From Coquelicot Require Import Coquelicot.
From Verif Require Import Base RotModel RotSpec ChanModel ChanProofs ShapeModel ShapeSpec ShapeProofs ScatModel ScatSpec UnitModel UnitSpec UnitProofs KinModel KinSpec KinProofs KinProofs2 KinProofs3 KinProofs4 GridProofs PowdModel PowdSpec PowdProofs ConeModel ConeSpec ConeProofs ConeProofs2 ConeProofs3 ConeProofs4 ConeProofs5.
Open Scope R_scope.

(** C66.  Every direction goes through the target disk; it has the length of the vector to the target. *)
Theorem C66_hits : forall (u1 u2 : R) (target : vec3) (radius : R),
  target <> mkV 0 0 0 -> 0 <= radius -> 0 <= u1 <= 1 ->
  exists d, fst (choose_direction_to u1 u2 target radius) = Some d /\ norm2 d = norm2 target /\ hits_disk target radius d.
Proof. intros u1 u2 c r N Rp U. exact (cone_hits c r u1 u2 N Rp U). Qed.
Print Assumptions C66_hits.

(** C66.  The cosine is uniform between that of the half opening and one; the azimuth is uniform, but zero if the direction is nearly along the axis.  The value is the solid angle of the cone. *)
Theorem C66_directions : forall (target : vec3) (radius : R), target <> mkV 0 0 0 ->
  exists e1 e2 e3, frame_along target e1 e2 e3 /\ forall u1 u2, 0 <= u1 <= 1 ->
    let c := half_opening target radius + u1 * (1 - half_opening target radius) in
    (Rabs c <= 1 - 1 / 10 ^ 7 -> fst (choose_direction_to u1 u2 target radius) = Some (at_angle e1 e2 e3 (sqrt (norm2 target)) c (2 * PI * u2))) /\
    (1 - 1 / 10 ^ 7 < Rabs c -> fst (choose_direction_to u1 u2 target radius) = Some (at_angle e1 e2 e3 (sqrt (norm2 target)) c 0)) /\
    snd (choose_direction_to u1 u2 target radius) = Some (2 * PI * (1 - half_opening target radius)).
Proof.
  intros c r N. destruct (directions c r N) as (e1 & e2 & e3 & F & _ & D). exists e1, e2, e3. split; [exact F|]. intros u1 u2 U x. specialize (D u1 u2 U). cbv zeta in D.
  replace (random u1 (half_opening c r) 1) with x in D by (unfold x, random; ring). rewrite D. cbn [fst snd]. split; [|split; [|reflexivity]]; intros L.
  - rewrite (proj2 (Rltb_f _ _)) by lra. do 2 f_equal. unfold random. ring.
  - rewrite (proj2 (Rltb_t _ _)) by lra. reflexivity.
Qed.
Print Assumptions C66_directions.

(** C66.  The mean of the solid angle times a function of the direction is the integral of the function over the cone, with the part close to the axis taken at azimuth zero. *)
Theorem C66_mean : forall (target : vec3) (radius : R), target <> mkV 0 0 0 -> radius <> 0 ->
  exists e1 e2 e3, frame_along target e1 e2 e3 /\ forall (G : vec3 -> R) (J : R -> R) (I : R),
    (forall c, half_opening target radius < c < 1 -> Rabs c <= 1 - 1 / 10 ^ 7 -> is_RInt (fun phi => G (at_angle e1 e2 e3 (sqrt (norm2 target)) c phi)) 0 (2 * PI) (J c)) ->
    (forall c, half_opening target radius < c < 1 -> 1 - 1 / 10 ^ 7 < Rabs c -> J c = 2 * PI * G (at_angle e1 e2 e3 (sqrt (norm2 target)) c 0)) ->
    is_RInt J (half_opening target radius) 1 I ->
    meanN 2 (fun l => match choose_direction_to (stream l 0) (stream l 1) target radius with (Some d, Some w) => w * G d | _ => 0 end) I.
Proof. exact cone_mean. Qed.
Print Assumptions C66_mean.

(** C66.  For a function of the angle to the axis this is the integral over the cone. *)
Theorem C66_mean_angle : forall (target : vec3) (radius : R) (G : R -> R) (I : R), target <> mkV 0 0 0 -> radius <> 0 ->
  is_RInt G (half_opening target radius) 1 I ->
  meanN 2 (fun l => match choose_direction_to (stream l 0) (stream l 1) target radius with (Some d, Some w) => w * G (sdot d target / norm2 target) | _ => 0 end) (2 * PI * I).
Proof. exact cone_mean_angle. Qed.
Print Assumptions C66_mean_angle.

(** C66.  All directions to a target of less than 1/3163 of its distance are in one plane. *)
Theorem C66_narrow : forall (target : vec3) (radius : R), target <> mkV 0 0 0 -> 0 <= radius -> radius * radius <= norm2 target / 10 ^ 7 ->
  exists e, norm2 e = 1 /\ sdot e target = 0 /\ forall u1 u2 d, 0 <= u1 <= 1 -> fst (choose_direction_to u1 u2 target radius) = Some d -> sdot d e = 0.
Proof. exact narrow. Qed.
Print Assumptions C66_narrow.

(** C66.  So the mean is not always the integral over the cone. *)
Theorem C66_uniform_refuted : ~ (forall (target : vec3) (radius : R), target <> mkV 0 0 0 -> 0 < radius ->
  forall u1 u2 u2', 0 <= u1 < 1 -> 0 <= u2 < u2' -> u2' < 1 -> fst (choose_direction_to u1 u2 target radius) <> fst (choose_direction_to u1 u2' target radius)).
Proof.
  intros H. set (c := mkV 0 0 1). assert (N : c <> mkV 0 0 0) by (intros E; injection E; lra). destruct (directions c (1 / 10 ^ 4) N) as (e1 & e2 & e3 & _ & _ & D).
  assert (HB : 1 - 1 / 10 ^ 7 < half_opening c (1 / 10 ^ 4)).
  { unfold half_opening, c, norm2, sdot. cbn [vx vy vz]. destruct (Rlt_dec (1 / 10 ^ 4) 0); [lra|]. apply Rlt_le_trans with (sqrt ((1 - 1 / (15 * 10 ^ 6)) * (1 - 1 / (15 * 10 ^ 6)))); [rewrite sqrt_square; lra|]. apply sqrt_le_1; try lra. }
  destruct (half_range c (1 / 10 ^ 4) N) as [HR _]. refine (H c (1 / 10 ^ 4) N ltac:(lra) 0 (1 / 4) (1 / 2) ltac:(lra) ltac:(lra) ltac:(lra) _). rewrite !D by lra. cbv zeta. cbn [fst].
  set (x := random 0 (half_opening c (1 / 10 ^ 4)) 1). assert (XE : x = half_opening c (1 / 10 ^ 4)) by (unfold x, random; ring). rewrite (proj2 (Rltb_t _ _)) by (rewrite XE, Rabs_pos_eq; lra). reflexivity.
Qed.
Print Assumptions C66_uniform_refuted.

(** C66.  A target cone without a positive radius is the whole sphere. *)
Theorem C66_isotropic : forall (direction : vec3) (radius : R), radius <= 0 ->
  (forall u1 u2, 0 <= u1 <= 1 -> exists d, choose_scattering_direction u1 u2 direction radius = (Some d, Some (4 * PI)) /\ norm2 d = 1) /\
  forall (G : vec3 -> R) (J : R -> R) (I : R), (forall c, -1 < c < 1 -> is_RInt (fun phi => G (on_sphere c phi)) 0 (2 * PI) (J c)) -> is_RInt J (-1) 1 I ->
    meanN 2 (fun l => match choose_scattering_direction (stream l 0) (stream l 1) direction radius with (Some d, Some w) => w * G d | _ => 0 end) I.
Proof.
  intros c r L. unfold choose_scattering_direction. rewrite (proj2 (Rleb_true r 0)) by exact L. split.
  - intros u1 u2 U. eexists. split; [reflexivity|]. exact (proj2 (choose_unit u1 u2 U)).
  - intros G J I A B. pose proof PI_RGT_0. apply (mean_to 2 _ (4 * PI * I / (4 * PI))); [field; lra|].
    apply (meanN_01 2 (fun l => (fun c phi => 4 * PI * G (on_sphere c phi)) (random (stream l 0) (-1) 1) (random (stream l 1) 0 (2 * PI)))).
    + intros l LL F. destruct l as [|u1 [|u2 [|]]]; try discriminate LL. change (stream [u1; u2] 0) with u1. change (stream [u1; u2] 1) with u2. apply Forall_inv in F. rewrite choose_on_sphere by lra. reflexivity.
    + apply (sphere_mean (fun c phi => 4 * PI * G (on_sphere c phi)) (fun c => 4 * PI * J c)); [intros x X; exact (@is_RInt_scal R_NormedModule _ _ _ (4 * PI) _ (A x X))|exact (@is_RInt_scal R_NormedModule _ _ _ (4 * PI) _ B)].
Qed.
Print Assumptions C66_isotropic.

(** C67.  Scattering by spheres keeps the energy, the angle is within the limit, and the weight is the share of the solid angle times the form factor. *)
Theorem C67_scatter : forall (absorption radius phi delta_rho max_angle u1 u2 : R) (ev : event),
  0 < max_angle < 180 -> max_angle <> 90 -> 0 < radius -> e_v ev <> mkV 0 0 0 -> 0 <= u1 < 1 ->
  exists v' c k, is_wavenumber k (speed (e_v ev)) /\ cos (max_angle / 180 * PI) <= c < 1 /\ norm2 v' = norm2 (e_v ev) /\ sdot v' (e_v ev) = c * norm2 (e_v ev) /\
    sans_S (new_sans absorption radius phi delta_rho max_angle) u1 u2 ev =
      (Some v', Some (e_p ev * (2 * PI * (1 - cos (max_angle / 180 * PI)) / (4 * PI) * (2 / (9 * PI) * (k * radius) ^ 2 * sphere_form (elastic_q k c * radius) ^ 2)))).
Proof.
  intros ab R0 ph dr deg u1 u2 ev D D9 RP N U. destruct (sans_outcome ab R0 ph dr deg ev u1 u2 D D9 RP N U) as (XB & v' & A & B & C). exists v', (random u1 (cos (deg / 180 * PI)) 1), (v2k * speed (e_v ev)). split; [apply wavenumber_of|]. split; [exact XB|]. split; [exact A|]. split; [exact B|exact C].
Qed.
Print Assumptions C67_scatter.

(** C67.  The scattering coefficient is the integral of phi V delta_rho^2 f^2 over all angles: up to the angle of cosine h the integral is the share for it. *)
Theorem C67_coefficient : forall (absorption radius phi delta_rho max_angle h k : R) (v : vec3),
  0 < radius -> v <> mkV 0 0 0 -> h < 1 -> is_wavenumber k (speed v) ->
  exists Sg, sans_scattering (new_sans absorption radius phi delta_rho max_angle) v = Some Sg /\
    exists f, (forall c, c < 1 -> f c = sphere_form (elastic_q k c * radius)) /\
      is_RInt (fun c => 2 * PI * (phi * (4 / 3 * PI * radius ^ 3) * delta_rho ^ 2 * f c ^ 2)) h 1 (Sg * share (elastic_q k h * radius)).
Proof.
  intros ab R0 ph dr deg h k v RP N H K. apply is_wavenumber_iff in K. subst k. exact (sans_share ab R0 ph dr deg v h RP N H).
Qed.
Print Assumptions C67_coefficient.

(** C67.  The mean weight is the share of the scattering up to the largest angle, divided by 4 pi. *)
Theorem C67_mean : forall (absorption radius phi delta_rho max_angle k : R) (ev : event),
  0 < max_angle < 180 -> max_angle <> 90 -> 0 < radius -> e_v ev <> mkV 0 0 0 -> is_wavenumber k (speed (e_v ev)) ->
  meanN 2 (fun l => or_zero (snd (sans_S (new_sans absorption radius phi delta_rho max_angle) (stream l 0) (stream l 1) ev)))
    (e_p ev * (share (elastic_q k (cos (max_angle / 180 * PI)) * radius) / (4 * PI))).
Proof. intros ab R0 ph dr deg k ev D D9 RP N K. apply is_wavenumber_iff in K. subst k. exact (sans_mean ab R0 ph dr deg ev D D9 RP N). Qed.
Print Assumptions C67_mean.

(** C67.  Absorption goes as the inverse of the speed; it is the given coefficient at 2200 m/s. *)
Theorem C67_absorption : forall (absorption radius phi delta_rho max_angle : R) (v : vec3), v <> mkV 0 0 0 ->
  exists mu, sans_absorption (new_sans absorption radius phi delta_rho max_angle) v = Some mu /\ mu * speed v = absorption * 2200.
Proof.
  intros ab R0 ph dr deg v N. pose proof (speed_pos v N) as P. exists (ab * (2200 / speed v)). split; [|field; lra]. unfold sans_absorption. change (vnorm v) with (speed v). rewrite (proj2 (Reqb_f _ _)) by lra. reflexivity.
Qed.
Print Assumptions C67_absorption.

Lemma meanN_unique n : forall f m m', meanN n f m -> meanN n f m' -> m = m'.
Proof.
  induction n as [|n IH]; intros f m m' A B; [cbn in A, B; congruence|]. destruct A as (g & G & I), B as (g' & G' & I'). assert (E : forall u, 0 < u < 1 -> g u = g' u) by (intros u U; exact (IH _ _ _ (G u U) (G' u U))).
  pose proof (int_ext01 g g' m E I) as I1. pose proof (@is_RInt_unique R_CompleteNormedModule _ _ _ _ I1) as U1. pose proof (@is_RInt_unique R_CompleteNormedModule _ _ _ _ I') as U2. congruence.
Qed.
(** C67.  It is not that share itself, as it would be for scattering with the probability given by the form factor: weights are too low by 4 pi. *)
Theorem C67_normalised_refuted : ~ (forall (absorption radius phi delta_rho max_angle k : R) (ev : event),
  0 < max_angle < 180 -> max_angle <> 90 -> 0 < radius -> e_v ev <> mkV 0 0 0 -> is_wavenumber k (speed (e_v ev)) ->
  meanN 2 (fun l => or_zero (snd (sans_S (new_sans absorption radius phi delta_rho max_angle) (stream l 0) (stream l 1) ev)))
    (e_p ev * share (elastic_q k (cos (max_angle / 180 * PI)) * radius))).
Proof.
  intros H. pose proof PI_RGT_0 as PP. set (v := mkV 0 0 1000). assert (N : v <> mkV 0 0 0) by (intros E; injection E; lra). set (k := v2k * speed v). assert (KP : 0 < k) by (apply Rmult_lt_0_compat; [exact v2k_pos|now apply speed_pos]).
  set (q := elastic_q k (cos (60 / 180 * PI))). assert (CA : cos (60 / 180 * PI) = 1 / 2) by (replace (60 / 180 * PI) with (PI / 3) by field; exact cos_PI3).
  assert (QP : 0 < q) by (unfold q, elastic_q; rewrite CA; apply Rmult_lt_0_compat; [exact KP|apply sqrt_lt_R0; lra]). set (R0 := PI / q). assert (RP : 0 < R0) by now apply Rdiv_lt_0_compat. set (ev := RotModel.mkE (mkV 0 0 0) v 0 0 0 1).
  assert (K : is_wavenumber k (speed (e_v ev))) by apply wavenumber_of. pose proof (H 0 R0 1 1 60 k ev ltac:(lra) ltac:(lra) RP N K) as M1. pose proof (C67_mean 0 R0 1 1 60 k ev ltac:(lra) ltac:(lra) RP N K) as M2.
  pose proof (meanN_unique _ _ _ _ M1 M2) as E. fold q in E. replace (q * R0) with PI in E by (unfold R0; field; lra). assert (S : share PI = 1 - / (PI * PI)) by (unfold share; rewrite sin_PI, cos_PI; field; lra).
  cbn [e_p ev] in E. assert (P3 : 3 < PI) by (pose proof PI2_3_2; lra). assert (I : / (PI * PI) < 1) by (rewrite <- Rinv_1; apply Rinv_lt_contravar; nra). set (s := share PI) in *. assert (0 < s) by lra.
  assert (E2 : s = s / (4 * PI)) by lra. assert (E1 : s * (4 * PI) = s) by (rewrite E2 at 1; field; lra). assert (0 < s * (4 * PI - 1)) by (apply Rmult_lt_0_compat; lra). lra.
Qed.
Print Assumptions C67_normalised_refuted.

(** C68.  At a time within dtof/2 of tof the neutron is at the distance of the target and within the radius of the target. *)
Theorem C68_arrives : forall (k : dgs) (u1 u2 u3 : R) (ev : event),
  dg_position k <> e_r ev -> 0 <= dg_radius k -> 0 <= dg_dtof k -> 0 <= u1 <= 1 -> 0 <= u3 <= 1 -> 0 <= e_t ev < dg_tof k - dg_dtof k / 2 ->
  exists v' t, fst (dgs_S k u1 u2 u3 ev) = Some v' /\ Rabs (t - dg_tof k) <= dg_dtof k / 2 /\
    let r := vadd (e_r ev) (vscale (t - e_t ev) v') in
    norm2 (vsub r (dg_position k)) <= dg_radius k ^ 2 /\ norm2 (vsub r (e_r ev)) = norm2 (vsub (dg_position k) (e_r ev)).
Proof.
  intros k u1 u2 u3 ev P Rp D U U3 T. pose proof (tof_range k u3 D U3) as TR. set (tof := random u3 (dg_tof k - dg_dtof k / 2) (dg_tof k + dg_dtof k / 2)) in *. set (c := vsub (dg_position k) (e_r ev)).
  assert (N : c <> mkV 0 0 0) by (intros E; apply P; unfold c, vsub in E; destruct (dg_position k), (e_r ev); cbn in E; injection E; intros; f_equal; lra). set (ev1 := RotModel.mkE (e_r ev) (mkV 1 0 0) 0 0 (e_t ev) 1).
  assert (E1 : fst (dgs_S k u1 u2 u3 ev) = fst (dgs_S k u1 u2 u3 ev1)) by (unfold dgs_S, ev1; cbn [e_r e_t e_v e_p]; destruct (choose_direction_to _ _ _ _); destruct (Reqb _ 0); reflexivity).
  assert (G : exists d, norm2 d = norm2 c /\ norm2 (vsub d c) <= dg_radius k * dg_radius k /\ fst (dgs_S k u1 u2 u3 ev) = Some (vscale (1 / (tof - e_t ev)) d)).
  { destruct (dgs_outcome k u1 u2 u3 ev1) as (d & A & B & C); cbn [e_r e_t e_v ev1]; fold c; fold tof; try assumption; try lra; [intros E; injection E; lra|]. cbn [e_r e_t ev1] in A, B, C. fold c in A, B, C. fold tof in C. exists d. split; [exact A|]. split; [exact B|]. rewrite E1, C. reflexivity. }
  destruct G as (d & A & B & C). exists (vscale (1 / (tof - e_t ev)) d), tof. split; [exact C|]. split; [apply Rabs_le; lra|]. cbv zeta.
  assert (X : vscale (tof - e_t ev) (vscale (1 / (tof - e_t ev)) d) = d) by (unfold vscale; destruct d; cbn; f_equal; field; lra). rewrite X. split.
  - replace (vsub (vadd (e_r ev) d) (dg_position k)) with (vsub d c) by (unfold c, vsub, vadd; destruct d, (e_r ev), (dg_position k); cbn; f_equal; ring). lra.
  - replace (vsub (vadd (e_r ev) d) (e_r ev)) with d by (unfold vsub, vadd; destruct d, (e_r ev); cbn; f_equal; ring). exact A.
Qed.
Print Assumptions C68_arrives.

(** C68.  For neutrons that start at time zero the weight is the part of the solid angle times the spread of the final energy over dtof times vf/vi. *)
Theorem C68_weight : forall (k : dgs) (u1 u2 u3 : R) (ev : event),
  dg_position k <> e_r ev -> e_v ev <> mkV 0 0 0 -> 0 <= dg_radius k -> 0 <= dg_dtof k -> 0 <= u1 <= 1 -> 0 <= u3 <= 1 -> e_t ev = 0 -> 0 < dg_tof k - dg_dtof k / 2 ->
  exists v' t rate, fst (dgs_S k u1 u2 u3 ev) = Some v' /\ Rabs (t - dg_tof k) <= dg_dtof k / 2 /\
    let L := sqrt (norm2 (vsub (dg_position k) (e_r ev))) in
    speed v' * t = L /\ is_derive (fun s => v2E (L / s)) t (- rate) /\
    snd (dgs_S k u1 u2 u3 ev) = Some (e_p ev * ((1 - half_opening (vsub (dg_position k) (e_r ev)) (dg_radius k)) / 2 * dg_dtof k * rate * (speed v' / speed (e_v ev)))).
Proof.
  intros k u1 u2 u3 ev P NV Rp D U U3 T0 T. pose proof (tof_range k u3 D U3) as TR. set (tof := random u3 (dg_tof k - dg_dtof k / 2) (dg_tof k + dg_dtof k / 2)) in *. set (c := vsub (dg_position k) (e_r ev)).
  assert (N : c <> mkV 0 0 0) by (intros E; apply P; unfold c, vsub in E; destruct (dg_position k), (e_r ev); cbn in E; injection E; intros; f_equal; lra).
  destruct (dgs_outcome k u1 u2 u3 ev) as (d & A & B & C); fold c; fold tof; try assumption; try lra. fold c in A, B, C. fold tof in C. rewrite T0, Rminus_0_r in C. exists (vscale (1 / tof) d), tof, (2 * v2E (speed c / tof) / tof). rewrite C. cbn [fst snd]. split; [reflexivity|]. split; [apply Rabs_le; lra|]. cbv zeta. change (sqrt (norm2 c)) with (speed c).
  pose proof (speed_pos c N) as SP. pose proof (speed_pos _ NV) as VP. pose proof PI_RGT_0. assert (S : speed (vscale (1 / tof) d) = speed c / tof). { rewrite scale_speed. replace (speed d) with (speed c) by (unfold speed; now rewrite A). rewrite Rabs_right by (apply Rle_ge; left; apply Rdiv_lt_0_compat; lra). field. lra. }
  split; [rewrite S; field; lra|]. split.
  - pose proof (energy_rate (speed c) 0 tof ltac:(lra)) as ER. rewrite Rminus_0_r in ER. apply (is_derive_ext (fun s => v2E (speed c / (s - 0)))); [intros s; now rewrite Rminus_0_r|exact ER].
  - rewrite S. f_equal. f_equal. field. repeat split; lra.
Qed.
Print Assumptions C68_weight.

(** C68.  Absorption goes as the inverse of the speed; scattering does not depend on the neutron. *)
Theorem C68_coefficients : forall (k : dgs) (v : vec3), v <> mkV 0 0 0 ->
  (exists mu, dgs_absorption k v = Some mu /\ mu * speed v = dg_absorption k * 2200) /\ dgs_scattering k v = dg_scattering k.
Proof.
  intros k v N. pose proof (speed_pos v N) as P. split; [|reflexivity]. exists (dg_absorption k * (2200 / speed v)). split; [|field; lra]. unfold dgs_absorption. change (vnorm v) with (speed v). rewrite (proj2 (Reqb_f _ _)) by lra. reflexivity.
Qed.
Print Assumptions C68_coefficients.

(** C68.  For other starting times the weight does not have the spread of the final energy: the rate is taken as if the flight had begun at time zero. *)
Theorem C68_start_refuted : ~ (forall (k : dgs) (u1 u2 u3 : R) (ev : event),
  dg_position k <> e_r ev -> e_v ev <> mkV 0 0 0 -> 0 <= dg_radius k -> 0 <= dg_dtof k -> 0 <= u1 <= 1 -> 0 <= u3 <= 1 -> 0 <= e_t ev < dg_tof k - dg_dtof k / 2 ->
  exists v' t rate, fst (dgs_S k u1 u2 u3 ev) = Some v' /\ Rabs (t - dg_tof k) <= dg_dtof k / 2 /\
    let L := sqrt (norm2 (vsub (dg_position k) (e_r ev))) in
    speed v' * (t - e_t ev) = L /\ is_derive (fun s => v2E (L / (s - e_t ev))) t (- rate) /\
    snd (dgs_S k u1 u2 u3 ev) = Some (e_p ev * ((1 - half_opening (vsub (dg_position k) (e_r ev)) (dg_radius k)) / 2 * dg_dtof k * rate * (speed v' / speed (e_v ev))))).
Proof.
  intros H. set (k := mkDGS (mkV 0 0 1) 1 3 2 0 1). set (ev := RotModel.mkE (mkV 0 0 0) (mkV 0 0 1) 0 0 1 1). assert (PN : mkV 0 0 1 <> mkV 0 0 0) by (intros E; injection E; lra).
  destruct (H k 0 0 (1 / 2) ev) as (v' & t & rate & A & B & C & D & E); cbn [k ev dg_position e_r e_v dg_radius dg_dtof dg_tof e_t]; try lra; try exact PN.
  destruct (dgs_outcome k 0 0 (1 / 2) ev) as (d & NA & NB & EQ); cbn [k ev dg_position e_r e_v dg_radius dg_dtof dg_tof e_t]; unfold random; try lra; try exact PN.
  { unfold vsub; cbn [vx vy vz]. intros Z. injection Z; lra. }
  assert (TF : random (1 / 2) (dg_tof k - dg_dtof k / 2) (dg_tof k + dg_dtof k / 2) = 3) by (unfold k, random; cbn [dg_tof dg_dtof]; lra). rewrite TF in EQ. set (c := vsub (dg_position k) (e_r ev)) in *.
  assert (NC : norm2 c = 1) by (unfold c, k, ev, norm2, sdot, vsub; cbn [vx vy vz dg_position e_r]; ring). assert (SC : speed c = 1) by (unfold speed; rewrite NC; apply sqrt_1). rewrite EQ in A, E. cbn [fst snd] in A, E. injection A as A. injection E as E.
  cbn [ev e_t e_p dg_dtof k e_v] in *. assert (SV : speed (mkV 0 0 1) = 1) by (unfold speed, norm2, sdot; cbn [vx vy vz]; replace (0 * 0 + 0 * 0 + 1 * 1) with 1 by ring; apply sqrt_1). rewrite SV in *. rewrite SC in *.
  assert (SVP : speed v' = 1 / 2). { rewrite <- A, scale_speed. replace (speed d) with 1 by (unfold speed; rewrite NA, NC; symmetry; apply sqrt_1). rewrite Rabs_right by lra. lra. }
  cbv zeta in C. change (sqrt (norm2 c)) with (speed c) in *. rewrite SC, SVP in *. assert (T3 : t = 3) by lra. subst t. pose proof (energy_rate 1 1 3 ltac:(lra)) as ER.
  pose proof (is_derive_unique _ _ _ D) as U1. pose proof (is_derive_unique _ _ _ ER) as U2. rewrite U1 in U2. pose proof vsq2e_pos as VP. unfold v2E in U2, E. set (w := vsq2e) in *. assert (RE : rate = w / 4) by lra. rewrite RE in E. pose proof PI_RGT_0.
  assert (HO : half_opening c 1 < 1). { apply half_below; [|lra]. intros Z. rewrite Z in NC. unfold norm2, sdot in NC. cbn in NC. lra. } set (h := half_opening c 1) in *. cbn [dg_radius k] in E. fold h in E.
  replace (2 * PI * (1 - h) / (4 * PI)) with ((1 - h) / 2) in E by (field; lra). assert (0 < (1 - h) * w) by nra. replace (1 / (3 - 1)) with (1 / 2) in E by lra. nra.
Qed.
Print Assumptions C68_start_refuted.

(** C68.  If the time at the target is over when the neutron starts, its weight becomes negative. *)
Theorem C68_late_refuted : ~ (forall (k : dgs) (u1 u2 u3 p : R) (ev : event),
  dg_position k <> e_r ev -> e_v ev <> mkV 0 0 0 -> 0 < dg_radius k -> 0 < dg_dtof k < dg_tof k -> 0 <= u1 <= 1 -> 0 <= u3 <= 1 -> 0 < e_p ev -> snd (dgs_S k u1 u2 u3 ev) = Some p -> 0 <= p).
Proof.
  intros H. set (k := mkDGS (mkV 0 0 1) 1 3 2 0 1). set (ev := RotModel.mkE (mkV 0 0 0) (mkV 0 0 1) 0 0 5 1). assert (PN : mkV 0 0 1 <> mkV 0 0 0) by (intros E; injection E; lra).
  destruct (dgs_outcome k 0 0 (1 / 2) ev) as (d & NA & NB & EQ); cbn [k ev dg_position e_r e_v dg_radius dg_dtof dg_tof e_t]; unfold random; try lra; try exact PN.
  { unfold vsub; cbn [vx vy vz]. intros Z. injection Z; lra. }
  assert (TF : random (1 / 2) (dg_tof k - dg_dtof k / 2) (dg_tof k + dg_dtof k / 2) = 3) by (unfold k, random; cbn [dg_tof dg_dtof]; lra). rewrite TF in EQ. set (c := vsub (dg_position k) (e_r ev)) in *.
  assert (NC : norm2 c = 1) by (unfold c, k, ev, norm2, sdot, vsub; cbn [vx vy vz dg_position e_r]; ring). assert (SC : speed c = 1) by (unfold speed; rewrite NC; apply sqrt_1).
  pose proof (fun p => H k 0 0 (1 / 2) p ev PN PN) as K. cbn [k ev dg_position e_r e_v dg_radius dg_dtof dg_tof e_t e_p] in K. fold k in K. fold ev in K. rewrite EQ in K. specialize (K _ ltac:(lra) ltac:(lra) ltac:(lra) ltac:(lra) ltac:(lra) eq_refl).
  cbn [ev e_t e_p dg_dtof k e_v dg_radius] in K. assert (SV : speed (mkV 0 0 1) = 1) by (unfold speed, norm2, sdot; cbn [vx vy vz]; replace (0 * 0 + 0 * 0 + 1 * 1) with 1 by ring; apply sqrt_1). rewrite SV, SC in K.
  assert (HO : half_opening c 1 < 1). { apply half_below; [|lra]. intros Z. rewrite Z in NC. unfold norm2, sdot in NC. cbn in NC. lra. } set (h := half_opening c 1) in *. pose proof PI_RGT_0. pose proof vsq2e_pos as VP. unfold v2E in K. set (w := vsq2e) in *.
  replace (2 * PI * (1 - h) / (4 * PI)) with ((1 - h) / 2) in K by (field; lra). assert (0 < (1 - h) * w) by nra. replace (1 / (3 - 5)) with (- (1 / 2)) in K by lra. nra.
Qed.
Print Assumptions C68_late_refuted.

Example C66_hits_example : mkV 0 3 4 <> mkV 0 0 0 /\ half_opening (mkV 0 0 4) 3 = 4 / 5.
Proof.
  split; [intros E; injection E; lra|]. unfold half_opening, norm2, sdot. cbn [vx vy vz]. destruct (Rlt_dec 3 0); [lra|]. replace ((0 * 0 + 0 * 0 + 4 * 4) / (0 * 0 + 0 * 0 + 4 * 4 + 3 * 3)) with (4 / 5 * (4 / 5)) by lra. apply sqrt_square. lra.
Qed.
Example C66_mean_example : is_RInt (fun _ => 1) (half_opening (mkV 0 0 4) 3) 1 (1 / 5).
Proof.
  destruct C66_hits_example as [_ ->]. pose proof (@is_RInt_const R_NormedModule (4 / 5) 1 1) as K. change (is_RInt (fun _ => 1) (4 / 5) 1 ((1 - 4 / 5) * 1)) in K. now replace ((1 - 4 / 5) * 1) with (1 / 5) in K by lra.
Qed.
Example C66_narrow_example : (1 / 10) * (1 / 10) <= norm2 (mkV 0 0 500) / 10 ^ 7. Proof. unfold norm2, sdot. cbn [vx vy vz]. lra. Qed.
Example C67_scatter_example : 0 < 3 < 180 /\ mkV 0 0 1000 <> mkV 0 0 0. Proof. split; [lra|intros E; injection E; lra]. Qed.
Example C67_share_example : share PI = 1 - / (PI * PI). Proof. unfold share. rewrite sin_PI, cos_PI. pose proof PI_RGT_0. field. lra. Qed.
Example C68_arrives_example : let k := mkDGS (mkV 0 0 3) (1 / 100) (3 / 1000) (1 / 100000) 0 1 in let ev := RotModel.mkE (mkV 0 0 0) (mkV 0 0 2000) 0 0 (1 / 1000) 1 in
  dg_position k <> e_r ev /\ 0 <= dg_radius k /\ 0 <= e_t ev < dg_tof k - dg_dtof k / 2.
Proof. cbn. split; [intros E; injection E; lra|lra]. Qed.
Example C68_weight_example : let k := mkDGS (mkV 0 0 3) (1 / 100) (3 / 1000) (1 / 100000) 0 1 in 0 < dg_tof k - dg_dtof k / 2. Proof. cbn. lra. Qed.
