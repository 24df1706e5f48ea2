(** Proofs for C77: rectangles given by angles. *)
From Coq Require Import Reals Lra Lia.
From Coquelicot Require Import Coquelicot.
From Verif Require Import Base RotModel RotSpec RotProofs ChanModel ChanProofs ShapeModel ShapeSpec ShapeProofs ScatModel ScatSpec UnitModel UnitSpec UnitProofs KinModel KinSpec KinProofs KinProofs2 KinProofs3 KinProofs4 GridProofs PowdModel PowdSpec PowdProofs ConeModel ConeSpec ConeProofs ConeProofs2 McsModel McsSpec McsProofs2.
Open Scope R_scope.

Lemma normal_nz g : mc_normal g <> mkV 0 0 0.
Proof. unfold mc_normal. destruct (Reqb (vx g) 0) eqn:X; destruct (Reqb (vz g) 0) eqn:Z; cbn [andb]; intros E; injection E; intros; try (apply Reqb_f in X; lra); try (apply Reqb_f in Z; lra); try lra. Qed.
Lemma angular_length A c w h u1 u2 : rotation A -> c <> mkV 0 0 0 -> w <> 0 -> h <> 0 ->
  exists o, randvec_target_rect_angular u1 u2 c w h A = Ok (o, 2 * Rabs (w * sin (h / 2))) /\ norm2 o = norm2 c.
Proof.
  intros H N W HH. unfold randvec_target_rect_angular. rewrite (proj2 (Reqb_f h 0) HH), (proj2 (Reqb_f w 0) W). cbn [orb]. eexists. split; [reflexivity|]. set (g := rot_apply (rot_transpose A) c).
  assert (GN : g <> mkV 0 0 0) by (now apply rot_nz_t). destruct (axis_ok g GN) as [AN _]. change (axis_of g) with (vcross g (mc_normal g)) in AN. destruct (unit_exists _ AN) as (e & Ae). destruct (unit_exists _ (normal_nz g)) as (f & Af).
  unfold norm2 at 1. rewrite rot_sdot by exact H. change (sdot ?a ?a) with (norm2 a). rewrite (rotate_turned _ _ _ e AN Ae), (rotate_turned _ _ _ f (normal_nz g) Af). rewrite (proj1 (turned_norm e _ _ (proj2 Ae))), (proj1 (turned_norm f _ _ (proj2 Af))).
  unfold norm2, g. now rewrite rot_sdot_t.
Qed.
Lemma sdot_y a : sdot a (mkV 0 1 0) = vy a.
Proof. unfold sdot. cbn. ring. Qed.
(** A target at the height of the origin. *)
Lemma angular_level A c : rotation A -> c <> mkV 0 0 0 -> let up := rot_apply A (mkV 0 1 0) in sdot c up = 0 ->
  exists e s, c = vscale (speed c) e /\ norm2 e = 1 /\ norm2 s = 1 /\ sdot e s = 0 /\ sdot s up = 0 /\
    forall u1 u2 w h, w <> 0 -> h <> 0 -> let theta := w * (2 * u1 - 1) / 2 in let phi := h * (2 * u2 - 1) / 2 in
      randvec_target_rect_angular u1 u2 c w h A = Ok (vscale (speed c) (vadd (vscale (sin phi) up) (vscale (cos phi) (vadd (vscale (cos theta) e) (vscale (sin theta) s)))), 2 * Rabs (w * sin (h / 2))).
Proof.
  intros H N up L. set (g := rot_apply (rot_transpose A) c). assert (GB : c = rot_apply A g) by (unfold g; symmetry; now apply back_apply). assert (GY : vy g = 0).
  { rewrite GB in L. unfold up in L. rewrite rot_sdot in L by exact H. now rewrite sdot_y in L. }
  assert (GN : g <> mkV 0 0 0) by (now apply rot_nz_t). assert (SG : speed g = speed c) by (unfold speed, norm2, g; now rewrite rot_sdot_t). pose proof (speed_pos c N) as SP. rewrite <- SG in SP.
  destruct (unit_exists g GN) as (e & [Ae Ue]). assert (EY : vy e = 0). { rewrite Ae in GY. unfold vscale in GY. cbn in GY. apply Rmult_integral in GY. destruct GY; [lra|assumption]. }
  exists (rot_apply A e), (rot_apply A (mkV (- vz e) 0 (vx e))). destruct e as [a b d]. cbn [vx vy vz] in *. subst b. unfold norm2, sdot in Ue. cbn in Ue. rewrite <- SG.
  split; [rewrite GB at 1; rewrite Ae at 1; unfold rot_apply, vscale; cbn; f_equal; ring|]. split; [unfold norm2; rewrite rot_sdot by exact H; unfold sdot; cbn; lra|]. split; [unfold norm2; rewrite rot_sdot by exact H; unfold sdot; cbn; lra|].
  split; [rewrite rot_sdot by exact H; unfold sdot; cbn; ring|]. split; [unfold up; rewrite rot_sdot by exact H; unfold sdot; cbn; ring|].
  intros u1 u2 w h W HH. set (theta := w * (2 * u1 - 1) / 2). set (phi := h * (2 * u2 - 1) / 2). unfold randvec_target_rect_angular. rewrite (proj2 (Reqb_f h 0) HH), (proj2 (Reqb_f w 0) W). cbn [orb]. fold g. unfold randpm1. fold theta phi. f_equal. f_equal.
  set (s := speed g) in *. unfold vscale in Ae. cbn in Ae. clearbody s. rewrite Rmult_0_r in Ae.
  assert (AD : s * a <> 0 \/ s * d <> 0). { destruct (Req_dec a 0) as [Ea|Ea]; [|left; intros Z; apply Rmult_integral in Z; lra]. destruct (Req_dec d 0) as [Ed|Ed]; [|right; intros Z; apply Rmult_integral in Z; lra]. rewrite Ea, Ed in Ue. lra. }
  assert (MN : mc_normal g = mkV (- (s * d)) 0 (s * a)). { rewrite Ae. unfold mc_normal. cbn [vx vz]. destruct AD as [Z|Z]; rewrite (proj2 (Reqb_f _ 0) Z), ?Bool.andb_false_r; reflexivity. }
  assert (SM : speed (mkV (- (s * d)) 0 (s * a)) = s) by (apply speed_eq; [lra|]; unfold norm2, sdot; cbn; transitivity (s * s * (a * a + 0 * 0 + d * d)); [ring|rewrite Ue; ring]).
  assert (AN : along (mkV (- (s * d)) 0 (s * a)) (mkV (- d) 0 a)). { split; [rewrite SM; unfold vscale; cbn; f_equal; ring|unfold norm2, sdot; cbn; lra]. }
  pose proof (normal_nz g) as NN. rewrite MN in NN |- *.
  assert (CU : vcross g (mkV (- (s * d)) 0 (s * a)) = mkV 0 (- (s * s)) 0). { rewrite Ae. unfold vcross. cbn. f_equal; try ring. transitivity (- (s * s) * (a * a + 0 * 0 + d * d)); [ring|rewrite Ue; ring]. }
  rewrite CU. assert (UN : mkV 0 (- (s * s)) 0 <> mkV 0 0 0) by (intros E; injection E as E; nra). assert (SU : speed (mkV 0 (- (s * s)) 0) = s * s) by (apply speed_eq; [nra|]; unfold norm2, sdot; cbn; ring).
  assert (AU : along (mkV 0 (- (s * s)) 0) (mkV 0 (-1) 0)) by (split; [rewrite SU; unfold vscale; cbn; f_equal; ring|unfold norm2, sdot; cbn; ring]).
  rewrite (rotate_turned _ _ _ _ NN AN), (rotate_turned _ _ _ _ UN AU). rewrite Ae.
  assert (T1 : turned (mkV (- d) 0 a) phi (mkV (s * a) 0 (s * d)) = mkV (cos phi * (s * a)) (s * sin phi) (cos phi * (s * d))).
  { unfold turned, sdot, vadd, vscale, vcross. cbn. f_equal; try ring. transitivity (s * sin phi * (a * a + 0 * 0 + d * d)); [ring|rewrite Ue; ring]. }
  rewrite T1. assert (T2 : turned (mkV 0 (-1) 0) theta (mkV (cos phi * (s * a)) (s * sin phi) (cos phi * (s * d))) = mkV (s * (cos phi * (cos theta * a - sin theta * d))) (s * sin phi) (s * (cos phi * (cos theta * d + sin theta * a)))).
  { unfold turned, sdot, vadd, vscale, vcross. cbn. f_equal; ring. }
  rewrite T2. unfold up, rot_apply, vadd, vscale. cbn. f_equal; ring.
Qed.
Lemma angular_zero A c w h u1 u2 : w = 0 \/ h = 0 -> randvec_target_rect_angular u1 u2 c w h A = Err UndefinedBehaviour.
Proof. intros Z. unfold randvec_target_rect_angular. assert (E : (Reqb h 0 || Reqb w 0)%bool = true) by (apply Bool.orb_true_iff; rewrite !Reqb_t; tauto). now rewrite E. Qed.

Lemma rot_I3 : rotation I3.
Proof. split; [intros a b; now rewrite !dot_I|unfold det, I3; cbn; ring]. Qed.
Lemma apply_I3 p : rot_apply I3 p = p.
Proof. apply dot_I. Qed.
Lemma angular_mean : meanN 2 (fun l => weigh_ok (fun o => vy o * vy o) (randvec_target_rect_angular (stream l 0) (stream l 1) (mkV 0 0 1) 1 PI I3)) 1.
Proof.
  pose proof PI_RGT_0 as PP. assert (N : mkV 0 0 1 <> mkV 0 0 0) by (intros E; injection E; lra).
  destruct (angular_level I3 (mkV 0 0 1) rot_I3 N) as (e & s & Ec & Ue & Us & Pes & Psu & D); [rewrite apply_I3; unfold sdot; cbn; ring|]. rewrite apply_I3 in *.
  assert (S1 : speed (mkV 0 0 1) = 1) by (apply speed_eq; [lra|unfold norm2, sdot; cbn; ring]). rewrite S1 in *. assert (Ey : vy e = 0) by (injection Ec; intros; lra). assert (Sy : vy s = 0) by (unfold sdot in Psu; cbn in Psu; lra).
  exists (fun _ => 1). split; [|apply RInt_const01]. intros u1 U1. exists (fun u2 => 2 * (sin (PI * (2 * u2 - 1) / 2) * sin (PI * (2 * u2 - 1) / 2))). split.
  - intros u2 U2. cbn [meanN]. change (stream [u1; u2] 0) with u1. change (stream [u1; u2] 1) with u2. rewrite (D u1 u2 1 PI) by lra. unfold weigh_ok, weigh. cbn [fst snd]. rewrite sin_PI2. rewrite Rmult_1_l, Rabs_R1. unfold vscale, vadd. cbn. rewrite Ey, Sy. ring.
  - set (F := fun u => u - sin (PI * (2 * u - 1)) / (2 * PI)). replace 1 with (F 1 - F 0) at 2.
    2: { unfold F. replace (PI * (2 * 1 - 1)) with PI by ring. replace (PI * (2 * 0 - 1)) with (- PI) by ring. rewrite sin_neg, sin_PI. field. lra. }
    apply (is_RInt_derive F).
    + intros u _. unfold F. auto_derive; [lra|]. set (x := PI * (2 * u - 1) / 2). replace (PI * (2 * u + - (1))) with (2 * x) by (unfold x; field). rewrite cos_2a_sin. field. lra.
    + intros u _. apply continuity_pt_filterlim. apply derivable_continuous_pt. apply ex_derive_Reals_0. auto_derive. exact I.
Qed.
Lemma solid_angle_mean : is_RInt (fun phi => 1 * (sin phi * sin phi) * cos phi) (- PI / 2) (PI / 2) (2 / 3).
Proof.
  set (F := fun x => sin x ^ 3 / 3). replace (2 / 3) with (F (PI / 2) - F (- PI / 2)).
  2: { unfold F. replace (- PI / 2) with (- (PI / 2)) by field. rewrite sin_neg, sin_PI2. field. }
  apply (is_RInt_derive F).
  - intros u _. unfold F. auto_derive; [exact I|]. field.
  - intros u _. apply continuity_pt_filterlim. apply derivable_continuous_pt. apply ex_derive_Reals_0. auto_derive. exact I.
Qed.
