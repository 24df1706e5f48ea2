(** Proofs for C77. *)
From Coq Require Import Reals Lra Lia.
From Coquelicot Require Import Coquelicot.
From Verif Require Import Base RotModel RotSpec RotProofs ChanModel ChanProofs ShapeModel ShapeSpec ShapeProofs ScatModel ScatSpec UnitModel UnitSpec UnitProofs KinModel KinSpec KinProofs KinProofs2 KinProofs3 KinProofs4 GridProofs PowdModel PowdSpec PowdProofs ConeModel ConeSpec ConeProofs ConeProofs2 McsModel McsSpec.
Open Scope R_scope.

(** ** rotations *)
Lemma norm_of a e : a <> mkV 0 0 0 -> along a e -> mc_norm a = e.
Proof.
  intros N [A U]. pose proof (speed_pos a N) as S. unfold mc_norm. change (vx a * vx a + vy a * vy a + vz a * vz a) with (norm2 a). fold (speed a). cbv zeta. rewrite (proj2 (Reqb_f _ 0)) by lra.
  set (s := speed a) in *. clearbody s. subst a. destruct e as [x y z]. unfold vscale. cbn. f_equal; field; lra.
Qed.
Lemma unit_exists a : a <> mkV 0 0 0 -> exists e, along a e.
Proof. intros N. destruct (normalize_some a N) as (e & _ & A). eauto. Qed.
Lemma rotate_turned v phi a e : a <> mkV 0 0 0 -> along a e -> mc_rotate v phi a = turned e phi v.
Proof.
  intros N A. unfold mc_rotate. rewrite (norm_of a e N A). unfold turned, vadd, vscale, vsub, vcross, vdot, sdot. destruct v, e. cbn. f_equal; ring.
Qed.
Lemma turned_norm e phi v : norm2 e = 1 -> norm2 (turned e phi v) = norm2 v /\ sdot e (turned e phi v) = sdot e v.
Proof.
  intros U. pose proof (sin2_cos2 phi) as SC. unfold Rsqr in SC. set (c := cos phi) in *. set (s := sin phi) in *. destruct e as [a b d], v as [x y z]. unfold norm2, turned, sdot, vadd, vscale, vcross in *. cbn in *. fold c s. split.
  - set (n := a * a + b * b + d * d) in *. set (g := a * x + b * y + d * z).
    transitivity (c * c * (x * x + y * y + z * z) + s * s * (n * (x * x + y * y + z * z) - g * g) + (1 - c) * (1 - c) * g * g * n + 2 * c * (1 - c) * g * g); [unfold n, g; ring|].
    rewrite U. transitivity ((s * s + c * c) * (x * x + y * y + z * z) + g * g * (1 - (s * s + c * c))); [ring|]. rewrite SC. ring.
  - set (n := a * a + b * b + d * d) in *. set (g := a * x + b * y + d * z). transitivity (c * g + (1 - c) * g * n); [unfold n, g; ring|]. rewrite U. ring.
Qed.
Lemma set_rotation x y z p : rot_apply (rot_set_rotation x y z) p = about_z z (about_y y (about_x x p)).
Proof. unfold rot_apply, rot_set_rotation, about_x, about_y, about_z. destruct p. cbn. f_equal; ring. Qed.
Lemma set_rotation_rot x y z : rotation (rot_set_rotation x y z).
Proof.
  pose proof (sin2_cos2 x) as X. pose proof (sin2_cos2 y) as Y. pose proof (sin2_cos2 z) as Z. unfold Rsqr in *. unfold rotation. split.
  - intros a b. change (dot_mv (rot_set_rotation x y z)) with (rot_apply (rot_set_rotation x y z)). rewrite !set_rotation.
    assert (EZ : forall p q, sdot (about_z z p) (about_z z q) = sdot p q). { intros p q. unfold sdot, about_z. cbn. transitivity ((sin z * sin z + cos z * cos z) * (vx p * vx q + vy p * vy q) + vz p * vz q); [ring|]. rewrite Z. ring. }
    assert (EY : forall p q, sdot (about_y y p) (about_y y q) = sdot p q). { intros p q. unfold sdot, about_y. cbn. transitivity ((sin y * sin y + cos y * cos y) * (vx p * vx q + vz p * vz q) + vy p * vy q); [ring|]. rewrite Y. ring. }
    assert (EX : forall p q, sdot (about_x x p) (about_x x q) = sdot p q). { intros p q. unfold sdot, about_x. cbn. transitivity ((sin x * sin x + cos x * cos x) * (vy p * vy q + vz p * vz q) + vx p * vx q); [ring|]. rewrite X. ring. }
    now rewrite EZ, EY, EX.
  - unfold det, rot_set_rotation. cbn. set (sx := sin x) in *. set (cx := cos x) in *. set (sy := sin y) in *. set (cy := cos y) in *. set (sz := sin z) in *. set (cz := cos z) in *. clearbody sx cx sy cy sz cz.
    transitivity ((sx * sx + cx * cx) * (sz * sz + cz * cz) * (sy * sy + cy * cy)); [ring|]. rewrite X, Y, Z. ring.
Qed.
Lemma mul_apply a b p : rot_apply (rot_mul a b) p = rot_apply a (rot_apply b p).
Proof. unfold rot_apply, rot_mul. destruct p. cbn. f_equal; ring. Qed.
Lemma back_apply m p : rotation m -> rot_apply m (rot_apply (rot_transpose m) p) = p /\ rot_apply (rot_transpose m) (rot_apply m p) = p.
Proof.
  intros H. destruct (left_right m H) as [L R]. change (rot_apply) with dot_mv. change (rot_transpose m) with (transpose m). rewrite <- !dot_matmul, L, R. split; apply dot_I.
Qed.

(** ** a circle *)
Lemma circle_of c h : c <> mkV 0 0 0 -> -1 <= h <= 1 -> exists e1 e2 e3, frame_along c e1 e2 e3 /\ orthonormal (e1, e2, e3) /\
  forall u1 u2, 0 <= u1 <= 1 -> mc_rotate (mc_rotate c (acos (1 - u1 * (1 - h))) (vcross c (mc_normal c))) (u2 * (2 * PI)) c = at_angle e1 e2 e3 (speed c) (1 - u1 * (1 - h)) (2 * PI * u2).
Proof.
  intros N H. destruct (axis_ok c N) as [N2 P]. destruct (frame_of c (axis_of c) N N2 P) as (e1 & e2 & e3 & O & A1 & A3 & _ & _ & X). exists e1, e2, e3. split; [|split; [exact O|]].
  { destruct O as (U1 & U2 & D & H3). destruct A1 as [A1 _]. unfold frame_along. repeat split; assumption. }
  intros u1 u2 U. set (x := 1 - u1 * (1 - h)). assert (XB : -1 <= x <= 1) by (unfold x; split; nra). change (vcross c (mc_normal c)) with (axis_of c).
  rewrite (rotate_turned c _ _ e3 N2 A3), (rotate_turned _ _ c e1 N A1). rewrite <- cone_angle by exact XB. rewrite (Rmult_comm u2). set (tt := acos x). set (phi := 2 * PI * u2).
  destruct O as (U1 & U2 & D & H3). destruct A1 as [A1 _].
  assert (S3 : sdot e3 c = 0). { rewrite A1, H3, sdot_scale_r. replace (sdot (vcross e1 e2) e1) with 0 by (unfold sdot, vcross; destruct e1, e2; cbn; ring). ring. }
  assert (T1 : turned e3 tt c = vscale (speed c) (vadd (vscale (cos tt) e1) (vscale (sin tt) e2))).
  { unfold turned. rewrite S3. set (s := speed c) in *. clearbody s. rewrite A1. rewrite X. unfold vadd, vscale, vcross. destruct e1, e3. cbn. f_equal; ring. }
  rewrite T1. set (s := speed c). assert (S1 : sdot e1 (vscale s (vadd (vscale (cos tt) e1) (vscale (sin tt) e2))) = s * cos tt).
  { transitivity (s * (cos tt * norm2 e1 + sin tt * sdot e1 e2)); [unfold norm2, sdot, vscale, vadd; destruct e1, e2; cbn; ring|]. rewrite U1, D. ring. }
  unfold turned. rewrite S1. unfold on_cone. rewrite H3. unfold vadd, vscale, vcross. destruct e1, e2. cbn. f_equal; ring.
Qed.
Lemma aim_nz c r : c <> mkV 0 0 0 -> aim c r <> mkV 0 0 0.
Proof. intros N. unfold aim. destruct (Req_EM_T r 0); [|exact N]. intros E. injection E as E. pose proof (speed_pos c N) as P. unfold speed in P. lra. Qed.
Lemma aim_speed c r : speed (aim c r) = speed c.
Proof. unfold aim. destruct (Req_EM_T r 0); [|reflexivity]. unfold speed at 1, norm2 at 1, sdot. cbn [vx vy vz]. replace (0 * 0 + _ + 0 * 0) with (sqrt (norm2 c) * sqrt (norm2 c)) by ring. apply sqrt_square, sqrt_pos. Qed.
Lemma opening_range c r : c <> mkV 0 0 0 -> -1 <= opening c r < 1.
Proof.
  intros N. unfold opening. destruct (Req_EM_T r 0) as [E|E]; [lra|]. destruct (half_range c r N) as [[A B] _]. pose proof (half_below c r N E). lra.
Qed.
Lemma circle c r : c <> mkV 0 0 0 -> exists e1 e2 e3, frame_along (aim c r) e1 e2 e3 /\ orthonormal (e1, e2, e3) /\
  forall u1 u2, 0 <= u1 <= 1 -> randvec_target_circle u1 u2 c r = (at_angle e1 e2 e3 (speed c) (1 - u1 * (1 - opening c r)) (2 * PI * u2), 2 * PI * (1 - opening c r)).
Proof.
  intros N. pose proof (aim_nz c r N) as AN. pose proof (opening_range c r N) as OR. destruct (circle_of (aim c r) (opening c r) AN ltac:(lra)) as (e1 & e2 & e3 & F & O & H). exists e1, e2, e3. split; [exact F|]. split; [exact O|].
  intros u1 u2 U. rewrite aim_speed in H. rewrite <- (H u1 u2 U). unfold randvec_target_circle, rand0max. change (vx c * vx c + vy c * vy c + vz c * vz c) with (norm2 c). unfold aim, opening in *. destruct (Req_EM_T r 0) as [E|E].
  - rewrite (proj2 (Reqb_t r 0) E). assert (M : mc_normal (mkV 0 (sqrt (norm2 c)) 0) = mkV 1 0 0) by (unfold mc_normal; cbn [vx vz]; now rewrite (proj2 (Reqb_t 0 0) eq_refl)). rewrite M. replace (1 - -1) with 2 by ring. f_equal. ring.
  - rewrite (proj2 (Reqb_f r 0) E). assert (M : (if Rltb r 0 then sqrt (norm2 c / (r * r + norm2 c)) * -1 else sqrt (norm2 c / (r * r + norm2 c))) = half_opening c r).
    { unfold half_opening, Rltb. rewrite (Rplus_comm (r * r)). destruct (Rlt_dec r 0); ring. } rewrite M. reflexivity.
Qed.
Lemma circle_hits c r u1 u2 : c <> mkV 0 0 0 -> 0 < r -> 0 <= u1 <= 1 -> let o := fst (randvec_target_circle u1 u2 c r) in norm2 o = norm2 c /\ hits_disk c r o.
Proof.
  intros N Rp U o. destruct (circle c r N) as (e1 & e2 & e3 & F & O & H). unfold o. rewrite (H u1 u2 U). cbn [fst]. pose proof (opening_range c r N) as OR. unfold aim, opening in *. destruct (Req_EM_T r 0) as [E|E]; [lra|].
  set (x := 1 - u1 * (1 - half_opening c r)). assert (XB : half_opening c r <= x <= 1) by (unfold x; split; nra). destruct (angle_norm e1 e2 e3 (speed c) x (2 * PI * u2) O ltac:(lra)) as [A B]. set (d := at_angle _ _ _ _ _ _) in *. rewrite speed_norm in A. split; [exact A|].
  apply hits; try assumption; [lra|]. destruct F as (_ & _ & _ & _ & EC). rewrite EC at 3. rewrite sdot_scale_r. change (sqrt (norm2 c)) with (speed c). rewrite B, <- speed_norm. pose proof (speed_nonneg c). nra.
Qed.
Lemma circle_length c r u1 u2 : c <> mkV 0 0 0 -> 0 <= u1 <= 1 -> norm2 (fst (randvec_target_circle u1 u2 c r)) = norm2 c.
Proof.
  intros N U. destruct (circle c r N) as (e1 & e2 & e3 & F & O & H). rewrite (H u1 u2 U). cbn [fst]. pose proof (opening_range c r N) as OR. rewrite <- (speed_norm c). apply (angle_norm e1 e2 e3); [exact O|]. split; nra.
Qed.
Lemma down_int (J : R -> R) h (I : R) : is_RInt J h 1 I -> is_RInt (fun u => (1 - h) * J (1 - u * (1 - h))) 0 1 I.
Proof.
  intros H. pose proof (@is_RInt_comp_lin R_NormedModule J (- (1 - h)) 1 0 1 (- I)) as C. replace (- (1 - h) * 0 + 1) with 1 in C by ring. replace (- (1 - h) * 1 + 1) with h in C by ring.
  specialize (C (@is_RInt_swap R_NormedModule J 1 h I H)). pose proof (@is_RInt_scal R_NormedModule _ 0 1 (-1) (- I) C) as D. assert (E : -1 * - I = I) by ring. change (scal (-1) (- I)) with (-1 * - I) in D. rewrite E in D. clear E.
  eapply is_RInt_ext; [|exact D]. intros u _. change (-1 * (- (1 - h) * J (- (1 - h) * u + 1)) = (1 - h) * J (1 - u * (1 - h))). replace (- (1 - h) * u + 1) with (1 - u * (1 - h)) by ring. ring.
Qed.
Lemma circle_mean c r : c <> mkV 0 0 0 -> exists e1 e2 e3, frame_along (aim c r) e1 e2 e3 /\
  forall (G : vec3 -> R) (J : R -> R) (I : R),
    (forall x, opening c r < x < 1 -> is_RInt (fun phi => G (at_angle e1 e2 e3 (speed c) x phi)) 0 (2 * PI) (J x)) -> is_RInt J (opening c r) 1 I ->
    meanN 2 (fun l => weigh G (randvec_target_circle (stream l 0) (stream l 1) c r)) I.
Proof.
  intros N. destruct (circle c r N) as (e1 & e2 & e3 & F & O & D). exists e1, e2, e3. split; [exact F|]. intros G J I A C. pose proof (opening_range c r N) as OR. set (h := opening c r) in *.
  exists (fun u1 => (1 - h) * J (1 - u1 * (1 - h))). split; [|exact (down_int J h I C)]. intros u1 U1. set (x := 1 - u1 * (1 - h)). assert (XB : h < x < 1) by (unfold x; split; nra).
  exists (fun u2 => (1 - h) * ((2 * PI - 0) * G (at_angle e1 e2 e3 (speed c) x (random u2 0 (2 * PI))))). split; [|apply (scaled_int_k (fun phi => G (at_angle e1 e2 e3 (speed c) x phi))); now apply A].
  intros u2 U2. cbn [meanN]. change (stream [u1; u2] 0) with u1. change (stream [u1; u2] 1) with u2. rewrite (D u1 u2 ltac:(lra)). fold x. unfold weigh. cbn [fst snd]. replace (random u2 0 (2 * PI)) with (2 * PI * u2) by (unfold random; ring). ring.
Qed.

(** ** a rectangle *)
Lemma rot_nz_t A c : rotation A -> c <> mkV 0 0 0 -> rot_apply (rot_transpose A) c <> mkV 0 0 0.
Proof. intros H N E. apply N. rewrite <- (proj1 (back_apply A c H)), E. unfold rot_apply. cbn. f_equal; ring. Qed.
Lemma unit_of_some a e : a <> mkV 0 0 0 -> along a e -> unit_of a = Some e.
Proof.
  intros N [A U]. pose proof (speed_pos a N) as S. unfold unit_of. change (vx a * vx a + vy a * vy a + vz a * vz a) with (norm2 a). fold (speed a). cbv zeta. rewrite (proj2 (Reqb_f _ 0)) by lra.
  set (s := speed a) in *. clearbody s. subst a. destruct e as [x y z]. unfold vscale. cbn. do 2 f_equal; field; lra.
Qed.
Lemma rot_sdot A a b : rotation A -> sdot (rot_apply A a) (rot_apply A b) = sdot a b.
Proof. intros [H _]. apply H. Qed.
Lemma rot_sdot_t A a b : rotation A -> sdot (rot_apply (rot_transpose A) a) (rot_apply (rot_transpose A) b) = sdot a b.
Proof. intros H. apply rotation_transpose in H as [H _]. apply H. Qed.
Lemma perp_nz a b : a <> mkV 0 0 0 -> norm2 b = 1 -> sdot a b = 0 -> vcross a b <> mkV 0 0 0.
Proof.
  intros N U P E. pose proof (n2_pos a N) as PA. assert (L : norm2 (vcross a b) = norm2 a * norm2 b - sdot a b * sdot a b) by (unfold norm2, sdot, vcross; destruct a, b; cbn; ring).
  rewrite U, P, E in L. unfold norm2 at 1, sdot in L. cbn in L. lra.
Qed.
Lemma cross_perp a b : sdot a (vcross a b) = 0 /\ sdot (vcross a b) b = 0.
Proof. unfold sdot, vcross. destruct a, b. cbn. split; ring. Qed.
Lemma along_perp a e b : a <> mkV 0 0 0 -> along a e -> sdot a b = 0 -> sdot e b = 0.
Proof. intros N [A _] P. pose proof (speed_pos a N). rewrite A, sdot_scale_l in P. apply Rmult_integral in P. lra. Qed.
Lemma sdot_comm a b : sdot a b = sdot b a.
Proof. unfold sdot. ring. Qed.
Lemma level_nz g : vx g <> 0 \/ vz g <> 0 -> vcross g (mkV 0 1 0) <> mkV 0 0 0.
Proof. destruct g as [x y z]. unfold vcross. cbn. intros NV E. injection E as E1 E2. destruct NV as [NV|NV]; apply NV; lra. Qed.
Lemma rect_frame A c : rotation A -> let g := rot_apply (rot_transpose A) c in (vx g <> 0 \/ vz g <> 0) ->
  exists n m, norm2 n = 1 /\ norm2 m = 1 /\ sdot n m = 0 /\ sdot n c = 0 /\ sdot m c = 0 /\ sdot n (rot_apply A (mkV 0 1 0)) = 0 /\
    exists n' m', unit_of (vcross g (mkV 0 1 0)) = Some n' /\ unit_of (vcross g n') = Some m' /\ n = rot_apply A n' /\ m = rot_apply A m'.
Proof.
  intros H g NV. assert (GN : g <> mkV 0 0 0) by (intros E; rewrite E in NV; cbn in NV; destruct NV as [NV|NV]; now apply NV). assert (VN : vcross g (mkV 0 1 0) <> mkV 0 0 0) by (now apply level_nz).
  destruct (unit_exists _ VN) as (n' & An). assert (P1 : sdot g n' = 0) by (rewrite sdot_comm; apply (along_perp _ n' g VN An); rewrite sdot_comm; apply cross_perp).
  assert (U1 : norm2 n' = 1) by apply An. pose proof (perp_nz g n' GN U1 P1) as WN. destruct (unit_exists _ WN) as (m' & Am). assert (U2 : norm2 m' = 1) by apply Am.
  assert (GB : c = rot_apply A g) by (unfold g; symmetry; now apply back_apply).
  exists (rot_apply A n'), (rot_apply A m'). split; [unfold norm2; now rewrite rot_sdot|]. split; [unfold norm2; now rewrite rot_sdot|]. split; [|split; [|split; [|split]]].
  - rewrite rot_sdot, sdot_comm by exact H. apply (along_perp _ m' n' WN Am). apply cross_perp.
  - rewrite GB, rot_sdot, sdot_comm by exact H. exact P1.
  - rewrite GB, rot_sdot by exact H. apply (along_perp _ m' g WN Am). rewrite sdot_comm. apply cross_perp.
  - rewrite rot_sdot by exact H. apply (along_perp _ n' _ VN An). apply cross_perp.
  - exists n', m'. split; [now apply unit_of_some|]. split; [now apply unit_of_some|]. split; reflexivity.
Qed.
Lemma plane_norm c n m x y : norm2 n = 1 -> norm2 m = 1 -> sdot n m = 0 -> sdot n c = 0 -> sdot m c = 0 -> norm2 (in_plane c n m x y) = norm2 c + x * x + y * y.
Proof.
  intros U V P Q S. transitivity (norm2 c + x * x * norm2 n + y * y * norm2 m + 2 * x * sdot n c + 2 * y * sdot m c + 2 * x * y * sdot n m); [unfold norm2, sdot, in_plane, vadd, vscale; destruct c, n, m; cbn; ring|]. rewrite U, V, P, Q, S. ring.
Qed.
Lemma rect A c : rotation A -> let g := rot_apply (rot_transpose A) c in (vx g <> 0 \/ vz g <> 0) ->
  exists n m, norm2 n = 1 /\ norm2 m = 1 /\ sdot n m = 0 /\ sdot n c = 0 /\ sdot m c = 0 /\ sdot n (rot_apply A (mkV 0 1 0)) = 0 /\
    forall u1 u2 w h, w <> 0 -> h <> 0 -> let o := in_plane c n m (w * (2 * u1 - 1) / 2) (h * (2 * u2 - 1) / 2) in
      randvec_target_rect u1 u2 c w h A = Some (o, w * h * (speed c / speed o ^ 3)).
Proof.
  intros H g NV. destruct (rect_frame A c H NV) as (n & m & U1 & U2 & P1 & P2 & P3 & P4 & n' & m' & E1 & E2 & En & Em). exists n, m. do 6 (split; [assumption|]). intros u1 u2 w h W HH o.
  unfold randvec_target_rect. rewrite (proj2 (Reqb_f h 0) HH), (proj2 (Reqb_f w 0) W). cbn [orb]. fold g in E1, E2. fold g. rewrite E1, E2. unfold randpm1. set (x := w * (2 * u1 - 1) / 2) in *. set (y := h * (2 * u2 - 1) / 2) in *.
  change (vx c * vx c + vy c * vy c + vz c * vz c) with (norm2 c). fold (speed c). assert (GB : c = rot_apply A g) by (unfold g; symmetry; now apply back_apply).
  assert (GN : g <> mkV 0 0 0) by (intros E; rewrite E in NV; cbn in NV; destruct NV as [NV|NV]; now apply NV). assert (CN : c <> mkV 0 0 0) by (intros E; apply GN; unfold g; rewrite E; unfold rot_apply; cbn; f_equal; ring).
  assert (NO : norm2 o = x * x + y * y + speed c * speed c) by (unfold o; rewrite plane_norm by assumption; rewrite speed_norm; ring). rewrite <- NO. fold (speed o).
  assert (SO : 0 < speed o) by (unfold speed; apply sqrt_lt_R0; rewrite NO; pose proof (speed_pos c CN); nra). rewrite (proj2 (Reqb_f _ 0)) by lra. f_equal. f_equal.
  - unfold o. rewrite En, Em. rewrite GB at 1. clearbody g. unfold in_plane, rot_apply, vadd, vscale. destruct g, n', m'. cbn. f_equal; ring.
  - field. lra.
Qed.
Lemma rect_vertical A c u1 u2 w h : let g := rot_apply (rot_transpose A) c in w <> 0 -> h <> 0 -> vx g = 0 -> vz g = 0 -> randvec_target_rect u1 u2 c w h A = None.
Proof.
  intros g W H X Z. unfold randvec_target_rect. rewrite (proj2 (Reqb_f h 0) H), (proj2 (Reqb_f w 0) W). cbn [orb]. fold g. assert (E : unit_of (vcross g (mkV 0 1 0)) = None); [|now rewrite E].
  unfold unit_of, vcross. cbn [vx vy vz]. rewrite X, Z. replace (_ + _ + _) with 0 by ring. rewrite sqrt_0. now rewrite (proj2 (Reqb_t 0 0) eq_refl).
Qed.
Lemma rect_none A c u1 u2 w h : w = 0 \/ h = 0 -> randvec_target_rect u1 u2 c w h A = Some (randvec_target_circle u1 u2 c 0).
Proof. intros Z. unfold randvec_target_rect. assert (E : (Reqb h 0 || Reqb w 0)%bool = true) by (apply Bool.orb_true_iff; rewrite !Reqb_t; tauto). now rewrite E. Qed.
Lemma rect_mean A c w h : rotation A -> let g := rot_apply (rot_transpose A) c in (vx g <> 0 \/ vz g <> 0) -> 0 < w -> 0 < h ->
  exists n m, norm2 n = 1 /\ norm2 m = 1 /\ sdot n m = 0 /\ sdot n c = 0 /\ sdot m c = 0 /\ sdot n (rot_apply A (mkV 0 1 0)) = 0 /\
    forall (G : vec3 -> R) (J : R -> R) (I : R),
      (forall x, - w / 2 < x < w / 2 -> is_RInt (fun y => G (in_plane c n m x y) * (speed c / speed (in_plane c n m x y) ^ 3)) (- h / 2) (h / 2) (J x)) -> is_RInt J (- w / 2) (w / 2) I ->
      meanN 2 (fun l => weigh_some G (randvec_target_rect (stream l 0) (stream l 1) c w h A)) I.
Proof.
  intros H g NV W HH. destruct (rect A c H NV) as (n & m & U1 & U2 & P1 & P2 & P3 & P4 & D). exists n, m. do 6 (split; [assumption|]). intros G J I A1 A2.
  exists (fun u1 => (w / 2 - - w / 2) * J (random u1 (- w / 2) (w / 2))). split; [|now apply scaled_int]. intros u1 V1. set (x := random u1 (- w / 2) (w / 2)). assert (XB : - w / 2 < x < w / 2) by (apply random_open; lra).
  exists (fun u2 => (w / 2 - - w / 2) * ((h / 2 - - h / 2) * (fun y => G (in_plane c n m x y) * (speed c / speed (in_plane c n m x y) ^ 3)) (random u2 (- h / 2) (h / 2)))). split; [|apply (scaled_int_k (fun y => G (in_plane c n m x y) * (speed c / speed (in_plane c n m x y) ^ 3))); now apply A1].
  intros u2 V2. cbn [meanN]. change (stream [u1; u2] 0) with u1. change (stream [u1; u2] 1) with u2. rewrite (D u1 u2 w h) by lra. unfold weigh_some, weigh. cbn [fst snd].
  replace (w * (2 * u1 - 1) / 2) with x by (unfold x, random; lra). replace (h * (2 * u2 - 1) / 2) with (random u2 (- h / 2) (h / 2)) by (unfold random; lra). set (o := in_plane c n m x _). lra.
Qed.
