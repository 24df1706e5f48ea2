(** Proofs for C66: averages. *)
From Coq Require Import Reals Lra Lia.
From Coquelicot Require Import Coquelicot.
From Verif Require Import Base RotModel RotSpec ChanModel ChanProofs ShapeModel ShapeSpec ShapeProofs ScatModel ScatSpec UnitModel UnitSpec UnitProofs KinModel KinSpec KinProofs KinProofs2 KinProofs3 KinProofs4 GridProofs PowdModel PowdSpec PowdProofs ConeModel ConeSpec ConeProofs.
Open Scope R_scope.

(** The solid angle times a function of the direction. *)
Definition weighted (G : vec3 -> R) (o : option vec3 * option R) : R := match o with (Some d, Some w) => w * G d | _ => 0 end.
Lemma half_below c r : c <> mkV 0 0 0 -> r <> 0 -> half_opening c r < 1.
Proof.
  intros N Z. pose proof (n2_pos c N) as P. assert (RR : 0 < r * r) by (apply Rsqr_pos_lt in Z; exact Z). unfold half_opening. assert (D : 0 < norm2 c + r * r) by lra. assert (B : 0 < norm2 c / (norm2 c + r * r) < 1).
  { split; [now apply Rdiv_lt_0_compat|]. apply (Rmult_lt_reg_r (norm2 c + r * r)); [exact D|]. replace (norm2 c / (norm2 c + r * r) * (norm2 c + r * r)) with (norm2 c) by (field; lra). lra. }
  pose proof (sqrt_lt_R0 _ (proj1 B)) as S. assert (S1 : sqrt (norm2 c / (norm2 c + r * r)) < 1) by (rewrite <- sqrt_1; apply sqrt_lt_1; lra). destruct (Rlt_dec r 0); lra.
Qed.
Lemma cone_mean c r : c <> mkV 0 0 0 -> r <> 0 -> exists e1 e2 e3, frame_along c e1 e2 e3 /\
  forall (G : vec3 -> R) (J : R -> R) (I : R),
    (forall x, half_opening c r < x < 1 -> Rabs x <= 1 - 1 / 10 ^ 7 -> is_RInt (fun phi => G (at_angle e1 e2 e3 (speed c) x phi)) 0 (2 * PI) (J x)) ->
    (forall x, half_opening c r < x < 1 -> 1 - 1 / 10 ^ 7 < Rabs x -> J x = 2 * PI * G (at_angle e1 e2 e3 (speed c) x 0)) ->
    is_RInt J (half_opening c r) 1 I ->
    meanN 2 (fun l => weighted G (choose_direction_to (stream l 0) (stream l 1) c r)) I.
Proof.
  intros N Z. destruct (directions c r N) as (e1 & e2 & e3 & F & O & D). exists e1, e2, e3. split; [exact F|]. intros G J I A B C. pose proof (half_below c r N Z) as HB. set (h := half_opening c r) in *. pose proof PI_RGT_0 as PP.
  exists (fun u1 => 1 * ((1 - h) * J (random u1 h 1))). split; [|replace I with (1 * I) by ring; exact (scaled_int_k J h 1 1 I C)].
  intros u1 U1. set (x := random u1 h 1). assert (XB : h < x < 1) by (apply random_open; lra). destruct (Rle_dec (Rabs x) (1 - 1 / 10 ^ 7)) as [L|L].
  - exists (fun u2 => (1 - h) * ((2 * PI - 0) * G (at_angle e1 e2 e3 (speed c) x (random u2 0 (2 * PI))))). split; [|rewrite Rmult_1_l; apply (scaled_int_k (fun phi => G (at_angle e1 e2 e3 (speed c) x phi))); now apply A].
    intros u2 U2. cbn [meanN]. change (stream [u1; u2] 0) with u1. change (stream [u1; u2] 1) with u2. rewrite (D u1 u2 ltac:(lra)). fold h. fold x. rewrite (proj2 (Rltb_f _ _)) by lra. cbn [weighted]. ring.
  - exists (fun _ => 1 * ((1 - h) * J x)). split; [|apply RInt_const01]. intros u2 U2. cbn [meanN]. change (stream [u1; u2] 0) with u1. change (stream [u1; u2] 1) with u2. rewrite (D u1 u2 ltac:(lra)). fold h. fold x. rewrite (proj2 (Rltb_t _ _)) by lra.
    cbn [weighted]. rewrite (B x XB) by lra. ring.
Qed.
Lemma angle_of c e1 e2 e3 x phi : c <> mkV 0 0 0 -> frame_along c e1 e2 e3 -> -1 <= x <= 1 -> sdot (at_angle e1 e2 e3 (speed c) x phi) c / norm2 c = x.
Proof.
  intros N F X. assert (O : orthonormal (e1, e2, e3)) by (destruct F as (U1 & U2 & Dd & E3 & _); unfold orthonormal; tauto). destruct (angle_norm e1 e2 e3 (speed c) x phi O X) as [_ S]. destruct F as (_ & _ & _ & _ & EC).
  set (d := at_angle _ _ _ _ _ _) in *. assert (K : sdot d c = speed c * sdot d e1) by (rewrite EC at 1; apply sdot_scale_r). rewrite K, S, <- speed_norm. pose proof (speed_pos c N). field. lra.
Qed.
(** Functions of the angle only. *)
Lemma cone_mean_angle c r (G : R -> R) (I : R) : c <> mkV 0 0 0 -> r <> 0 -> is_RInt G (half_opening c r) 1 I ->
  meanN 2 (fun l => weighted (fun d => G (sdot d c / norm2 c)) (choose_direction_to (stream l 0) (stream l 1) c r)) (2 * PI * I).
Proof.
  intros N Z HI. destruct (cone_mean c r N Z) as (e1 & e2 & e3 & F & M). apply (M _ (fun x => 2 * PI * G x)).
  - intros x X L. assert (O : orthonormal (e1, e2, e3)) by (destruct F as (U1 & U2 & Dd & E3 & _); unfold orthonormal; tauto). pose proof (half_range c r N) as [HR _].
    apply (is_RInt_ext (fun _ => G x)); [|pose proof (@is_RInt_const R_NormedModule 0 (2 * PI) (G x)) as K; change (is_RInt (fun _ => G x) 0 (2 * PI) ((2 * PI - 0) * G x)) in K; now rewrite Rminus_0_r in K].
    intros phi _. f_equal. symmetry. apply angle_of; try assumption. lra.
  - intros x X L. pose proof (half_range c r N) as [HR _]. rewrite angle_of; [reflexivity|assumption|assumption|lra].
  - change (2 * PI * I) with (scal (2 * PI) I). apply (is_RInt_ext (fun x => scal (2 * PI) (G x))); [intros; reflexivity|]. now apply (@is_RInt_scal R_NormedModule).
Qed.
(** Every direction of a narrow cone is in one plane. *)
Lemma narrow c r : c <> mkV 0 0 0 -> 0 <= r -> r * r <= norm2 c / 10 ^ 7 -> exists e, norm2 e = 1 /\ sdot e c = 0 /\ forall u1 u2 d, 0 <= u1 <= 1 -> fst (choose_direction_to u1 u2 c r) = Some d -> sdot d e = 0.
Proof.
  intros N Rp H. pose proof (n2_pos c N) as P. destruct (directions c r N) as (e1 & e2 & e3 & F & O & D). destruct F as (U1 & U2 & Dd & E3 & EC). exists e3.
  assert (P1 : sdot e1 e3 = 0) by (rewrite E3; unfold sdot, vcross; destruct e1, e2; cbn; ring). assert (P2 : sdot e2 e3 = 0) by (rewrite E3; unfold sdot, vcross; destruct e1, e2; cbn; ring).
  assert (N3 : norm2 e3 = 1). { rewrite E3. replace (norm2 (vcross e1 e2)) with (norm2 e1 * norm2 e2 - sdot e1 e2 * sdot e1 e2) by (unfold norm2, sdot, vcross; destruct e1, e2; cbn; ring). rewrite U1, U2, Dd. ring. }
  split; [exact N3|]. split; [rewrite EC, sdot_scale_r; replace (sdot e3 e1) with (sdot e1 e3) by (unfold sdot; ring); rewrite P1; ring|]. intros u1 u2 d U E. rewrite (D u1 u2 U) in E. cbn [fst] in E.
  assert (HB : 1 - 1 / 10 ^ 7 < half_opening c r).
  { unfold half_opening. destruct (Rlt_dec r 0); [lra|]. apply Rlt_le_trans with (sqrt ((1 - 1 / (15 * 10 ^ 6)) * (1 - 1 / (15 * 10 ^ 6)))); [rewrite sqrt_square; lra|]. apply sqrt_le_1; [lra|apply Rlt_le, Rdiv_lt_0_compat; nra|].
    apply (Rmult_le_reg_r (norm2 c + r * r)); [nra|]. replace (norm2 c / (norm2 c + r * r) * (norm2 c + r * r)) with (norm2 c) by (field; nra). assert (Q : norm2 c + r * r <= norm2 c * (1 + 1 / 10 ^ 7)) by lra.
    apply Rle_trans with ((1 - 1 / (15 * 10 ^ 6)) * (1 - 1 / (15 * 10 ^ 6)) * (norm2 c * (1 + 1 / 10 ^ 7))); [apply Rmult_le_compat_l; lra|lra]. }
  destruct (half_range c r N) as [HR _]. set (x := random u1 (half_opening c r) 1) in *. assert (XB : half_opening c r <= x <= 1) by (unfold x, random; split; nra).
  rewrite (proj2 (Rltb_t _ _)) in E by (rewrite Rabs_pos_eq; lra). injection E as <-. unfold at_angle. rewrite sin_0, cos_0.
  replace (sdot (vscale (speed c) (vadd (vscale x e1) (vscale (sqrt (1 - x * x)) (vadd (vscale 1 e2) (vscale 0 e3))))) e3) with (speed c * (x * sdot e1 e3 + sqrt (1 - x * x) * sdot e2 e3)) by (unfold sdot, vscale, vadd; destruct e1, e2, e3; cbn; ring).
  rewrite P1, P2. ring.
Qed.
