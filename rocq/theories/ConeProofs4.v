(** Proofs for C67 and C68: the two kernels. *)
From Coq Require Import Reals Lra Lia.
From Coquelicot Require Import Coquelicot.
From Verif Require Import Base RotModel RotSpec ChanModel ChanProofs ShapeModel ShapeSpec ShapeProofs ScatModel ScatSpec UnitModel UnitSpec UnitProofs KinModel KinSpec KinProofs KinProofs2 KinProofs3 KinProofs4 GridProofs PowdModel PowdSpec PowdProofs ConeModel ConeSpec ConeProofs ConeProofs2 ConeProofs3.
Open Scope R_scope.

Lemma scale_ne k v : k <> 0 -> v <> mkV 0 0 0 -> vscale k v <> mkV 0 0 0.
Proof. intros K N E. apply N. destruct v as [a b c]. unfold vscale in E. cbn in E. injection E; intros. f_equal; nra. Qed.
Lemma opening_tan c a : c <> mkV 0 0 0 -> 0 < a < PI -> cos a <> 0 -> half_opening c (tan a * speed c) = cos a /\ tan a * speed c <> 0.
Proof.
  intros N A C. pose proof (speed_pos c N) as S. pose proof (sin_gt_0 a (proj1 A) (proj2 A)) as SN. assert (T : tan a = sin a / cos a) by reflexivity. assert (T0 : tan a <> 0) by (rewrite T; apply Rmult_integral_contrapositive_currified; [lra|now apply Rinv_neq_0_compat]).
  assert (E : norm2 c / (norm2 c + tan a * speed c * (tan a * speed c)) = (cos a)²).
  { rewrite <- speed_norm. rewrite T. unfold Rsqr. pose proof (sin2_cos2 a) as SC. unfold Rsqr in SC. replace (speed c * speed c + sin a / cos a * speed c * (sin a / cos a * speed c)) with (speed c * speed c * (sin a * sin a + cos a * cos a) / (cos a * cos a)) by (field; exact C). rewrite SC. field. split; [exact C|lra]. }
  split; [|apply Rmult_integral_contrapositive_currified; lra]. unfold half_opening. rewrite E, sqrt_Rsqr_abs. destruct (Rlt_dec (tan a * speed c) 0) as [L|L].
  - assert (tan a < 0) by nra. assert (cos a < 0). { destruct (Rlt_dec (cos a) 0); [assumption|]. exfalso. assert (0 < cos a) by lra. rewrite T in H. assert (0 < sin a / cos a) by now apply Rdiv_lt_0_compat. lra. } rewrite Rabs_left by lra. ring.
  - assert (0 < tan a) by (assert (0 <= tan a) by nra; lra). assert (0 < cos a). { destruct (Rlt_dec 0 (cos a)); [assumption|]. exfalso. assert (0 < - cos a) by lra. rewrite T in H. assert (0 < sin a / - cos a) by now apply Rdiv_lt_0_compat. replace (sin a / - cos a) with (- (sin a / cos a)) in H1 by (field; exact C). lra. } rewrite Rabs_right by lra. reflexivity.
Qed.
Lemma elastic_length k v v' x : speed v = k -> norm2 v' = norm2 v -> sdot v' v = x * norm2 v -> x <= 1 -> speed (vsub v v') = elastic_q k x.
Proof.
  intros K E S X. unfold elastic_q. assert (K0 : 0 <= k) by (rewrite <- K; apply speed_nonneg). apply speed_eq; [apply Rmult_le_pos; [exact K0|apply sqrt_pos]|].
  replace (norm2 (vsub v v')) with (norm2 v + norm2 v' - 2 * sdot v' v) by (unfold norm2, sdot, vsub; destruct v, v'; cbn; ring). rewrite E, S, <- speed_norm, K.
  replace (k * sqrt (2 * (1 - x)) * (k * sqrt (2 * (1 - x)))) with (k * k * (sqrt (2 * (1 - x)) * sqrt (2 * (1 - x)))) by ring. rewrite sqrt_sqrt by lra. ring.
Qed.
Lemma form_some x : x <> 0 -> form_factor x = Some (sphere_form x) /\ sphere_form x = ff x.
Proof. intros N. unfold form_factor. rewrite (proj2 (Reqb_f x 0)) by exact N. split; [f_equal|]; unfold ff, phi1, sphere_form; field; exact N. Qed.
(** SANS: the outcome of S. *)
Lemma sans_outcome ab R0 ph dr deg ev u1 u2 : 0 < deg < 180 -> deg <> 90 -> 0 < R0 -> e_v ev <> mkV 0 0 0 -> 0 <= u1 < 1 ->
  let a := deg / 180 * PI in let k := v2k * speed (e_v ev) in let x := random u1 (cos a) 1 in
  cos a <= x < 1 /\ exists v', norm2 v' = norm2 (e_v ev) /\ sdot v' (e_v ev) = x * norm2 (e_v ev) /\
    sans_S (new_sans ab R0 ph dr deg) u1 u2 ev = (Some v', Some (e_p ev * (2 * PI * (1 - cos a) / (4 * PI) * (2 / (9 * PI) * (k * R0) ^ 2 * sphere_form (elastic_q k x * R0) ^ 2)))).
Proof.
  intros D D9 RP N U a k x. pose proof PI_RGT_0 as PP. assert (A : 0 < a < PI) by (unfold a; split; nra). assert (CA : cos a <> 0).
  { intros Z. destruct (Rtotal_order a (PI / 2)) as [L|[L|L]]; [pose proof (cos_gt_0 a ltac:(lra) L); lra| |pose proof (cos_lt_0 a L ltac:(lra)); lra]. apply D9. unfold a in L. apply (Rmult_eq_reg_r (PI / 180)); lra. }
  pose proof v2k_pos as VK. set (c := vscale v2k (e_v ev)). assert (NC : c <> mkV 0 0 0) by (apply scale_ne; [lra|exact N]). assert (SC : speed c = k) by (unfold c; rewrite scale_speed, Rabs_right by lra; reflexivity).
  destruct (opening_tan c a NC A CA) as [HO HN]. pose proof (COS_bound a) as CB. assert (C1 : cos a < 1) by (rewrite <- HO; exact (half_below c _ NC HN)).
  assert (XB : cos a <= x < 1) by (unfold x, random; split; nra). split; [exact XB|].
  destruct (directions c (tan a * speed c) NC) as (e1 & e2 & e3 & F & O & DD). specialize (DD u1 u2 ltac:(lra)). cbv zeta in DD. rewrite HO in DD. fold x in DD. set (phi := if Rltb (1 - Rabs x) (1 / 10 ^ 7) then 0 else random u2 0 (2 * PI)) in DD. set (d := at_angle e1 e2 e3 (speed c) x phi) in DD.
  destruct (angle_norm e1 e2 e3 (speed c) x phi O ltac:(lra)) as [ND _]. fold d in ND. rewrite speed_norm in ND. pose proof (angle_of c e1 e2 e3 x phi NC F ltac:(lra)) as AD. fold d in AD. pose proof (n2_pos c NC) as NP.
  assert (SD : sdot d c = x * norm2 c) by (rewrite <- AD at 1; field; lra). pose proof k2v_v2k as KV. pose proof k2v_pos as KP.
  assert (CN : norm2 c = v2k * v2k * norm2 (e_v ev)) by (unfold c; apply scale_n2). exists (vscale k2v d). split; [|split].
  - rewrite scale_n2, ND, CN. replace (k2v * k2v * (v2k * v2k * norm2 (e_v ev))) with ((k2v * v2k) * (k2v * v2k) * norm2 (e_v ev)) by ring. rewrite KV. ring.
  - rewrite sdot_scale_l. replace (sdot d (e_v ev)) with (k2v * sdot d c). 2:{ unfold c. rewrite sdot_scale_r. replace (k2v * (v2k * sdot d (e_v ev))) with (k2v * v2k * sdot d (e_v ev)) by ring. rewrite KV. ring. } rewrite SD, CN. replace (k2v * (k2v * (x * (v2k * v2k * norm2 (e_v ev))))) with ((k2v * v2k) * (k2v * v2k) * (x * norm2 (e_v ev))) by ring. rewrite KV. ring.
  - unfold sans_S, new_sans. cbn [sn_max_angle sn_solidangle sn_R]. change (vnorm (e_v ev)) with (speed (e_v ev)). fold a. fold k. fold c. replace (tan a * k) with (tan a * speed c) by (rewrite SC; reflexivity). rewrite DD. cbn [fst]. f_equal. change (vnorm (vsub c d)) with (speed (vsub c d)). rewrite (elastic_length k c d x SC ND SD ltac:(lra)).
    assert (Q : elastic_q k x * R0 <> 0). { unfold elastic_q. assert (0 < k) by (rewrite <- SC; now apply speed_pos). assert (0 < sqrt (2 * (1 - x))) by (apply sqrt_lt_R0; lra). apply Rmult_integral_contrapositive_currified; [|lra]. apply Rmult_integral_contrapositive_currified; lra. }
    destruct (form_some _ Q) as [FS _]. rewrite FS. f_equal. f_equal. field. lra.
Qed.
Lemma sans_mean ab R0 ph dr deg ev : 0 < deg < 180 -> deg <> 90 -> 0 < R0 -> e_v ev <> mkV 0 0 0 ->
  let a := deg / 180 * PI in let k := v2k * speed (e_v ev) in
  meanN 2 (fun l => or_zero (snd (sans_S (new_sans ab R0 ph dr deg) (stream l 0) (stream l 1) ev))) (e_p ev * (share (elastic_q k (cos a) * R0) / (4 * PI))).
Proof.
  intros D D9 RP N a k. pose proof PI_RGT_0 as PP. pose proof v2k_pos as VK. assert (KP : 0 < k) by (apply Rmult_lt_0_compat; [exact VK|now apply speed_pos]). set (A := k * R0). assert (AP : 0 < A) by (apply Rmult_lt_0_compat; assumption).
  assert (C1 : cos a < 1) by (destruct (sans_outcome ab R0 ph dr deg ev 0 0 D D9 RP N ltac:(lra)) as [[X1 X2] _]; fold a in X1, X2; lra).
  pose proof (cap_int A (cos a) AP C1) as CI. set (FF := fun c => ff2 (A * sqrt (2 * (1 - c)))) in CI. set (I := 9 / 4 * caught1 (A * sqrt (2 * (1 - cos a))) / (A * A)) in CI. set (K := e_p ev * (A * A / (9 * PI))).
  replace (e_p ev * (share (elastic_q k (cos a) * R0) / (4 * PI))) with (K * I).
  2:{ unfold K, I. replace (elastic_q k (cos a) * R0) with (A * sqrt (2 * (1 - cos a))) by (unfold elastic_q, A; ring). change (share (A * sqrt (2 * (1 - cos a)))) with (caught1 (A * sqrt (2 * (1 - cos a)))). field. split; lra. }
  exists (fun u1 => K * ((1 - cos a) * FF (random u1 (cos a) 1))). split; [|exact (scaled_int_k FF (cos a) 1 K I CI)].
  intros u1 U1. exists (fun _ => K * ((1 - cos a) * FF (random u1 (cos a) 1))). split; [|apply RInt_const01]. intros u2 U2. cbn [meanN]. change (stream [u1; u2] 0) with u1. change (stream [u1; u2] 1) with u2.
  destruct (sans_outcome ab R0 ph dr deg ev u1 u2 D D9 RP N ltac:(lra)) as (XB & v' & _ & _ & E). fold a in XB, E. fold k in E. rewrite E. cbn [snd or_zero]. set (x := random u1 (cos a) 1) in *.
  assert (Q : elastic_q k x * R0 = A * sqrt (2 * (1 - x))) by (unfold elastic_q, A; ring). assert (QN : A * sqrt (2 * (1 - x)) <> 0) by (apply Rmult_integral_contrapositive_currified; [lra|]; apply Rgt_not_eq, sqrt_lt_R0; lra).
  rewrite Q. destruct (form_some _ QN) as [_ ->]. unfold K, FF, ff2. destruct (Req_EM_T (A * sqrt (2 * (1 - x))) 0) as [Z|_]; [contradiction|]. fold A. field. lra.
Qed.
Lemma sans_share ab R0 ph dr deg v h : 0 < R0 -> v <> mkV 0 0 0 -> h < 1 -> let k := v2k * speed v in
  exists Sg, sans_scattering (new_sans ab R0 ph dr deg) v = Some Sg /\
    exists f, (forall c, c < 1 -> f c = sphere_form (elastic_q k c * R0)) /\ is_RInt (fun c => 2 * PI * (ph * (4 / 3 * PI * R0 ^ 3) * dr ^ 2 * f c ^ 2)) h 1 (Sg * share (elastic_q k h * R0)).
Proof.
  intros RP N H k. pose proof PI_RGT_0 as PP. pose proof v2k_pos as VK. assert (KP : 0 < k) by (apply Rmult_lt_0_compat; [exact VK|now apply speed_pos]). set (A := k * R0). assert (AP : 0 < A) by (apply Rmult_lt_0_compat; assumption).
  eexists. split; [unfold sans_scattering, new_sans; cbn [sn_phi sn_delta_rho sn_R]; change (vnorm v) with (speed v); fold k; rewrite (proj2 (Reqb_f k 0)) by lra; reflexivity|].
  exists (fun c => if Req_EM_T (A * sqrt (2 * (1 - c))) 0 then 1 else sphere_form (elastic_q k c * R0)). split.
  - intros c C. destruct (Req_EM_T _ 0) as [Z|_]; [|reflexivity]. exfalso. revert Z. apply Rmult_integral_contrapositive_currified; [lra|]; apply Rgt_not_eq, sqrt_lt_R0; lra.
  - pose proof (cap_int A h AP H) as CI. set (FF := fun c => ff2 (A * sqrt (2 * (1 - c)))) in CI. pose proof (@is_RInt_scal R_NormedModule FF h 1 (2 * PI * (ph * (4 / 3 * PI * R0 ^ 3) * dr ^ 2)) _ CI) as S.
    replace (3 / 2 * ph * dr * dr * (2 * PI / k) * (2 * PI / k) * R0 * share (elastic_q k h * R0)) with (2 * PI * (ph * (4 / 3 * PI * R0 ^ 3) * dr ^ 2) * (9 / 4 * caught1 (A * sqrt (2 * (1 - h))) / (A * A))).
    2:{ replace (elastic_q k h * R0) with (A * sqrt (2 * (1 - h))) by (unfold elastic_q, A; ring). change (share (A * sqrt (2 * (1 - h)))) with (caught1 (A * sqrt (2 * (1 - h)))). unfold A at 2 3. field. split; lra. }
    apply (is_RInt_ext (fun c => scal (2 * PI * (ph * (4 / 3 * PI * R0 ^ 3) * dr ^ 2)) (FF c))); [|exact S]. intros c _. change (2 * PI * (ph * (4 / 3 * PI * R0 ^ 3) * dr ^ 2) * FF c = 2 * PI * (ph * (4 / 3 * PI * R0 ^ 3) * dr ^ 2 * (if Req_EM_T (A * sqrt (2 * (1 - c))) 0 then 1 else sphere_form (elastic_q k c * R0)) ^ 2)).
    unfold FF, ff2. destruct (Req_EM_T _ 0) as [Z|Z]; [ring|]. replace (elastic_q k c * R0) with (A * sqrt (2 * (1 - c))) by (unfold elastic_q, A; ring). destruct (form_some _ Z) as [_ ->]. ring.
Qed.
Lemma share_below x : 0 < x -> share x <= 1.
Proof. intros X. unfold share. pose proof (pow2_ge_0 (sin x / x)). pose proof (pow2_ge_0 ((sin x - x * cos x) / x ^ 2)). lra. Qed.
