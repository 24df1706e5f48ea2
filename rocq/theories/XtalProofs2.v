(** Proofs for C58: the density on the tangent plane. *)
From Coq Require Import Reals Lra Lia.
From Verif Require Import Base RotModel RotSpec ChanModel ChanProofs ShapeModel ShapeSpec ShapeProofs ScatModel ScatSpec UnitModel UnitSpec UnitProofs KinModel KinSpec KinProofs KinProofs3 GridProofs PowdProofs XtalModel XtalSpec XtalProofs.
Open Scope R_scope.

Lemma mdot_pos h a : 0 < hd_m1 h -> 0 < hd_m2 h -> 0 < hd_m3 h -> norm2 a = 1 -> 0 < mdot h a a.
Proof.
  intros A B C N. unfold mdot, norm2, sdot in *. destruct a as [x y z]; cbn in *.
  set (m := Rmin (hd_m1 h) (Rmin (hd_m2 h) (hd_m3 h))). assert (0 < m) by (unfold m; repeat apply Rmin_glb_lt; assumption).
  assert (m <= hd_m1 h) by apply Rmin_l. assert (m <= Rmin (hd_m2 h) (hd_m3 h)) by apply Rmin_r. pose proof (Rmin_l (hd_m2 h) (hd_m3 h)). pose proof (Rmin_r (hd_m2 h) (hd_m3 h)).
  assert (m * (x * x) <= hd_m1 h * x * x) by nra. assert (m * (y * y) <= hd_m2 h * y * y) by nra. assert (m * (z * z) <= hd_m3 h * z * z) by nra. nra.
Qed.
Lemma det_eq h n b1 : norm2 b1 = 1 -> sdot n b1 = 0 ->
  mdot h b1 b1 * mdot h (vcross n b1) (vcross n b1) - mdot h b1 (vcross n b1) * mdot h b1 (vcross n b1) = hd_m2 h * hd_m3 h * (vx n * vx n) + hd_m1 h * hd_m3 h * (vy n * vy n) + hd_m1 h * hd_m2 h * (vz n * vz n).
Proof.
  intros A B. assert (C : vcross b1 (vcross n b1) = n).
  { transitivity (vsub (vscale (norm2 b1) n) (vscale (sdot n b1) b1)); [unfold norm2, sdot, vcross, vsub, vscale; cbn; f_equal; ring|]. rewrite A, B. destruct n; unfold vsub, vscale; cbn. f_equal; ring. }
  set (b2 := vcross n b1) in *. clearbody b2. rewrite <- C. unfold mdot, vcross; cbn. ring.
Qed.
Lemma det_pos h n b1 : 0 < hd_m1 h -> 0 < hd_m2 h -> 0 < hd_m3 h -> norm2 n = 1 -> norm2 b1 = 1 -> sdot n b1 = 0 ->
  0 < mdot h b1 b1 * mdot h (vcross n b1) (vcross n b1) - mdot h b1 (vcross n b1) * mdot h b1 (vcross n b1).
Proof.
  intros A B C N N1 O. rewrite (det_eq h n b1 N1 O). pose proof (Rmult_lt_0_compat _ _ B C) as P1. pose proof (Rmult_lt_0_compat _ _ A C) as P2. pose proof (Rmult_lt_0_compat _ _ A B) as P3.
  pose proof (mdot_pos (mkHD (hd_hkl h) n 0 n n n n 0 (hd_m2 h * hd_m3 h) (hd_m1 h * hd_m3 h) (hd_m1 h * hd_m2 h) 0 true) n P1 P2 P3 N) as Q. unfold mdot in Q; cbn in Q. lra.
Qed.
Lemma cross_unit n b1 : norm2 n = 1 -> norm2 b1 = 1 -> sdot n b1 = 0 -> norm2 (vcross n b1) = 1 /\ sdot n (vcross n b1) = 0 /\ sdot b1 (vcross n b1) = 0.
Proof. intros A B C. destruct (ortho3_of n b1 A B C) as (_ & _ & X & _ & Y & Z & _). auto. Qed.
Lemma mdot_expand h o b1 b2 y1 y2 : let d := vadd (vadd o (vscale y1 b1)) (vscale y2 b2) in
  mdot h d d = mdot h o o + 2 * y1 * mdot h b1 o + 2 * y2 * mdot h b2 o + (y1 * y1 * mdot h b1 b1 + 2 * y1 * y2 * mdot h b1 b2 + y2 * y2 * mdot h b2 b2).
Proof. unfold mdot, vadd, vscale; cbn. ring. Qed.

(** the square root of the inverse *)
Lemma cholesky n11 n12 n22 : 0 < n22 -> 0 < n11 * n22 - n12 * n12 ->
  let det := n11 * n22 - n12 * n12 in let l11 := sqrt (n22 / det / 2) in let l12 := - n12 / det / (2 * l11) in
  0 < l11 /\ 0 < n11 / det / 2 - l12 * l12 /\
  forall z1 z2, let l22 := sqrt (n11 / det / 2 - l12 * l12) in
    (l11 * z1) * (l11 * z1) * n11 + 2 * (l11 * z1) * (l12 * z1 + l22 * z2) * n12 + (l12 * z1 + l22 * z2) * (l12 * z1 + l22 * z2) * n22 = (z1 * z1 + z2 * z2) / 2.
Proof.
  intros P D det l11 l12. fold det in D. assert (Q : 0 < n22 / det / 2) by (pose proof (Rdiv_lt_0_compat _ _ P D); lra).
  assert (L : 0 < l11) by now apply sqrt_lt_R0. assert (LL : l11 * l11 = n22 / (2 * det)) by (unfold l11; rewrite sqrt_sqrt by lra; field; lra).
  assert (E : l12 * l11 = - n12 / (2 * det)) by (unfold l12; field; lra).
  assert (EE : l12 * l12 = n12 * n12 / (2 * det * n22)).
  { assert (l12 * l12 * (l11 * l11) = n12 * n12 / (4 * (det * det))) by (transitivity ((l12 * l11) * (l12 * l11)); [ring|rewrite E; field; lra]). rewrite LL in H.
    apply (Rmult_eq_reg_r (n22 / (2 * det))); [|apply Rgt_not_eq, Rdiv_lt_0_compat; lra]. rewrite H. field. lra. }
  assert (R : n11 / det / 2 - l12 * l12 = 1 / (2 * n22)).
  { rewrite EE. assert (X : n11 * n22 = det + n12 * n12) by (unfold det; ring). assert (Y : n11 = (det + n12 * n12) / n22) by (rewrite <- X; field; lra). rewrite Y. field. lra. }
  split; [exact L|]. split; [rewrite R; apply Rdiv_lt_0_compat; lra|]. intros z1 z2 l22. assert (L2 : l22 * l22 = 1 / (2 * n22)) by (unfold l22; rewrite R; apply sqrt_sqrt; left; apply Rdiv_lt_0_compat; lra).
  clearbody l22. assert (F : l11 * n12 + l12 * n22 = 0).
  { apply (Rmult_eq_reg_r l11); [|lra]. transitivity (l11 * l11 * n12 + l12 * l11 * n22); [ring|]. rewrite LL, E. field. lra. }
  transitivity (z1 * z1 * (l11 * l11 * n11 + l11 * n12 * l12 + l12 * (l11 * n12 + l12 * n22)) + 2 * z1 * z2 * l22 * (l11 * n12 + l12 * n22) + z2 * z2 * (l22 * l22 * n22)); [ring|].
  rewrite F, L2, LL. replace (l11 * n12 * l12) with (n12 * (l12 * l11)) by ring. rewrite E.
  replace (n22 / (2 * det) * n11 + n12 * (- n12 / (2 * det)) + l12 * 0) with ((n11 * n22 - n12 * n12) / (2 * det)) by (field; lra). fold det. field. lra.
Qed.

(** the point in local coordinates *)
Definition local_point (t : taudata) (z1 z2 : R) : vec3 :=
  vadd (vadd (vadd (td_rho t) (td_o t)) (vscale (td_l11 t * z1 + td_y0x t) (td_b1 t))) (vscale (td_l12 t * z1 + td_l22 t * z2 + td_y0y t) (td_b2 t)).
Lemma from_add h a b : from_local h (vadd a b) = vadd (from_local h a) (from_local h b).
Proof. unfold from_local, vadd, vscale; cbn. f_equal; ring. Qed.
Lemma from_scale h k a : from_local h (vscale k a) = vscale k (from_local h a).
Proof. unfold from_local, vadd, vscale; cbn. f_equal; ring. Qed.
Lemma from_sub h a b : from_local h (vsub a b) = vsub (from_local h a) (from_local h b).
Proof. unfold from_local, vadd, vsub, vscale; cbn. f_equal; ring. Qed.
Lemma from_speed h a : ortho3 (hd_u1 h) (hd_u2 h) (hd_u3 h) -> speed (from_local h a) = speed a.
Proof. intros O. unfold speed. f_equal. exact (from_sdot h a a O). Qed.
Lemma pow_2pi : Rpower (2 * PI) (5 / 2) = (2 * PI) ^ 3 / Rpower (2 * PI) (3 / 2) * (2 * PI).
Proof.
  pose proof PI_RGT_0. assert (Q : 0 < 2 * PI) by lra. assert (P : 0 < Rpower (2 * PI) (3 / 2)) by apply exp_pos.
  apply (Rmult_eq_reg_r (Rpower (2 * PI) (3 / 2))); [|lra]. rewrite <- Rpower_plus. replace (5 / 2 + 3 / 2) with (INR 4) by (cbn; lra). rewrite Rpower_pow by exact Q. field. lra.
Qed.

Section one.
Variables (lat : lattice) (mosaic dd V : R) (x : hkl) (ki : vec3) (i : nat).
Hypothesis M : 0 < mosaic.
Hypothesis D : 0 < dd.
Hypothesis VP : 0 < V.
Hypothesis NT : tau_of lat x <> mkV 0 0 0.
Hypothesis NK : ki <> mkV 0 0 0.
Hypothesis NR : vsub ki (tau_of lat x) <> mkV 0 0 0.
Let h := new_hkldata lat mosaic dd x.
Let tau := tau_of lat x.
Let rho := vsub ki tau.
Let k := speed ki.

Lemma gauss_local delta : ortho3 (hd_u1 h) (hd_u2 h) (hd_u3 h) ->
  bragg_density mosaic dd tau (from_local h delta) = exp (- mdot h delta delta) / (Rpower (2 * PI) (3 / 2) * hd_sig123 h).
Proof.
  intros O. pose proof (hkldata_ok lat mosaic dd x M D NT) as HK. cbv zeta in HK. fold h tau in HK. destruct HK as (_ & T & _ & SX & SY & M1 & M2 & M3 & S3 & _). unfold bragg_density. rewrite <- S3. f_equal. f_equal. f_equal. f_equal.
  assert (A : sdot (from_local h delta) tau = speed tau * vx delta).
  { rewrite T at 1. rewrite sdot_scale_r. f_equal. replace (hd_u1 h) with (from_local h (mkV 1 0 0)) by (unfold from_local; destruct (hd_u1 h), (hd_u2 h), (hd_u3 h); unfold vadd, vscale; cbn; f_equal; ring).
    rewrite (from_sdot h _ _ O). unfold sdot; cbn. ring. }
  rewrite A. assert (N : norm2 (from_local h delta) = norm2 delta) by exact (from_sdot h delta delta O). rewrite N. pose proof (speed_pos tau NT) as S.
  replace (speed tau * vx delta * (speed tau * vx delta) / norm2 tau) with (vx delta * vx delta) by (rewrite <- speed_norm; field; lra).
  unfold mdot. rewrite M3, M1, M2. unfold norm2, sdot. field. lra.
Qed.

Lemma taudata_ok : exists t, new_taudata (Rpower (2 * PI) (5 / 2) / (V * k * k)) k (speed rho) ki i h = Some t /\ td_index t = i /\ 0 < td_refl t /\ td_xs t = td_refl t * F2 x / 100 /\
  lands V mosaic dd ki tau (td_refl t) (fun z1 z2 => from_local h (local_point t z1 z2)) /\ forall z1 z2, 0 < speed (local_point t z1 z2).
Proof.
  pose proof (hkldata_ok lat mosaic dd x M D NT) as HK. cbv zeta in HK. fold h tau in HK. destruct HK as (O & T & FI & SX & SY & M1 & M2 & M3 & S3 & _).
  pose proof (speed_pos ki NK) as KP. fold k in KP. pose proof (speed_pos rho NR) as RP. pose proof (speed_pos tau NT) as TP. pose proof PI_RGT_0 as PP.
  assert (m1 : 0 < hd_m1 h) by (rewrite M1; apply Rdiv_lt_0_compat; nra). assert (m2 : 0 < hd_m2 h) by (rewrite M2; apply Rdiv_lt_0_compat; nra). assert (m3 : 0 < hd_m3 h) by now rewrite M3.
  unfold new_taudata. rewrite FI, (proj2 (Reqb_f _ _) (Rgt_not_eq _ _ RP)), (proj2 (Reqb_f _ _) (Rgt_not_eq _ _ KP)). cbn [negb orb].
  set (rl := vsub (to_local h ki) (mkV (hd_tau_length h) 0 0)).
  assert (RL : from_local h rl = rho).
  { unfold rl. rewrite from_sub, from_to by exact O. unfold rho. f_equal. rewrite T. change (hd_tau_length h) with (speed tau). unfold from_local; cbn. destruct (hd_u1 h), (hd_u2 h), (hd_u3 h); unfold vadd, vscale; cbn; f_equal; ring. }
  assert (RS : speed rl = speed rho) by (rewrite <- RL; symmetry; now apply from_speed).
  set (n := vscale (1 / speed rho) rl). assert (N1 : norm2 n = 1) by (unfold n; rewrite scale_n2, <- (speed_norm rl), RS; field; lra).
  assert (RN : rl = vscale (speed rho) n) by (unfold n; destruct rl; unfold vscale; cbn; f_equal; field; lra).
  destruct (normal_ok n) as [B1 P1]; [intros Z; rewrite Z in N1; unfold norm2, sdot in N1; cbn in N1; lra|].
  set (b1 := normal_vec n) in *. destruct (cross_unit n b1 N1 B1 P1) as (B2 & P2 & P12). pose proof (det_pos h n b1 m1 m2 m3 N1 B1 P1) as DP.
  set (b2 := vcross n b1) in *. pose proof (mdot_pos h b2 m1 m2 m3 B2) as N22. set (n11 := mdot h b1 b1) in *. set (n12 := mdot h b1 b2) in *. set (n22 := mdot h b2 b2) in *.
  rewrite (proj2 (Reqb_f _ _) (Rgt_not_eq _ _ DP)). destruct (cholesky n11 n12 n22 N22 DP) as (L11 & L22 & CH). cbv zeta in L11, L22, CH. set (det := n11 * n22 - n12 * n12) in *.
  assert (QP : 0 < n22 / det / 2) by (pose proof (Rdiv_lt_0_compat _ _ N22 DP); lra).
  unfold fsqrt at 1. rewrite (proj2 (Rltb_f _ 0)) by lra. set (l11 := sqrt (n22 / det / 2)) in *. rewrite (proj2 (Reqb_f _ _) (Rgt_not_eq _ _ L11)).
  set (l12 := - n12 / det / (2 * l11)) in *. unfold fsqrt. rewrite (proj2 (Rltb_f _ 0)) by lra. pose proof (sqrt_lt_R0 _ L22) as L22'. set (l22 := sqrt (n11 / det / 2 - l12 * l12)) in *.
  set (o := vscale (k - speed rho) n). set (Bx := mdot h b1 o). set (By := mdot h b2 o). set (y0x := - (Bx * (n22 / det) + By * (- n12 / det))). set (y0y := - (Bx * (- n12 / det) + By * (n11 / det))).
  set (al := mdot h o o - (y0x * y0x * n11 + y0y * y0y * n22 + 2 * y0x * y0y * n12)).
  eexists. split; [reflexivity|]. cbn [td_index td_refl td_xs]. split; [reflexivity|].
  assert (S3P : 0 < hd_sig123 h) by (rewrite S3; apply Rmult_lt_0_compat; [apply Rmult_lt_0_compat|]; assumption).
  assert (JP : 0 < l11 * l22) by (apply Rmult_lt_0_compat; assumption).
  assert (VK : 0 < V * k * k) by (apply Rmult_lt_0_compat; [apply Rmult_lt_0_compat|]; assumption).
  split. { apply Rdiv_lt_0_compat; [|exact S3P]. apply Rmult_lt_0_compat; [apply Rmult_lt_0_compat; [apply Rdiv_lt_0_compat; [apply exp_pos|exact VK]|exact JP]|apply exp_pos]. }
  split; [change (hd_hkl h) with x; field; lra|].
  assert (RO : vadd rl o = vscale k n) by (unfold o; rewrite RN; destruct n; unfold vadd, vscale; cbn; f_equal; ring).
  split.
  - exists (l11 * l22). split.
    + exists (from_local h (vadd (vadd (vadd rl o) (vscale y0x b1)) (vscale y0y b2))), (from_local h b1), (from_local h b2), l11, l12, l22. fold rho.
      split; [exact (eq_trans (from_sdot h _ _ O) B1)|]. split; [exact (eq_trans (from_sdot h _ _ O) B2)|]. split; [exact (eq_trans (from_sdot h _ _ O) P12)|].
      rewrite <- RL, !(from_sdot h) by exact O. rewrite RN, !sdot_scale_r.
      assert (S1 : sdot b1 n = 0) by (rewrite <- P1; unfold sdot; ring). assert (S2 : sdot b2 n = 0) by (rewrite <- P2; unfold sdot; ring).
      split; [rewrite S1; ring|]. split; [rewrite S2; ring|]. split; [reflexivity|]. split; [exact JP|]. split.
      * rewrite <- RN, RO. fold k. rewrite (from_speed h _ O), RS. transitivity (speed rho * (k * norm2 n + y0x * sdot b1 n + y0y * sdot b2 n)); [unfold norm2, sdot, vadd, vscale; cbn; ring|rewrite N1, S1, S2; ring].
      * intros z1 z2. unfold local_point; cbn [td_rho td_o td_b1 td_b2 td_l11 td_l12 td_l22 td_y0x td_y0y]. rewrite <- RN. rewrite !from_add, !from_scale. set (A := from_local h rl). set (B := from_local h o). set (C := from_local h b1). set (E := from_local h b2). clearbody A B C E. unfold vadd, vscale; cbn. f_equal; ring.
    + intros z1 z2. fold rho. rewrite <- RL, <- from_sub. rewrite (gauss_local _ O). unfold local_point; cbn [td_rho td_o td_b1 td_b2 td_l11 td_l12 td_l22 td_y0x td_y0y].
      set (y1 := l11 * z1 + y0x). set (y2 := l12 * z1 + l22 * z2 + y0y).
      assert (DD : vsub (vadd (vadd (vadd rl o) (vscale y1 b1)) (vscale y2 b2)) rl = vadd (vadd o (vscale y1 b1)) (vscale y2 b2)) by (clearbody rl o b1 b2 y1 y2; destruct o, b1, b2, rl; unfold vsub, vadd, vscale; cbn; f_equal; ring).
      rewrite DD, mdot_expand. fold n11 n12 n22 Bx By.
      assert (QF : mdot h o o + 2 * y1 * Bx + 2 * y2 * By + (y1 * y1 * n11 + 2 * y1 * y2 * n12 + y2 * y2 * n22) = al + (z1 * z1 + z2 * z2) / 2).
      { rewrite <- (CH z1 z2). unfold al. assert (G1 : n11 * y0x + n12 * y0y = - Bx) by (unfold y0x, y0y; transitivity (- Bx * ((n11 * n22 - n12 * n12) / det)); [field; lra|fold det; field; lra]).
        assert (G2 : n12 * y0x + n22 * y0y = - By) by (unfold y0x, y0y; transitivity (- By * ((n11 * n22 - n12 * n12) / det)); [field; lra|fold det; field; lra]).
        assert (H1 : Bx = - (n11 * y0x + n12 * y0y)) by lra. assert (H2 : By = - (n12 * y0x + n22 * y0y)) by lra. unfold y1, y2. clear - H1 H2. clearbody y0x y0y. rewrite H1, H2. ring. }
      rewrite QF. unfold normal_density. replace (- (al + (z1 * z1 + z2 * z2) / 2)) with (- al + - ((z1 * z1 + z2 * z2) / 2)) by ring. rewrite exp_plus, pow_2pi, <- (speed_norm ki). fold k. assert (0 < Rpower (2 * PI) (3 / 2)) by apply exp_pos. field.
      repeat split; lra.
  - intros z1 z2. unfold local_point; cbn [td_rho td_o td_b1 td_b2 td_l11 td_l12 td_l22 td_y0x td_y0y]. rewrite RO. apply speed_pos. intros Z.
    assert (Y : sdot (vadd (vadd (vscale k n) (vscale (l11 * z1 + y0x) b1)) (vscale (l12 * z1 + l22 * z2 + y0y) b2)) n = k).
    { transitivity (k * norm2 n + (l11 * z1 + y0x) * sdot n b1 + (l12 * z1 + l22 * z2 + y0y) * sdot n b2); [unfold norm2, sdot, vadd, vscale; cbn; ring|rewrite N1, P1, P2; ring]. }
    rewrite Z in Y. unfold sdot in Y; cbn in Y. lra.
Qed.
End one.
