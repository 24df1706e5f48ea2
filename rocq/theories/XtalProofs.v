(** Proofs for C58: frames and the tangent plane. *)
From Coq Require Import Reals Lra Lia.
From Verif Require Import Base RotModel RotSpec ChanModel ChanProofs ShapeModel ShapeSpec ShapeProofs ScatModel ScatSpec UnitModel UnitSpec UnitProofs KinModel KinSpec KinProofs KinProofs3 GridProofs PowdProofs XtalModel XtalSpec.
Open Scope R_scope.

(** normal_vec *)
Lemma sum_pos_l x y : x <> 0 -> 0 < x * x + y * y. Proof. intros H. assert (0 < x * x) by nra. nra. Qed.
Lemma unit2 x y : 0 < x * x + y * y -> x / sqrt (x * x + y * y) * (x / sqrt (x * x + y * y)) + y / sqrt (x * x + y * y) * (y / sqrt (x * x + y * y)) = 1.
Proof. intros H. pose proof (sqrt_lt_R0 _ H) as S. replace (x / sqrt (x * x + y * y) * (x / sqrt (x * x + y * y)) + y / sqrt (x * x + y * y) * (y / sqrt (x * x + y * y))) with ((x * x + y * y) / (sqrt (x * x + y * y) * sqrt (x * x + y * y))) by (field; lra). rewrite sqrt_sqrt by lra. field. lra. Qed.
Lemma abs_nz x y : Rabs x < Rabs y -> y <> 0.
Proof. intros H Z. rewrite Z, Rabs_R0 in H. pose proof (Rabs_pos x). lra. Qed.
Lemma normal_ok v : v <> mkV 0 0 0 -> norm2 (normal_vec v) = 1 /\ sdot v (normal_vec v) = 0.
Proof.
  intros N. destruct v as [x y z]. unfold normal_vec. cbn [vx vy vz].
  destruct (_ && _)%bool eqn:B.
  { exfalso. apply N. rewrite !Bool.andb_true_iff in B. destruct B as [[B1 B2] B3]. apply Reqb_t in B1, B2, B3. now subst. }
  assert (HX : 0 < z * z + y * y -> norm2 (mkV 0 (z / sqrt (z * z + y * y)) (- y / sqrt (z * z + y * y))) = 1 /\ sdot (mkV x y z) (mkV 0 (z / sqrt (z * z + y * y)) (- y / sqrt (z * z + y * y))) = 0).
  { intros P. pose proof (sqrt_lt_R0 _ P). split; [|unfold sdot; cbn; field; lra]. unfold norm2, sdot; cbn. rewrite <- (unit2 z y P). field. lra. }
  assert (HY : 0 < z * z + x * x -> norm2 (mkV (z / sqrt (z * z + x * x)) 0 (- x / sqrt (z * z + x * x))) = 1 /\ sdot (mkV x y z) (mkV (z / sqrt (z * z + x * x)) 0 (- x / sqrt (z * z + x * x))) = 0).
  { intros P. pose proof (sqrt_lt_R0 _ P). split; [|unfold sdot; cbn; field; lra]. unfold norm2, sdot; cbn. rewrite <- (unit2 z x P). field. lra. }
  assert (HZ : 0 < y * y + x * x -> norm2 (mkV (y / sqrt (y * y + x * x)) (- x / sqrt (y * y + x * x)) 0) = 1 /\ sdot (mkV x y z) (mkV (y / sqrt (y * y + x * x)) (- x / sqrt (y * y + x * x)) 0) = 0).
  { intros P. pose proof (sqrt_lt_R0 _ P). split; [|unfold sdot; cbn; field; lra]. unfold norm2, sdot; cbn. rewrite <- (unit2 y x P). field. lra. }
  destruct (Rltb (Rabs x) (Rabs y)) eqn:B1.
  - apply Rltb_t in B1. destruct (Rltb (Rabs x) (Rabs z)) eqn:B2; [apply HX; apply Rltb_t in B2; apply sum_pos_l; now apply abs_nz in B2|apply HZ; apply sum_pos_l; now apply abs_nz in B1].
  - apply Rltb_f in B1. destruct (Rltb (Rabs y) (Rabs z)) eqn:B2; [apply HY; apply Rltb_t in B2; apply sum_pos_l; now apply abs_nz in B2|].
    apply Rltb_f in B2. apply HZ. destruct (Req_dec x 0) as [->|NX]; [|rewrite Rplus_comm; now apply sum_pos_l]. exfalso. apply N. rewrite Rabs_R0 in B1. assert (y = 0) by (destruct (Req_dec y 0) as [|Z]; [assumption|apply Rabs_pos_lt in Z; lra]). subst y. rewrite Rabs_R0 in B2.
    assert (z = 0) by (destruct (Req_dec z 0) as [|Z]; [assumption|apply Rabs_pos_lt in Z; lra]). now subst.
Qed.
(** lattice *)
Lemma lattice_ok a b c lat : new_lattice a b c = Some lat -> 0 < V0 lat /\ V0 lat = Rabs (sdot a (vcross b c)) /\ reciprocal a b c (ra lat) (rb lat) (rc lat).
Proof.
  unfold new_lattice. rewrite dot_is. destruct (Reqb _ _) eqn:B; [discriminate|]. apply Reqb_f in B. intros H. assert (E : lat = mkLat (vscale (2 * PI / sdot a (vcross b c)) (vcross b c)) (vscale (2 * PI / sdot a (vcross b c)) (vcross c a)) (vscale (2 * PI / sdot a (vcross b c)) (vcross a b)) (Rabs (sdot a (vcross b c)))) by congruence.
  subst lat. cbn [V0 ra rb rc]. split; [now apply Rabs_pos_lt|]. split; [reflexivity|]. unfold reciprocal. rewrite !sdot_scale_r. set (V := sdot a (vcross b c)) in *.
  assert (E2 : sdot b (vcross c a) = V) by (unfold V, sdot, vcross; cbn; ring). assert (E3 : sdot c (vcross a b) = V) by (unfold V, sdot, vcross; cbn; ring). rewrite E2, E3. fold V.
  assert (Z : forall x y, sdot x (vcross y x) = 0) by (intros x y; unfold sdot, vcross; cbn; ring). assert (Z' : forall x y, sdot x (vcross x y) = 0) by (intros x y; unfold sdot, vcross; cbn; ring).
  rewrite !Z, !Z'. repeat split; try ring; field; exact B.
Qed.
(** local coordinates *)
Definition from_local (h : hkldata) (a : vec3) : vec3 := vadd (vadd (vscale (vx a) (hd_u1 h)) (vscale (vy a) (hd_u2 h))) (vscale (vz a) (hd_u3 h)).
Lemma to_local_eq h k : to_local h k = mkV (sdot k (hd_u1 h)) (sdot k (hd_u2 h)) (sdot k (hd_u3 h)).
Proof. unfold to_local, sdot, vadd, vscale; cbn. f_equal; ring. Qed.
Definition ortho3 (u1 u2 u3 : vec3) : Prop := norm2 u1 = 1 /\ norm2 u2 = 1 /\ norm2 u3 = 1 /\ sdot u1 u2 = 0 /\ sdot u1 u3 = 0 /\ sdot u2 u3 = 0 /\ u3 = vcross u1 u2.
Lemma ortho3_of u1 u2 : norm2 u1 = 1 -> norm2 u2 = 1 -> sdot u1 u2 = 0 -> ortho3 u1 u2 (vcross u1 u2).
Proof.
  intros A B C. unfold ortho3. assert (L : norm2 (vcross u1 u2) = norm2 u1 * norm2 u2 - sdot u1 u2 * sdot u1 u2) by (unfold norm2, sdot, vcross; cbn; ring).
  repeat split; try assumption; [rewrite L, A, B, C; ring|unfold sdot, vcross; cbn; ring|unfold sdot, vcross; cbn; ring].
Qed.
Lemma from_sdot h a b : ortho3 (hd_u1 h) (hd_u2 h) (hd_u3 h) -> sdot (from_local h a) (from_local h b) = sdot a b.
Proof.
  intros (A & B & C & D & E & F & _). unfold from_local. set (u1 := hd_u1 h) in *. set (u2 := hd_u2 h) in *. set (u3 := hd_u3 h) in *.
  transitivity (vx a * vx b * norm2 u1 + vy a * vy b * norm2 u2 + vz a * vz b * norm2 u3 + (vx a * vy b + vy a * vx b) * sdot u1 u2 + (vx a * vz b + vz a * vx b) * sdot u1 u3 + (vy a * vz b + vz a * vy b) * sdot u2 u3).
  - unfold norm2, sdot, vadd, vscale; cbn. ring.
  - rewrite A, B, C, D, E, F. unfold sdot. ring.
Qed.
(* completeness: k = sum (k.u) u, by the identity for three orthonormal vectors *)
Lemma complete u1 u2 u3 k : ortho3 u1 u2 u3 -> vadd (vadd (vscale (sdot k u1) u1) (vscale (sdot k u2) u2)) (vscale (sdot k u3) u3) = k.
Proof.
  intros (A & B & C & D & E & F & X).
  (* the difference is orthogonal to u1, u2, u3 and hence 0 *)
  set (d := vsub (vadd (vadd (vscale (sdot k u1) u1) (vscale (sdot k u2) u2)) (vscale (sdot k u3) u3)) k).
  assert (D1 : sdot d u1 = 0). { unfold d. transitivity (sdot k u1 * norm2 u1 + sdot k u2 * sdot u1 u2 + sdot k u3 * sdot u1 u3 - sdot k u1); [unfold norm2, sdot, vsub, vadd, vscale; cbn; ring|rewrite A, D, E; ring]. }
  assert (D2 : sdot d u2 = 0). { unfold d. transitivity (sdot k u1 * sdot u1 u2 + sdot k u2 * norm2 u2 + sdot k u3 * sdot u2 u3 - sdot k u2); [unfold norm2, sdot, vsub, vadd, vscale; cbn; ring|rewrite B, D, F; ring]. }
  assert (D3 : sdot d u3 = 0). { unfold d. transitivity (sdot k u1 * sdot u1 u3 + sdot k u2 * sdot u2 u3 + sdot k u3 * norm2 u3 - sdot k u3); [unfold norm2, sdot, vsub, vadd, vscale; cbn; ring|rewrite C, E, F; ring]. }
  assert (Z : norm2 d = 0).
  { rewrite X in D3. (* |d|^2 |u1 x u2|^2 = (d.(u1xu2))^2 + |d x (u1 x u2)|^2, d x (u1 x u2) = u1 (d.u2) - u2 (d.u1) *)
    assert (Y : norm2 d * norm2 (vcross u1 u2) = sdot d (vcross u1 u2) * sdot d (vcross u1 u2) + norm2 (vsub (vscale (sdot d u2) u1) (vscale (sdot d u1) u2))) by (unfold norm2, sdot, vcross, vsub, vscale; cbn; ring).
    rewrite D1, D2, D3, <- X, C in Y. assert (W : norm2 (vsub (vscale 0 u1) (vscale 0 u2)) = 0) by (unfold norm2, sdot, vsub, vscale; cbn; ring). rewrite W in Y. lra. }
  assert (d = mkV 0 0 0). { apply speed_zero. unfold speed. rewrite Z. apply sqrt_0. }
  unfold d, vsub in H. injection H; intros. destruct k as [k1 k2 k3]. cbn [vx vy vz] in *. unfold vadd at 1. f_equal; cbn in *; lra.
Qed.
Lemma from_to h k : ortho3 (hd_u1 h) (hd_u2 h) (hd_u3 h) -> from_local h (to_local h k) = k.
Proof. intros O. rewrite to_local_eq. unfold from_local; cbn [vx vy vz]. now apply complete. Qed.

(** data of a reflection *)
Lemma hkldata_ok lat mosaic dd x : 0 < mosaic -> 0 < dd -> tau_of lat x <> mkV 0 0 0 ->
  let h := new_hkldata lat mosaic dd x in let tau := tau_of lat x in
  ortho3 (hd_u1 h) (hd_u2 h) (hd_u3 h) /\ tau = vscale (speed tau) (hd_u1 h) /\ hd_finite h = true /\ 0 < sig_along dd tau /\ 0 < sig_across mosaic tau /\
  hd_m1 h = 1 / (2 * sig_along dd tau ^ 2) /\ hd_m2 h = 1 / (2 * sig_across mosaic tau ^ 2) /\ hd_m3 h = hd_m2 h /\ hd_sig123 h = sig_along dd tau * sig_across mosaic tau * sig_across mosaic tau /\
  hd_cutoff h = 5 * Rmax (sig_along dd tau) (sig_across mosaic tau).
Proof.
  intros M D N h tau. pose proof (speed_pos tau N) as S. assert (F : 0 < FWHM2RMS) by (unfold FWHM2RMS; lra). change FWHM2RMS with rms in F.
  assert (SX : 0 < sig_along dd tau) by (unfold sig_along; apply Rmult_lt_0_compat; [apply Rmult_lt_0_compat|]; assumption).
  assert (SY : 0 < sig_across mosaic tau) by (unfold sig_across; apply Rmult_lt_0_compat; [apply Rmult_lt_0_compat|]; assumption).
  assert (EY : FWHM2RMS * speed tau * mosaic = sig_across mosaic tau) by (unfold sig_across; change rms with FWHM2RMS; ring).
  assert (U1 : norm2 (hd_u1 h) = 1). { unfold h, new_hkldata; cbn [hd_u1]. fold tau. rewrite norm_is, scale_n2, <- (speed_norm tau). field. lra. }
  destruct (normal_ok (hd_u1 h)) as [U2 P2]; [intros Z; rewrite Z in U1; unfold norm2, sdot in U1; cbn in U1; lra|].
  split; [exact (ortho3_of _ _ U1 U2 P2)|]. split; [unfold h, new_hkldata; cbn [hd_u1]; fold tau; change (vnorm tau) with (speed tau); set (s := speed tau) in *; destruct tau as [t1 t2 t3]; unfold vscale; cbn [vx vy vz]; f_equal; field; lra|].
  split; [unfold h, new_hkldata; cbn [hd_finite]; fold tau; change (vnorm tau) with (speed tau); rewrite EY; change (FWHM2RMS * dd * speed tau) with (sig_along dd tau); rewrite !(proj2 (Reqb_f _ 0)) by lra; reflexivity|].
  split; [exact SX|]. split; [exact SY|]. unfold h, new_hkldata; cbn [hd_m1 hd_m2 hd_m3 hd_sig123 hd_cutoff]. fold tau. change (vnorm tau) with (speed tau). rewrite EY. change (FWHM2RMS * dd * speed tau) with (sig_along dd tau).
  split; [f_equal; ring|]. split; [f_equal; ring|]. split; [reflexivity|]. split; [reflexivity|]. f_equal. f_equal. apply Rmax_left. lra.
Qed.
