(** Proofs for C68. *)
From Coq Require Import Reals Lra Lia.
From Coquelicot Require Import Coquelicot.
From Verif Require Import Base RotModel RotSpec ChanModel ChanProofs ShapeModel ShapeSpec ShapeProofs ScatModel ScatSpec UnitModel UnitSpec UnitProofs KinModel KinSpec KinProofs KinProofs2 KinProofs3 KinProofs4 GridProofs PowdModel PowdSpec PowdProofs ConeModel ConeSpec ConeProofs ConeProofs2 ConeProofs3 ConeProofs4.
Open Scope R_scope.

Lemma chord c r d x : c <> mkV 0 0 0 -> 0 <= r -> norm2 d = norm2 c -> sdot d c = x * norm2 c -> half_opening c r <= x -> norm2 (vsub d c) <= r * r.
Proof.
  intros N Rp E S X. pose proof (n2_pos c N) as P. destruct (half_range c r N) as [HB HP]. specialize (HP Rp). replace (norm2 (vsub d c)) with (norm2 d + norm2 c - 2 * sdot d c) by (unfold norm2, sdot, vsub; destruct d, c; cbn; ring).
  rewrite E, S. set (h := half_opening c r) in *. set (L := norm2 c) in *. assert (HH : h * h * (L + r * r) = L). { unfold h, half_opening. destruct (Rlt_dec r 0); [lra|]. rewrite sqrt_sqrt; [fold L; field; nra|]. fold L. apply Rlt_le, Rdiv_lt_0_compat; nra. }
  assert (K : 2 * L * (1 - h) <= r * r); [|nra]. apply Rnot_lt_le. intros Q. assert (Q1 : h * h * (L + r * r) < h * h * (L + 2 * L * (1 - h))) by (apply Rmult_lt_compat_l; [nra|lra]). rewrite HH in Q1.
  assert (Q2 : L * (h * h * (3 - 2 * h)) <= L * 1). { apply Rmult_le_compat_l; [lra|]. assert (0 <= (1 - h) * (1 - h) * (1 + 2 * h)) by (apply Rmult_le_pos; nra). lra. } lra.
Qed.
Lemma dgs_outcome k u1 u2 u3 ev : let c := vsub (dg_position k) (e_r ev) in let tof := random u3 (dg_tof k - dg_dtof k / 2) (dg_tof k + dg_dtof k / 2) in
  c <> mkV 0 0 0 -> 0 <= dg_radius k -> 0 <= u1 <= 1 -> tof <> e_t ev -> tof <> 0 -> e_v ev <> mkV 0 0 0 ->
  exists d, norm2 d = norm2 c /\ norm2 (vsub d c) <= dg_radius k * dg_radius k /\
    dgs_S k u1 u2 u3 ev = (Some (vscale (1 / (tof - e_t ev)) d),
      Some (e_p ev * (2 * PI * (1 - half_opening c (dg_radius k)) / (4 * PI) * dg_dtof k * (2 * v2E (speed c / (tof - e_t ev)) / tof) * (speed c / (tof - e_t ev) / speed (e_v ev))))).
Proof.
  intros c tof N Rp U T T0 NV. pose proof (speed_pos c N) as SP. pose proof (speed_pos _ NV) as VP. pose proof PI_RGT_0. pose proof (n2_pos c N) as NP.
  destruct (directions c (dg_radius k) N) as (e1 & e2 & e3 & F & O & DD). specialize (DD u1 u2 U). cbv zeta in DD. set (x := random u1 (half_opening c (dg_radius k)) 1) in *. destruct (half_range c (dg_radius k) N) as [HR _].
  assert (XB : half_opening c (dg_radius k) <= x <= 1) by (unfold x, random; split; nra). set (phi := if Rltb (1 - Rabs x) (1 / 10 ^ 7) then 0 else random u2 0 (2 * PI)) in *. set (d := at_angle e1 e2 e3 (speed c) x phi) in *.
  destruct (angle_norm e1 e2 e3 (speed c) x phi O ltac:(lra)) as [ND _]. fold d in ND. rewrite speed_norm in ND. pose proof (angle_of c e1 e2 e3 x phi N F ltac:(lra)) as AD. fold d in AD. assert (SD : sdot d c = x * norm2 c) by (rewrite <- AD at 1; field; lra).
  exists d. split; [exact ND|]. split; [apply (chord c _ d x); try assumption; lra|]. unfold dgs_S. fold c. fold tof. rewrite DD. cbv zeta. rewrite (proj2 (Reqb_f (tof - e_t ev) 0)) by lra. assert (SS : vnorm d = speed c) by (change (vnorm d) with (speed d); unfold speed; now rewrite ND).
  unfold normalize. rewrite SS. destruct (Req_EM_T (speed c) 0) as [Z|_]; [lra|]. cbn [option_map]. f_equal.
  - f_equal. change (vnorm c) with (speed c). clearbody d. unfold vscale. destruct d as [d1 d2 d3]. cbn. f_equal; field; split; lra.
  - change (vnorm (e_v ev)) with (speed (e_v ev)). change (vnorm c) with (speed c). rewrite (proj2 (Reqb_f tof 0)), (proj2 (Reqb_f (speed (e_v ev)) 0)) by lra. cbn [orb]. f_equal. f_equal. field. repeat split; lra.
Qed.
Lemma tof_range k u3 : 0 <= dg_dtof k -> 0 <= u3 <= 1 -> dg_tof k - dg_dtof k / 2 <= random u3 (dg_tof k - dg_dtof k / 2) (dg_tof k + dg_dtof k / 2) <= dg_tof k + dg_dtof k / 2.
Proof. intros D U. unfold random. split; nra. Qed.
Lemma energy_rate L t s : s <> t -> is_derive (fun s => v2E (L / (s - t))) s (- (2 * v2E (L / (s - t)) / (s - t))).
Proof. intros N. unfold v2E. auto_derive; [split; [lra|]; split; [lra|trivial]|]. field. lra. Qed.
