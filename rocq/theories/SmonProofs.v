From Coq Require Import Reals List Lra Lia ZArith.
From Verif Require Import Base RotModel ChanModel ShapeModel ShapeSpec ChanProofs GridProofs OptModel OptSpec OptProofs3 McsModel BmonModel BmonSpec BmonProofs BmonProofs2 CmonModel CmonSpec CmonProofs SmonModel SmonSpec.
Open Scope R_scope.

Definition flies (r : ray) : Prop := vx (r_vel r) <> 0 \/ vy (r_vel r) <> 0 \/ vz (r_vel r) <> 0.
Lemma sphere_roots R0 r : flies r -> (mc_sphere_intersect (r_pos r) (r_vel r) R0 = Ok None /\ forall t, ~ on_sphere R0 r t) \/
  exists t0 t1, t0 <= t1 /\ mc_sphere_intersect (r_pos r) (r_vel r) R0 = Ok (Some (t0, t1)) /\ forall t, on_sphere R0 r t <-> t = t0 \/ t = t1.
Proof.
  intros F. unfold mc_sphere_intersect. cbv zeta. unfold on_sphere, on_line. cbv zeta. cbn [vx vy vz]. set (p := r_pos r). set (v := r_vel r). unfold flies in F. fold v in F.
  set (A := vx v * vx v + vy v * vy v + vz v * vz v). set (B := 2 * (vx p * vx v + vy p * vy v + vz p * vz v)). set (C := vx p * vx p + vy p * vy p + vz p * vz p - R0 * R0). set (D := B * B - 4 * A * C).
  assert (PA : 0 < A) by (unfold A; destruct F as [F|[F|F]]; apply Rsqr_pos_lt in F; unfold Rsqr in F; nra).
  assert (Q : forall t, (vx p + t * vx v) ^ 2 + (vy p + t * vy v) ^ 2 + (vz p + t * vz v) ^ 2 - R0 ^ 2 = A * t * t + B * t + C) by (intros t; unfold A, B, C; ring). assert (SA : sqrt A * sqrt A = A) by (apply sqrt_sqrt; lra). clearbody A B C. rewrite !SA. fold D.
  destruct (Rltb D 0) eqn:E.
  - apply Rltb_t in E. left. split; [reflexivity|]. intros t H. specialize (Q t). assert (Z : A * t * t + B * t + C = 0) by lra. assert (K : D = (2 * A * t + B) * (2 * A * t + B) - 4 * A * (A * t * t + B * t + C)) by (unfold D; ring). rewrite Z in K. pose proof (Rle_0_sqr (2 * A * t + B)) as Y. unfold Rsqr in Y. lra.
  - apply Rltb_f in E. right. rewrite (proj2 (Reqb_f A 0)) by lra. pose proof (sqrt_pos D) as SP. pose proof (sqrt_sqrt D E) as SS. set (q := sqrt D) in *. clearbody q.
    exists ((- B - q) / (2 * A)), ((- B + q) / (2 * A)). split; [|split; [reflexivity|]].
    + apply Rmult_le_compat_r; [apply Rlt_le, Rinv_0_lt_compat; lra|lra].
    + intros t. specialize (Q t). assert (K : A * (t - (- B - q) / (2 * A)) * (t - (- B + q) / (2 * A)) = A * t * t + B * t + C).
      { replace (A * (t - (- B - q) / (2 * A)) * (t - (- B + q) / (2 * A))) with (A * t * t + B * t + (B * B - q * q) / (4 * A)) by (field; lra). rewrite SS. unfold D. field. lra. }
      rewrite <- K in Q. split.
      * intros H. assert (Z : A * (t - (- B - q) / (2 * A)) * (t - (- B + q) / (2 * A)) = 0) by lra. apply Rmult_integral in Z. destruct Z as [Z|Z]; [apply Rmult_integral in Z; destruct Z as [Z|Z]; [lra|left; lra]|right; lra].
      * intros H. assert (Z : A * (t - (- B - q) / (2 * A)) * (t - (- B + q) / (2 * A)) = 0) by (destruct H as [H|H]; rewrite H; ring). rewrite Z in Q. lra.
Qed.
Lemma first_at R0 r t0 t1 : t0 <= t1 -> (forall t, on_sphere R0 r t <-> t = t0 \/ t = t1) -> 0 < t1 -> first_meets R0 r (if Rltb t0 0 then t1 else t0).
Proof.
  intros L S P. destruct (Rltb t0 0) eqn:E; [apply Rltb_t in E|apply Rltb_f in E]; unfold first_meets.
  - split; [lra|]. split; [apply S; now right|]. split; [|exists t1; split; [lra|apply S; now right]]. intros t T H. apply S in H. lra.
  - split; [lra|]. split; [apply S; now left|]. split; [|exists t1; split; [lra|apply S; now right]]. intros t T H. apply S in H. lra.
Qed.
Lemma first_is R0 r t0 t1 s : t0 <= t1 -> (forall t, on_sphere R0 r t <-> t = t0 \/ t = t1) -> first_meets R0 r s -> 0 < t1 /\ (if Rltb t0 0 then t1 else t0) = s.
Proof.
  intros L S (P & O & N & u & U & Ou). apply S in O. apply S in Ou. split; [lra|]. destruct (Rltb t0 0) eqn:E; [apply Rltb_t in E; lra|apply Rltb_f in E]. destruct O as [O|O]; [lra|].
  destruct (Rle_lt_or_eq_dec t0 t1 L) as [Lt|Eq]; [|lra]. exfalso. apply (N t0); [lra|]. apply S. now left.
Qed.
Lemma phi_range x z : - PI <= arctan2 x z <= PI.
Proof.
  pose proof PI_RGT_0. destruct (Req_dec z 0) as [Z|Z]; [|destruct (azimuth_exists x z (or_intror Z)) as (phi & A); rewrite (azimuth_arctan2 _ _ _ A); destruct A as (rho & _ & B & _); lra].
  destruct (Req_dec x 0) as [X|X]; [|destruct (azimuth_exists x z (or_introl X)) as (phi & A); rewrite (azimuth_arctan2 _ _ _ A); destruct A as (rho & _ & B & _); lra].
  subst. unfold arctan2. repeat match goal with |- context [if ?b then _ else _] => destruct b end; rewrite ?Rdiv_0_l; unfold Rdiv; rewrite ?Rmult_0_l, ?atan_0; lra.
Qed.
Lemma cut_range i n : (0 < n)%Z -> (0 <= cut i n < n)%Z.
Proof. intros N. unfold cut. destruct (Z.leb_spec n i); [lia|]. destruct (Z.ltb_spec i 0); lia. Qed.
Definition ch_i (nx : Z) (phi : R) : Z := cut (floorZ (IZR nx * (phi / (2 * PI) + 5 / 10))) nx.
Definition ch_j (ny : Z) (theta : R) : Z := cut (floorZ (IZR ny * (theta + PI / 2) / PI + 5 / 10)) ny.
Lemma sphere_step R0 nx ny h r s : 0 < R0 -> (0 < nx < 2 ^ 31)%Z -> (0 < ny < 2 ^ 31 - 1)%Z -> flies r -> List.length h = (Z.to_nat nx * Z.to_nat ny)%nat -> first_meets R0 r s ->
  let q := on_line (r_pos r) (r_vel r) s in let i := ch_i nx (arctan2 (vx q) (vz q)) in let j := ch_j ny (asin (vy q / R0)) in
  psd4pi_trace None R0 nx ny h r = Ok (add_at h (Z.to_nat j + Z.to_nat i * Z.to_nat ny) (r_p r), r) /\ counted h (add_at h (Z.to_nat j + Z.to_nat i * Z.to_nat ny) (r_p r)) (Z.to_nat j + Z.to_nat i * Z.to_nat ny) (r_p r).
Proof.
  intros R1 NX NY Fl LEN FM q i j. pose proof PI_RGT_0 as Pp. pose proof (n31 nx NX) as N1. pose proof (n31 ny ltac:(lia)) as N2. assert (N2' : IZR ny <= 2 ^ 31 - 2). { replace (2 ^ 31 - 2) with (IZR (2 ^ 31 - 2)) by (change (2 ^ 31 - 2)%Z with 2147483646%Z; lra). apply IZR_le. lia. }
  assert (Ri : (0 <= i < nx)%Z) by (apply cut_range; lia). assert (Rj : (0 <= j < ny)%Z) by (apply cut_range; lia).
  assert (K : (Z.to_nat j + Z.to_nat i * Z.to_nat ny < List.length h)%nat) by (rewrite LEN; apply flat; lia). split; [|now apply add_counted].
  destruct (sphere_roots R0 r Fl) as [[_ N]|(t0 & t1 & L & E & S)]; [destruct FM as (_ & O & _); exfalso; exact (N s O)|]. destruct (first_is R0 r t0 t1 s L S FM) as [P Ts].
  unfold psd4pi_trace. rewrite E. cbn [bind]. rewrite (proj2 (Rltb_t 0 t1) P). cbv zeta. rewrite Ts. rewrite moved by apply FM. rewrite !moved_at. fold q.
  pose proof (phi_range (vx q) (vz q)) as PR. set (phi := arctan2 (vx q) (vz q)) in *. assert (X1 : 0 <= phi / (2 * PI) + 5 / 10 <= 1).
  { assert (E1 : (phi / (2 * PI) + 5 / 10) * (2 * PI) = phi + PI) by (field; lra). split; nra. }
  assert (B1 : 0 <= IZR nx * (phi / (2 * PI) + 5 / 10) <= IZR nx) by (split; nra). rewrite int_floor_ok by lra. cbn [bind]. unfold quot. rewrite (proj2 (Reqb_f R0 0)) by lra. cbn [bind].
  pose proof (asin_bound (vy q / R0)) as AB. set (th := asin (vy q / R0)) in *. assert (B2 : 0 <= IZR ny * (th + PI / 2) / PI <= IZR ny).
  { assert (E2 : IZR ny * (th + PI / 2) / PI * PI = IZR ny * (th + PI / 2)) by (field; lra). set (w := IZR ny * (th + PI / 2) / PI) in *. split; nra. }
  rewrite int_floor_ok by lra. cbn [bind]. change (cut (floorZ (IZR ny * (th + PI / 2) / PI + 5 / 10)) ny) with j. change (cut (floorZ (IZR nx * (phi / (2 * PI) + 5 / 10))) nx) with i.
  replace (j + i * ny)%Z with (Z.of_nat (Z.to_nat j + Z.to_nat i * Z.to_nat ny)) by (rewrite Nat2Z.inj_add, Nat2Z.inj_mul, !Z2Nat.id by lia; reflexivity). change (r_p (prop_dt_nogravity s r)) with (r_p r). rewrite tally_in by exact K. cbn [bind]. destruct r; reflexivity.
Qed.
Lemma sphere_none R0 nx ny h r : flies r -> (forall s, ~ first_meets R0 r s) -> psd4pi_trace None R0 nx ny h r = Ok (h, r).
Proof.
  intros Fl N. unfold psd4pi_trace. destruct (sphere_roots R0 r Fl) as [[E _]|(t0 & t1 & L & E & S)]; rewrite E; cbn [bind]; [reflexivity|]. destruct (Rltb 0 t1) eqn:P; [|reflexivity]. apply Rltb_t in P. exfalso. exact (N _ (first_at R0 r t0 t1 L S P)).
Qed.
Lemma ch_i_bin nx phi k : (0 < nx)%Z -> (k < Z.to_nat nx)%nat -> in_bin_end (- PI) PI nx k phi -> ch_i nx phi = Z.of_nat k.
Proof.
  intros N K B. pose proof PI_RGT_0 as Pp. unfold ch_i. destruct B as [B|[B ->]].
  - apply (in_bin_floor (- PI) PI nx k) in B; [|lra|exact N]. replace (IZR nx * (phi / (2 * PI) + 5 / 10)) with ((phi - - PI) * IZR nx / (PI - - PI)) by (field; lra). rewrite B. unfold cut. destruct (Z.leb_spec nx (Z.of_nat k)); [lia|]. destruct (Z.ltb_spec (Z.of_nat k) 0); lia.
  - replace (IZR nx * (PI / (2 * PI) + 5 / 10)) with (IZR nx) by (field; lra). rewrite floor_IZR. unfold cut. rewrite Z.leb_refl. lia.
Qed.
(** the latitude: the half of a channel further *)
Lemma ch_j_bin ny theta k : (0 < ny)%Z -> (k < Z.to_nat ny)%nat -> theta <= PI / 2 -> - (PI / 2) + PI * (INR k - 1 / 2) / IZR ny <= theta -> theta < - (PI / 2) + PI * (INR k + 1 / 2) / IZR ny \/ Z.of_nat k = (ny - 1)%Z -> ch_j ny theta = Z.of_nat k.
Proof.
  intros N K T A B. pose proof PI_RGT_0 as Pp. assert (Nn : 0 < IZR ny) by (apply IZR_lt; lia). unfold ch_j. set (w := IZR ny * (theta + PI / 2) / PI). rewrite INR_IZR_INZ in *. set (x := IZR (Z.of_nat k)) in *.
  assert (W : w * PI = IZR ny * (theta + PI / 2)) by (unfold w; field; lra). assert (A' : x - 1 / 2 <= w). { assert (E : IZR ny * (PI * (x - 1 / 2) / IZR ny) = PI * (x - 1 / 2)) by (field; lra). apply (Rmult_le_reg_r PI); [lra|]. rewrite W. set (u := PI * (x - 1 / 2) / IZR ny) in *. nra. }
  destruct (floor_bounds (w + 5 / 10)) as [F1 F2]. destruct B as [B|B].
  - assert (B' : w < x + 1 / 2). { assert (E : IZR ny * (PI * (x + 1 / 2) / IZR ny) = PI * (x + 1 / 2)) by (field; lra). apply (Rmult_lt_reg_r PI); [lra|]. rewrite W. set (u := PI * (x + 1 / 2) / IZR ny) in *. nra. }
    rewrite (floor_unique (w + 5 / 10) (Z.of_nat k)) by (fold x; lra). unfold cut. destruct (Z.leb_spec ny (Z.of_nat k)); [lia|]. destruct (Z.ltb_spec (Z.of_nat k) 0); lia.
  - assert (Z.of_nat k <= floorZ (w + 5 / 10))%Z. { apply Z.lt_succ_r, lt_IZR. rewrite succ_IZR. fold x. lra. } assert (Wn : w <= IZR ny) by nra.
    assert (floorZ (w + 5 / 10) < ny + 1)%Z by (apply lt_IZR; rewrite plus_IZR; lra). unfold cut. destruct (Z.leb_spec ny (floorZ (w + 5 / 10))); [lia|]. destruct (Z.ltb_spec (floorZ (w + 5 / 10)) 0); lia.
Qed.
Lemma latitude_asin R0 r s theta : 0 < R0 -> latitude R0 r s theta -> asin (vy (on_line (r_pos r) (r_vel r) s) / R0) = theta.
Proof. intros P [B E]. rewrite E. replace (R0 * sin theta / R0) with (sin theta) by (field; lra). apply asin_sin. lra. Qed.
