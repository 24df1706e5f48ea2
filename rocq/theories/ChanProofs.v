(** Proofs for C30. *)
From Coq Require Import Reals Lra Psatz.
From Verif Require Import Base StorageModel StorageSpec RotModel RotSpec DetModel DetSpec DetProofs DetProps ChanModel ChanSpec.
From Coq Require Import ZifyBool.
Open Scope R_scope.

Lemma floor_bounds x : IZR (floorZ x) <= x < IZR (floorZ x) + 1.
Proof. unfold floorZ. destruct (base_Int_part x). lra. Qed.
Lemma floor_unique x k : IZR k <= x < IZR k + 1 -> floorZ x = k.
Proof.
  intros [A B]. destruct (floor_bounds x) as [C D].
  assert (IZR k < IZR (floorZ x) + 1) by lra. assert (IZR (floorZ x) < IZR k + 1) by lra.
  rewrite <- plus_IZR in H, H0. apply lt_IZR in H. apply lt_IZR in H0. lia.
Qed.
Lemma floor_iff x k : floorZ x = k <-> IZR k <= x < IZR k + 1.
Proof. split; [intros <-; apply floor_bounds|apply floor_unique]. Qed.
Lemma floor_IZR k : floorZ (IZR k) = k.
Proof. apply floor_unique. lra. Qed.
Lemma trunc_IZR k : truncZ (IZR k) = k.
Proof.
  unfold truncZ. destruct (Rlt_dec (IZR k) 0); [|apply floor_IZR].
  rewrite <- opp_IZR, floor_IZR. lia.
Qed.
Lemma trunc_nonneg x : 0 <= x -> truncZ x = floorZ x.
Proof. intros H. unfold truncZ. destruct (Rlt_dec x 0); [lra|reflexivity]. Qed.
Lemma floor_nonneg x : 0 <= x -> (0 <= floorZ x)%Z.
Proof. intros H. destruct (floor_bounds x). assert (IZR (-1) < IZR (floorZ x)) by lra. apply lt_IZR in H2. lia. Qed.
Lemma floor_lt x k : x < IZR k -> (floorZ x < k)%Z.
Proof. intros H. destruct (floor_bounds x). apply lt_IZR. lra. Qed.
Lemma floor_ge x k : IZR k <= x -> (k <= floorZ x)%Z.
Proof. intros H. destruct (floor_bounds x). assert (IZR k < IZR (floorZ x + 1)) by (rewrite plus_IZR; lra). apply lt_IZR in H2. lia. Qed.

Lemma Rleb_true a b : Rleb a b = true <-> a <= b.
Proof. unfold Rleb. destruct (Rle_dec a b); split; intros; try discriminate; auto; contradiction. Qed.
Lemma Rleb_false a b : Rleb a b = false <-> b < a.
Proof. unfold Rleb. destruct (Rle_dec a b); split; intros; try discriminate; auto; lra. Qed.
Lemma Rltb_t a b : Rltb a b = true <-> a < b.
Proof. unfold Rltb. destruct (Rlt_dec a b); split; intros; try discriminate; auto; contradiction. Qed.
Lemma Rltb_f a b : Rltb a b = false <-> b <= a.
Proof. unfold Rltb. destruct (Rlt_dec a b); split; intros; try discriminate; auto; lra. Qed.

Lemma cint_ok x k : truncZ x = k -> (- 2 ^ 31 <= k < 2 ^ 31)%Z -> cint x = Ok k.
Proof.
  intros E H. unfold cint. rewrite E.
  replace ((- 2 ^ 31 <=? k) && (k <? 2 ^ 31))%Z%bool with true by lia. reflexivity.
Qed.
Lemma cint_bad x k : truncZ x = k -> ~ (- 2 ^ 31 <= k < 2 ^ 31)%Z -> cint x = Err UndefinedBehaviour.
Proof.
  intros E H. unfold cint. rewrite E.
  replace ((- 2 ^ 31 <=? k) && (k <? 2 ^ 31))%Z%bool with false by lia. reflexivity.
Qed.

(** ** time *)
Lemma tof_out c t : ~ (tofmin c <= t < tofmax c) -> tof_channel c t = Ok (-1)%Z.
Proof.
  intros H. unfold tof_channel.
  destruct (Rltb t (tofmin c)) eqn:A; [reflexivity|]. apply Rltb_f in A.
  destruct (Rleb (tofmax c) t) eqn:B; [reflexivity|]. apply Rleb_false in B. lra.
Qed.
Lemma tof_in c t : 0 < tofstep c -> tofmin c <= t < tofmax c ->
  let k := floorZ ((t - tofmin c) / tofstep c) in
  (0 <= k)%Z /\ tofmin c + IZR k * tofstep c <= t < tofmin c + (IZR k + 1) * tofstep c /\
  tof_channel c t = if (k <? 2 ^ 31)%Z then Ok k else Err UndefinedBehaviour.
Proof.
  intros S H k.
  assert (N : 0 <= (t - tofmin c) / tofstep c) by (apply Rmult_le_pos; [lra|left; apply Rinv_0_lt_compat; assumption]).
  assert (K0 : (0 <= k)%Z) by (apply floor_nonneg; assumption).
  split; [assumption|]. split.
  - destruct (floor_bounds ((t - tofmin c) / tofstep c)) as [A B]. fold k in A, B.
    assert (E : t - tofmin c = (t - tofmin c) / tofstep c * tofstep c) by (field; lra).
    split.
    + assert (IZR k * tofstep c <= (t - tofmin c) / tofstep c * tofstep c) by (apply Rmult_le_compat_r; lra). lra.
    + assert ((t - tofmin c) / tofstep c * tofstep c < (IZR k + 1) * tofstep c) by (apply Rmult_lt_compat_r; lra). lra.
  - unfold tof_channel. replace (Rltb t (tofmin c)) with false by (symmetry; apply Rltb_f; lra).
    replace (Rleb (tofmax c) t) with false by (symmetry; apply Rleb_false; lra). cbn [orb].
    destruct (k <? 2 ^ 31)%Z eqn:E.
    + apply cint_ok; [rewrite trunc_nonneg by assumption; reflexivity|lia].
    + eapply cint_bad; [rewrite trunc_nonneg by assumption; reflexivity|]. fold k. lia.
Qed.

Lemma slots_disjoint a s k k' t : 0 < s -> a + IZR k * s <= t < a + (IZR k + 1) * s ->
  a + IZR k' * s <= t < a + (IZR k' + 1) * s -> k = k'.
Proof.
  intros S A B.
  assert (IZR k * s < (IZR k' + 1) * s) by lra. assert (IZR k' * s < (IZR k + 1) * s) by lra.
  apply Rmult_lt_reg_r in H; [|assumption]. apply Rmult_lt_reg_r in H0; [|assumption].
  rewrite <- plus_IZR in H, H0. apply lt_IZR in H. apply lt_IZR in H0. lia.
Qed.

(** ** position *)
Lemma z_channel_spec c r : 0 < pixelheight c -> (0 < npixels c < 2 ^ 31)%Z ->
  let z := sdot (vsub r (channel0Coords c)) (axisDirection c) in
  Rabs (z / pixelheight c) <= 2 ^ 30 ->
  exists k, z_channel c r = Ok k /\
    ((k = (-1)%Z /\ (z < - pixelheight c / 2 \/ (IZR (npixels c) - / 2) * pixelheight c <= z)) \/
     ((0 <= k < npixels c)%Z /\ (IZR k - / 2) * pixelheight c <= z < (IZR k + / 2) * pixelheight c)).
Proof.
  intros H N z B. unfold z_channel. change (vdot (vsub r (channel0Coords c)) (axisDirection c)) with z.
  set (x := z / pixelheight c) in *. set (m := floorZ (x + / 2)).
  assert (Ez : z = x * pixelheight c) by (unfold x; field; lra).
  destruct (floor_bounds (x + / 2)) as [F1 F2]. fold m in F1, F2.
  assert (Bx : - 2 ^ 30 <= x <= 2 ^ 30) by (revert B; unfold Rabs; destruct (Rcase_abs x); lra).
  assert (P30 : 2 ^ 30 = IZR (2 ^ 30)) by exact (pow_IZR 2 30).
  rewrite P30 in Bx.
  assert (M1 : (m < 2 ^ 30 + 1)%Z) by (apply lt_IZR; rewrite plus_IZR; lra).
  assert (M2 : (- 2 ^ 30 - 1 < m)%Z) by (apply lt_IZR; rewrite minus_IZR, opp_IZR; lra).
  rewrite (cint_ok (IZR m) m) by (apply trunc_IZR || lia). cbn [bind].
  destruct ((m <? 0) || (npixels c <=? m))%Z%bool eqn:E.
  - exists (-1)%Z. split; [reflexivity|]. left. split; [reflexivity|].
    apply orb_true_iff in E. destruct E as [E|E].
    + left. assert (m <= -1)%Z by lia. apply IZR_le in H0. rewrite Ez. nra.
    + right. assert (npixels c <= m)%Z by lia. apply IZR_le in H0. rewrite Ez. apply Rmult_le_compat_r; lra.
  - exists m. split; [reflexivity|]. right. split; [lia|]. rewrite Ez. split.
    + apply Rmult_le_compat_r; lra.
    + apply Rmult_lt_compat_r; lra.
Qed.

(** ** rows of pixels *)
Lemma last_row p s n d : (0 < n)%nat -> last (row_of_pixels p s n) d = displaced p s (INR (n - 1)).
Proof.
  intros H. destruct n as [|n]; [lia|]. unfold row_of_pixels. rewrite seq_S, map_app. cbn [map].
  rewrite last_last. f_equal. f_equal. lia.
Qed.
Lemma row_head p s n : row_of_pixels p s (S n) = displaced p s 0 :: map (fun k => displaced p s (INR k)) (seq 1 n).
Proof. reflexivity. Qed.
Lemma displaced_0 p s : displaced p s 0 = p.
Proof. destruct p. unfold displaced. cbn. f_equal; ring. Qed.

Lemma tube_channel p s n : (2 <= n)%nat -> 0 < norm2 s ->
  exists c, tube_z2channel (row_of_pixels p s n) = Ok c /\ npixels c = Z.of_nat n /\ channel0Coords c = p /\
    0 < pixelheight c /\ pixelheight c = sqrt (norm2 s) /\
    forall r, sdot (vsub r p) (axisDirection c) = along p s r * pixelheight c.
Proof.
  intros N Sp. destruct n as [|n]; [lia|].
  set (m := INR n). assert (M : 0 < m) by (apply lt_0_INR; lia).
  assert (Q : 0 < sqrt (norm2 s)) by (apply sqrt_lt_R0; assumption).
  assert (E : tube_z2channel (row_of_pixels p s (S n)) =
     new_z2channel (vnorm (vsub (displaced p s m) p) * IZR (Z.of_nat (S n)) / IZR (Z.of_nat (S n) - 1)) (Z.of_nat (S n))
                   (vdiv (vsub (displaced p s m) p) (vnorm (vsub (displaced p s m) p))) p).
  { unfold tube_z2channel. rewrite row_head.
    replace (Z.of_nat (List.length (displaced p s 0 :: map (fun k => displaced p s (INR k)) (seq 1 n)))) with (Z.of_nat (S n))
      by (cbn [List.length]; rewrite map_length, seq_length; reflexivity).
    rewrite <- row_head, last_row by lia. rewrite displaced_0. replace (S n - 1)%nat with n by lia. fold m.
    replace (Z.of_nat (S n) =? 1)%Z with false by lia. reflexivity. }
  assert (V : vsub (displaced p s m) p = mkV (m * vx s) (m * vy s) (m * vz s)).
  { unfold vsub, displaced. cbn. f_equal; ring. }
  assert (L : vnorm (vsub (displaced p s m) p) = m * sqrt (norm2 s)).
  { rewrite V. unfold vnorm, vdot. cbn [vx vy vz].
    replace (m * vx s * (m * vx s) + m * vy s * (m * vy s) + m * vz s * (m * vz s)) with ((m * m) * norm2 s)
      by (unfold norm2, sdot; ring).
    rewrite sqrt_mult by nra. rewrite sqrt_square by lra. reflexivity. }
  assert (Em : IZR (Z.of_nat (S n) - 1) = m) by (unfold m; rewrite INR_IZR_INZ; f_equal; lia).
  assert (En : IZR (Z.of_nat (S n)) = m + 1) by (rewrite <- INR_IZR_INZ, S_INR; reflexivity).
  rewrite L, Em, En in E.
  set (len := m * sqrt (norm2 s) * (m + 1) / m) in E.
  assert (El : len = sqrt (norm2 s) * (m + 1)) by (unfold len; field; lra).
  assert (Hl : 0 < len) by (rewrite El; apply Rmult_lt_0_compat; lra).
  unfold new_z2channel in E. replace (Rleb len 0) with false in E by (symmetry; apply Rleb_false; assumption).
  replace (Z.of_nat (S n) =? 0)%Z with false in E by lia.
  eexists. split; [exact E|]. cbn [npixels channel0Coords pixelheight axisDirection].
  assert (Eh : len / IZR (Z.of_nat (S n)) = sqrt (norm2 s)) by (rewrite El, En; field; lra).
  rewrite Eh.
  split; [reflexivity|]. split; [reflexivity|]. split; [assumption|]. split; [reflexivity|].
  intros r. rewrite V. unfold vdiv, sdot. cbn [vx vy vz]. unfold along.
  assert (Es : norm2 s = sqrt (norm2 s) * sqrt (norm2 s)) by (symmetry; apply sqrt_sqrt; lra).
  assert (R1 : sdot (vsub r p) s / norm2 s * sqrt (norm2 s) = sdot (vsub r p) s / sqrt (norm2 s)).
  { rewrite Es at 1. field. lra. }
  rewrite R1. unfold sdot, vsub. cbn [vx vy vz]. field. lra.
Qed.

(** distance to the pixel centres *)
Lemma dist_pixels p s r j k : norm2 s <> 0 ->
  dist2 r (displaced p s j) - dist2 r (displaced p s k) = norm2 s * (j - k) * (j + k - 2 * along p s r).
Proof.
  intros N. unfold along.
  replace (norm2 s * (j - k) * (j + k - 2 * (sdot (vsub r p) s / norm2 s)))
    with ((j - k) * ((j + k) * norm2 s - 2 * sdot (vsub r p) s)) by (field; assumption).
  unfold dist2, displaced, norm2, sdot, vsub. cbn [vx vy vz]. ring.
Qed.
