(** Proofs for C45: lengths and structure factors of equivalent reflections. *)
From Coq Require Import Reals Lra Lia Psatz Sorting.Permutation.
From Verif Require Import Base RotModel RotSpec RotProofs ChanModel ChanProofs ShapeModel ShapeSpec ShapeProofs PeakModel PeakSpec PeakProofs PeakProofs2.
Open Scope R_scope.

(** Orthogonal cells are pruned rightly. *)
Lemma ortho_len m h k l : orthogonal_cell m -> sqlen m (h, k, l) = IZR h * IZR h * inner (col0 m) (col0 m) + IZR k * IZR k * inner (col1 m) (col1 m) + IZR l * IZR l * inner (col2 m) (col2 m).
Proof.
  intros (A & B & C). replace (sqlen m (h, k, l)) with (IZR h * IZR h * inner (col0 m) (col0 m) + IZR k * IZR k * inner (col1 m) (col1 m) + IZR l * IZR l * inner (col2 m) (col2 m)
    + 2 * IZR h * IZR k * inner (col0 m) (col1 m) + 2 * IZR h * IZR l * inner (col0 m) (col2 m) + 2 * IZR k * IZR l * inner (col1 m) (col2 m)) by (unfold sqlen, inner, point, col0, col1, col2; cbn; ring). rewrite A, B, C. ring.
Qed.
Lemma spaced_mono m dmin v w : sqlen m w <= sqlen m v -> spaced m dmin v -> spaced m dmin w.
Proof.
  unfold spaced. destruct dmin as [d|]; [|tauto]. intros L H. pose proof (sqrt_le_1 _ _ (sqlen_nonneg m w) (sqlen_nonneg m v) L) as S. pose proof (sqrt_pos (sqlen m w)). destruct (Rle_lt_dec 0 d); nra.
Qed.
Lemma ortho_reached m dmin lo hi h k l : orthogonal_cell m ->
  reached m dmin lo hi (h, k, l) <-> (lo <= h <= hi)%Z /\ (lo <= k <= hi)%Z /\ (lo <= l <= hi)%Z /\ (h, k, l) <> (0, 0, 0)%Z /\ spaced m dmin (h, k, l).
Proof.
  intros O'. unfold reached. split; [tauto|]. intros (A & B & C & D & E). repeat (split; [assumption|]).
  assert (N : forall c : vec3, 0 <= inner c c) by (intros c; unfold inner; nra). pose proof (N (col0 m)). pose proof (N (col1 m)). pose proof (N (col2 m)).
  assert (Q : forall z c, 0 <= c -> 0 <= IZR z * IZR z * c) by (intros z c Hc; apply Rmult_le_pos; [nra|exact Hc]).
  split; apply (spaced_mono m dmin (h, k, l)); try exact E; rewrite !ortho_len by exact O'; pose proof (Q h _ H); pose proof (Q k _ H0); pose proof (Q l _ H1); lra.
Qed.

(** Matrices. *)
Lemma inverse_swap x y : matmul x y = I3 -> matmul y x = I3.
Proof.
  intros H. assert (D : RotSpec.det x * RotSpec.det y = 1) by (rewrite <- det_matmul, H; unfold RotSpec.det, I3; cbn; ring). assert (Dx : RotSpec.det x <> 0) by nra.
  set (z := matmul (kmat (/ RotSpec.det x)) (adj x)). assert (L : matmul z x = I3).
  { unfold z. rewrite <- matmul_assoc. replace (matmul (adj x) x) with (kmat (RotSpec.det x)) by (destruct x; unfold RotSpec.det, matmul, adj, kmat; cbn; apply mkM_eq; ring).
    unfold kmat, matmul, I3. cbn. apply mkM_eq; field; exact Dx. }
  assert (E : y = z). { rewrite <- (matmul_I_l y), <- L, <- matmul_assoc, H. apply matmul_I_r. } rewrite E. exact L.
Qed.
Definition cellmat (a b c : vec3) : mat3 := mkM (vx a) (vx b) (vx c) (vy a) (vy b) (vy c) (vz a) (vz b) (vz c).
Definition realm (m : imat) : mat3 := let '((a, b, c), (d, e, f), (g, i, j)) := m in mkM (IZR a) (IZR b) (IZR c) (IZR d) (IZR e) (IZR f) (IZR g) (IZR i) (IZR j).
Lemma place_is a b c x : place a b c x = dot_mv (cellmat a b c) x.
Proof. unfold place, cellmat, dot_mv. cbn. f_equal; ring. Qed.
Lemma fractional_is m x : fractional m x = dot_mv (realm m) x.
Proof. destruct m as [[[[p q] r] [[s t] u]] [[v w] y]]. reflexivity. Qed.
Lemma dual_is a b c m : dual_cell a b c m -> matmul (transpose (cellmat a b c)) m = I3.
Proof. intros (A1 & A2 & A3 & A4 & A5 & A6 & A7 & A8 & A9). unfold inner, col0, col1, col2 in *. cbn in *. unfold matmul, transpose, cellmat, I3. cbn. apply mkM_eq; assumption. Qed.
Lemma timage_is m v w : timage m v w -> realv w = dot_mv (transpose (realm m)) (realv v).
Proof.
  destruct m as [[[[a b] c] [[d e] f]] [[g i] j]], v as [[h k] l]. cbn [timage]. intros ->. unfold realv, dot_mv, transpose, realm. cbn [vx vy vz m00 m01 m02 m10 m11 m12 m20 m21 m22]. rewrite !plus_IZR, !mult_IZR. reflexivity.
Qed.
Lemma inner_sdot a b : inner a b = sdot a b. Proof. reflexivity. Qed.

Lemma norm_orth m : (forall x, sdot (dot_mv m x) (dot_mv m x) = sdot x x) -> orthogonal m.
Proof.
  intros H a b. pose proof (H (vadd a b)) as A. pose proof (H a) as B. pose proof (H b) as C. destruct a as [a1 a2 a3], b as [b1 b2 b3]. unfold sdot, dot_mv, vadd in *. cbn [vx vy vz] in *. lra.
Qed.
Lemma transposed_length a b c recb m v w : dual_cell a b c recb -> isometry a b c m -> timage m v w -> sqlen recb w = sqlen recb v.
Proof.
  intros D I T. apply dual_is in D. apply timage_is in T. set (A := cellmat a b c) in *. set (P := realm m) in *.
  assert (D2 : matmul A (transpose recb) = I3).
  { apply inverse_swap in D. rewrite <- (transpose_inv A), <- transpose_matmul, D. reflexivity. }
  set (Q := matmul A (matmul P (transpose recb))). assert (OQ : orthogonal Q).
  { apply norm_orth. intros x. unfold Q. rewrite !dot_matmul. specialize (I (dot_mv (transpose recb) x)). rewrite !inner_sdot, !fractional_is, !place_is in I. fold A P in I. rewrite I, <- dot_matmul, D2, dot_I. reflexivity. }
  apply orth_transpose in OQ. change (sdot (point recb w) (point recb w) = sdot (point recb v) (point recb v)). rewrite <- (point_is recb w), <- (point_is recb v), T. rewrite <- (OQ (dot_mv recb (realv v)) (dot_mv recb (realv v))).
  assert (E : dot_mv (transpose Q) (dot_mv recb (realv v)) = dot_mv recb (dot_mv (transpose P) (realv v))).
  { unfold Q. rewrite !transpose_matmul, transpose_inv, <- !dot_matmul. rewrite <- (matmul_assoc _ (transpose A) recb), D, matmul_I_r. reflexivity. }
  rewrite E. reflexivity.
Qed.

(** Structure factors: rotated by a phase. *)
Lemma cos_turn x (k : Z) : cos (x + 2 * PI * IZR k) = cos x /\ sin (x + 2 * PI * IZR k) = sin x.
Proof.
  assert (P : forall (n : nat) y, cos (y + 2 * PI * INR n) = cos y /\ sin (y + 2 * PI * INR n) = sin y).
  { intros n y. replace (y + 2 * PI * INR n) with (y + 2 * INR n * PI) by ring. split; [apply cos_period|apply sin_period]. }
  destruct (Z_le_gt_dec 0 k) as [G|G].
  - rewrite <- (Z2Nat.id k) by exact G. rewrite <- INR_IZR_INZ. apply P.
  - set (n := Z.to_nat (- k)). assert (E : IZR k = - INR n) by (unfold n; rewrite INR_IZR_INZ, Z2Nat.id by lia; rewrite opp_IZR; ring). rewrite E. destruct (P n (x + 2 * PI * - INR n)) as [A B].
    replace (x + 2 * PI * - INR n + 2 * PI * INR n) with x in A, B by ring. split; symmetry; assumption.
Qed.
Lemma phase_moved m t v w x y : timage m v w -> shifted m t x y -> exists k : Z, phase w x = phase v y + - phase v t + 2 * PI * IZR k.
Proof.
  destruct m as [[[[a b] c] [[d e] f]] [[g i] j]], v as [[h k] l]. cbn [timage]. intros -> (p & q & r & ->). exists (- (h * p + k * q + l * r))%Z. unfold phase, fractional. cbn [vx vy vz].
  rewrite opp_IZR, !plus_IZR, !mult_IZR. ring.
Qed.
Lemma same_terms m t recb v w l l' : timage m v w -> sqlen recb w = sqlen recb v -> Forall2 (same_kind m t) l l' ->
  factor_re recb l w = cos (phase v t) * factor_re recb l' v + sin (phase v t) * factor_im recb l' v /\
  factor_im recb l w = cos (phase v t) * factor_im recb l' v - sin (phase v t) * factor_re recb l' v.
Proof.
  intros T L F. induction F as [|a a' l l' K F [IH1 IH2]]; [unfold factor_re, factor_im; cbn; split; ring|].
  destruct a as [[[o b] B] x], a' as [[[o' b'] B'] x']. cbn in K. destruct K as (<- & <- & <- & Sh). unfold factor_re, factor_im, sum in *. cbn [map fold_right site_weight]. rewrite IH1, IH2, L.
  destruct (phase_moved m t v w x x' T Sh) as [k E]. rewrite E. destruct (cos_turn (phase v x' + - phase v t) k) as [-> ->]. rewrite cos_plus, sin_plus, cos_neg, sin_neg. split; ring.
Qed.
Lemma sum_perm {A} (f : A -> R) l l' : Permutation l l' -> sum (map f l) = sum (map f l').
Proof. unfold sum. induction 1; cbn [map fold_right] in *; lra. Qed.
Lemma transposed_factor a b c recb l m v w : dual_cell a b c recb -> isometry a b c m -> (exists t, carries m t l) -> timage m v w -> factor_sq recb l w = factor_sq recb l v.
Proof.
  intros D I [t [l' [F P]]] T. pose proof (transposed_length a b c recb m v w D I T) as L. destruct (same_terms m t recb v w l l' T L F) as [A B].
  assert (Re : factor_re recb l' v = factor_re recb l v) by (apply sum_perm; exact P). assert (Im : factor_im recb l' v = factor_im recb l v) by (apply sum_perm; exact P).
  unfold factor_sq. rewrite A, B, Re, Im. pose proof (sin2_cos2 (phase v t)) as S. unfold Rsqr in S. set (cc := cos _) in *. set (ss := sin _) in *.
  replace ((cc * factor_re recb l v + ss * factor_im recb l v) * (cc * factor_re recb l v + ss * factor_im recb l v) + (cc * factor_im recb l v - ss * factor_re recb l v) * (cc * factor_im recb l v - ss * factor_re recb l v))
    with ((ss * ss + cc * cc) * (factor_re recb l v * factor_re recb l v + factor_im recb l v * factor_im recb l v)) by ring. rewrite S. ring.
Qed.
Lemma flip_image m v w : image m v w <-> timage (flip m) v w.
Proof. destruct m as [[[[a b] c] [[d e] f]] [[g i] j]], v as [[h k] l]. cbn. tauto. Qed.
Lemma closed_same a b c recb l ops v w : symmetric_structure a b c recb l ops -> (forall m, In m ops -> In (flip m) ops) -> related ops v w -> sqlen recb w = sqlen recb v /\ factor_sq recb l w = factor_sq recb l v.
Proof.
  intros [D S] C [m [Hm Im]]. destruct (S _ (C m Hm)) as [I K]. apply flip_image in Im. split; [apply (transposed_length a b c recb (flip m)); assumption|apply (transposed_factor a b c recb l (flip m)); assumption].
Qed.

(** The powder list of a structure whose operations are closed under transposition. *)
Lemma dual_det a b c recb : dual_cell a b c recb -> PeakSpec.det recb <> 0.
Proof. intros D. apply dual_is in D. intros Z. assert (E : RotSpec.det (matmul (transpose (cellmat a b c)) recb) = 1) by (rewrite D; unfold RotSpec.det, I3; cbn; ring). rewrite det_matmul in E. change (RotSpec.det recb) with (PeakSpec.det recb) in E. rewrite Z in E. lra. Qed.
Lemma powder_complete s a b c n dmin : symmetric_structure a b c (recbase s) (sites s) (symops s) -> (forall m, In m (symops s) -> In (flip m) (symops s)) -> group_like (symops s) ->
  (forall v, reached (recbase s) dmin 0 n v -> small_orbit (symops s) v) ->
  exists ps, iter_peaks s n dmin Powder = Ok ps /\
    (forall v, bright (recbase s) (sites s) v -> (exists u, related (symops s) v u /\ reached (recbase s) dmin 0 n u) ->
       exists! p, In p ps /\ related (symops s) v (p_hkl p) /\ p_q p = 2 * PI * sqrt (sqlen (recbase s) v) /\ p_F2 p = factor_sq (recbase s) (sites s) v / 100 /\ orbit_size (symops s) v (p_mult p)).
Proof.
  intros Y C G S. pose proof (dual_det _ _ _ _ (proj1 Y)) as D. destruct (powder_peaks s n dmin D G S) as (ps & A & ND & EN & RE & U & CV).
  destruct (powder_once s n dmin D G S) as (ps' & A' & X). { intros v w R Bv. unfold bright in *. destruct (closed_same a b c _ _ _ v w Y C R) as [_ ->]. exact Bv. }
  rewrite A in A'. injection A' as <-. exists ps. split; [exact A|]. intros v Bv Hu. destruct (X v Bv Hu) as [p [[Ip Rp] Up]]. exists p. split.
  - split; [exact Ip|]. split; [exact Rp|]. destruct (EN p Ip) as (_ & E2 & _ & E4 & E5). destruct (closed_same a b c _ _ _ v (p_hkl p) Y C Rp) as [L F]. rewrite E2, E4, L, F. split; [reflexivity|]. split; [reflexivity|].
    assert (Sp : small_orbit (symops s) (p_hkl p)) by (apply S; apply RE; apply in_map; exact Ip). destruct (E5 Sp) as (l & N1 & N2 & N3). exists l. split; [exact N1|]. split; [|exact N3]. intros w. rewrite N2. destruct G as (_ & Tr & Sy).
    split; intros H; [apply (Tr v (p_hkl p) w Rp H)|apply (Tr (p_hkl p) v w (Sy _ _ Rp) H)].
  - intros p' (Ip' & Rp' & _). apply Up. split; assumption.
Qed.

(** The lengths of .laz files. *)
Lemma sqrt_eq_iff x y : 0 <= x -> 0 <= y -> sqrt x = sqrt y <-> x = y.
Proof. intros A B. split; [apply sqrt_inj; assumption|intros ->; reflexivity]. Qed.
Lemma laz_iff m : (forall v, laz_q m v = q_of m v) <-> matmul m (transpose m) = matmul (transpose m) m.
Proof.
  pose proof PI_RGT_0 as P. assert (E : forall v, laz_q m v = q_of m v <-> sqlen (transpose m) v = sqlen m v).
  { intros v. rewrite laz_is, q_is. rewrite <- (sqrt_eq_iff _ _ (sqlen_nonneg (transpose m) v) (sqlen_nonneg m v)). split; [intros H; apply Rmult_eq_reg_l with (2 * PI); [exact H|lra]|intros ->; reflexivity]. }
  split.
  - intros H. assert (K : forall v, sqlen (transpose m) v = sqlen m v) by (intros v; apply E; apply H). destruct m as [a b c d e f g i j].
    pose proof (K (1, 0, 0)%Z) as K1. pose proof (K (0, 1, 0)%Z) as K2. pose proof (K (0, 0, 1)%Z) as K3. pose proof (K (1, 1, 0)%Z) as K4. pose proof (K (1, 0, 1)%Z) as K5. pose proof (K (0, 1, 1)%Z) as K6.
    unfold sqlen, inner, point, transpose in *. cbn in *. unfold matmul. cbn. apply mkM_eq; lra.
  - intros H v. apply E. destruct m as [a b c d e f g i j], v as [[h k] l]. unfold matmul, transpose in H. cbn in H. injection H as H1 H2 H3 H4 H5 H6 H7 H8 H9.
    unfold sqlen, inner, point, transpose. cbn.
    transitivity (IZR h * IZR h * (a * a + b * b + c * c) + IZR k * IZR k * (d * d + e * e + f * f) + IZR l * IZR l * (g * g + i * i + j * j) + 2 * IZR h * IZR k * (a * d + b * e + c * f) + 2 * IZR h * IZR l * (a * g + b * i + c * j) + 2 * IZR k * IZR l * (d * g + e * i + f * j)); [ring|].
    rewrite H1, H2, H3, H5, H6, H9. ring.
Qed.
Lemma laz_upper m : m10 m = 0 -> m20 m = 0 -> m21 m = 0 -> (forall v, laz_q m v = q_of m v) <-> m01 m = 0 /\ m02 m = 0 /\ m12 m = 0.
Proof.
  intros A B C. rewrite laz_iff. destruct m as [a b c d e f g i j]. cbn in *. subst. unfold matmul, transpose. cbn. split.
  - intros H. injection H as H1 H2 H3 H4 H5 H6 H7 H8 H9. assert (b = 0) by nra. assert (c = 0) by nra. assert (f = 0) by nra. tauto.
  - intros (-> & -> & ->). apply mkM_eq; ring.
Qed.
