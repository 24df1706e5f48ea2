(** Specification vocabulary for the peaks of a structure (C45); only the records of PeakModel.v are used, none of its functions. *)
From Coq Require Import Reals Sorting.Permutation.
From Verif Require Import Base RotModel PeakModel.
Open Scope R_scope.

(** Reflections and matrices with integer entries, by rows. *)
Definition refl := (Z * Z * Z)%type.
Definition imat := ((Z * Z * Z) * (Z * Z * Z) * (Z * Z * Z))%type.
Definition image (m : imat) (v w : refl) : Prop :=
  let '((a, b, c), (d, e, f), (g, i, j)) := m in let '(h, k, l) := v in w = (a * h + b * k + c * l, d * h + e * k + f * l, g * h + i * k + j * l)%Z.
Definition timage (m : imat) (v w : refl) : Prop :=
  let '((a, b, c), (d, e, f), (g, i, j)) := m in let '(h, k, l) := v in w = (a * h + d * k + g * l, b * h + e * k + i * l, c * h + f * k + j * l)%Z.
(** The orbit of a reflection. *)
Definition related (ops : list imat) (v w : refl) : Prop := exists m, In m ops /\ image m v w.
Definition within_index (n : Z) (v : refl) : Prop := let '(h, k, l) := v in (Z.abs h <= n /\ Z.abs k <= n /\ Z.abs l <= n)%Z.
(** Operations whose images contain the reflection itself, and are closed under composition and reversal. *)
Definition group_like (ops : list imat) : Prop :=
  (forall v, related ops v v) /\ (forall u v w, related ops u v -> related ops v w -> related ops u w) /\ (forall u v, related ops u v -> related ops v u).

(** The columns of a matrix, and the point h a* + k b* + l c* of a reflection. *)
Definition col0 (m : mat3) : vec3 := mkV (m00 m) (m10 m) (m20 m).
Definition col1 (m : mat3) : vec3 := mkV (m01 m) (m11 m) (m21 m).
Definition col2 (m : mat3) : vec3 := mkV (m02 m) (m12 m) (m22 m).
Definition inner (a b : vec3) : R := vx a * vx b + vy a * vy b + vz a * vz b.
Definition point (m : mat3) (v : refl) : vec3 :=
  let '(h, k, l) := v in
  mkV (IZR h * m00 m + IZR k * m01 m + IZR l * m02 m) (IZR h * m10 m + IZR k * m11 m + IZR l * m12 m) (IZR h * m20 m + IZR k * m21 m + IZR l * m22 m).
(** The square of its length. *)
Definition sqlen (m : mat3) (v : refl) : R := inner (point m v) (point m v).
Definition det (m : mat3) : R :=
  m00 m * (m11 m * m22 m - m12 m * m21 m) - m01 m * (m10 m * m22 m - m12 m * m20 m) + m02 m * (m10 m * m21 m - m11 m * m20 m).
Definition orthogonal_cell (m : mat3) : Prop := inner (col0 m) (col1 m) = 0 /\ inner (col0 m) (col2 m) = 0 /\ inner (col1 m) (col2 m) = 0.
(** Spacing at least d: no limit, or d^2 |tau|^2 <= 1. *)
Definition spaced (m : mat3) (dmin : option R) (v : refl) : Prop := match dmin with None => True | Some d => d * sqrt (sqlen m v) <= 1 end.

(** Structure factor: sum of o b exp(-B |tau|^2 / 4) exp(2 pi i h.x), its real and imaginary parts. *)
Definition sum (l : list R) : R := fold_right Rplus 0 l.
Definition phase (v : refl) (x : vec3) : R := let '(h, k, l) := v in 2 * PI * (IZR h * vx x + IZR k * vy x + IZR l * vz x).

(** Cells with rows a, b, c; [recb] has the reciprocal vectors (without 2 pi) in its columns. *)
Definition dual_cell (a b c : vec3) (recb : mat3) : Prop :=
  inner a (col0 recb) = 1 /\ inner a (col1 recb) = 0 /\ inner a (col2 recb) = 0 /\ inner b (col0 recb) = 0 /\ inner b (col1 recb) = 1 /\ inner b (col2 recb) = 0 /\
  inner c (col0 recb) = 0 /\ inner c (col1 recb) = 0 /\ inner c (col2 recb) = 1.
(** x a + y b + z c; a matrix of fractional coordinates that keeps lengths. *)
Definition place (a b c x : vec3) : vec3 := mkV (vx x * vx a + vy x * vx b + vz x * vx c) (vx x * vy a + vy x * vy b + vz x * vy c) (vx x * vz a + vy x * vz b + vz x * vz c).
Definition fractional (m : imat) (x : vec3) : vec3 :=
  let '((p, q, r), (s, t, u), (v, w, y)) := m in
  mkV (IZR p * vx x + IZR q * vy x + IZR r * vz x) (IZR s * vx x + IZR t * vy x + IZR u * vz x) (IZR v * vx x + IZR w * vy x + IZR y * vz x).
Definition isometry (a b c : vec3) (m : imat) : Prop := forall x, inner (place a b c (fractional m x)) (place a b c (fractional m x)) = inner (place a b c x) (place a b c x).

(** All images of a reflection have indices below 100000. *)
Definition small_orbit (ops : list imat) (v : refl) : Prop := forall w, related ops v w -> within_index 99999 w.
(** The number of different images. *)
Definition orbit_size (ops : list imat) (v : refl) (n : Z) : Prop := exists l, NoDup l /\ (forall w, In w l <-> related ops v w) /\ n = Z.of_nat (List.length l).
(** Atoms are (occupancy, scattering length, B, place). *)
Definition site := (R * R * R * vec3)%type.
Definition site_weight (m : mat3) (v : refl) (a : site) : R := let '(o, b, B, x) := a in o * b * exp (- (B * sqlen m v / 4)).
Definition factor_re (m : mat3) (l : list site) (v : refl) : R := sum (map (fun a => let '(o, b, B, x) := a in site_weight m v a * cos (phase v x)) l).
Definition factor_im (m : mat3) (l : list site) (v : refl) : R := sum (map (fun a => let '(o, b, B, x) := a in site_weight m v a * sin (phase v x)) l).
Definition factor_sq (m : mat3) (l : list site) (v : refl) : R := factor_re m l v * factor_re m l v + factor_im m l v * factor_im m l v.
(** |F| > 1e-7. *)
Definition bright (m : mat3) (l : list site) (v : refl) : Prop := 1 / 10 ^ 14 < factor_sq m l v.
(** The reflections the loops reach: indices from lo to hi. *)
Definition reached (m : mat3) (dmin : option R) (lo hi : Z) (v : refl) : Prop :=
  let '(h, k, l) := v in
  (lo <= h <= hi)%Z /\ (lo <= k <= hi)%Z /\ (lo <= l <= hi)%Z /\ v <> (0, 0, 0)%Z /\ spaced m dmin v /\ spaced m dmin (h, 0, 0)%Z /\ spaced m dmin (0, k, 0)%Z.

(** An operation x -> m x + t carries the atoms onto atoms of the same kind, up to lattice vectors. *)
Definition shifted (m : imat) (t x y : vec3) : Prop :=
  exists i j k : Z, y = mkV (vx (fractional m x) + vx t + IZR i) (vy (fractional m x) + vy t + IZR j) (vz (fractional m x) + vz t + IZR k).
Definition same_kind (m : imat) (t : vec3) (a a' : site) : Prop := let '(o, b, B, x) := a in let '(o', b', B', x') := a' in o = o' /\ b = b' /\ B = B' /\ shifted m t x x'.
Definition carries (m : imat) (t : vec3) (l : list site) : Prop := exists l', Forall2 (same_kind m t) l l' /\ Permutation l' l.
(** The operations of a structure: closed under transposition, each a symmetry of the cell and of the atoms. *)
Definition flip (m : imat) : imat := let '((a, b, c), (d, e, f), (g, i, j)) := m in ((a, d, g), (b, e, i), (c, f, j)).
Definition symmetric_structure (a b c : vec3) (recb : mat3) (l : list site) (ops : list imat) : Prop :=
  dual_cell a b c recb /\ (forall m, In m ops -> isometry a b c m /\ exists t, carries m t l).

(** The atoms of a structure; the numbers of a peak. *)
Definition sites (s : structure) : list site := map (fun a => (occupancy a, b_c a, B_T a, xyz a)) (atoms s).
Definition entry_ok (s : structure) (p : peak) : Prop :=
  p_d p = Some (1 / sqrt (sqlen (recbase s) (p_hkl p))) /\ p_q p = 2 * PI * sqrt (sqlen (recbase s) (p_hkl p)) /\
  p_F p = (factor_re (recbase s) (sites s) (p_hkl p), factor_im (recbase s) (sites s) (p_hkl p)) /\ p_F2 p = factor_sq (recbase s) (sites s) (p_hkl p) / 100 /\
  (small_orbit (symops s) (p_hkl p) -> orbit_size (symops s) (p_hkl p) (p_mult p)).
