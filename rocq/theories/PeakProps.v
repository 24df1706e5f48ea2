(** C45: the diffraction peaks of a structure. *)
From Coq Require Import Reals Lra Lia.
From Verif Require Import Base RotModel PeakModel PeakSpec PeakProofs PeakProofs2 PeakProofs3 PeakProofs4.
Open Scope R_scope.

(** The equivalents of a reflection: no duplicates, exactly its images. *)
Theorem C45_orbit : forall ops v, small_orbit ops v -> NoDup (equivalent_hkls v ops) /\ (forall w, In w (equivalent_hkls v ops) <-> related ops v w) /\ orbit_size ops v (multiplicity v ops).
Proof. intros ops v S. destruct (equivalents_ok ops v S) as [A B]. split; [exact A|]. split; [exact B|]. apply mult_is. exact S. Qed.
Print Assumptions C45_orbit.
Example C45_orbit_case : small_orbit six (2, -1, 3)%Z /\ multiplicity (2, -1, 3)%Z six = 6%Z /\ multiplicity (0, 0, 3)%Z six = 1%Z.
Proof.
  split; [|split; reflexivity]. intros w H. apply related_is in H. cbn in H. repeat (destruct H as [<-|H]; [cbn; lia|]). destruct H.
Qed.
(** Not so with indices of 100000 and more: numbers close by one part in 10^5 are taken as equal. *)
Theorem C45_orbit_large_refuted : ~ (forall ops v n, group_like ops -> orbit_size ops v n -> multiplicity v ops = n).
Proof. intros H. destruct large_bad as (ops & v & A & B & C). specialize (H ops v 2%Z A B). rewrite C in H. discriminate. Qed.
Print Assumptions C45_orbit_large_refuted.

(** Spacing and wave vector: q = 2 pi |tau|, d = 1/|tau|, so that the assertion d q = 2 pi holds; the origin alone has no finite spacing. *)
Theorem C45_lengths : forall m v, det m <> 0 ->
  q_of m v = 2 * PI * sqrt (sqlen m v) /\ (v <> (0, 0, 0)%Z -> exists d, d_spacing m v = Some d /\ d * q_of m v = 2 * PI /\ 0 < d) /\ d_spacing m (0, 0, 0)%Z = None.
Proof.
  intros m v D. split; [apply q_is|]. split.
  - intros N. pose proof (sqlen_nz m v D N) as Z. pose proof (sqrt_pos' _ _ Z) as P. exists (1 / sqrt (sqlen m v)). split; [apply d_some; exact Z|]. rewrite q_is. split; [field; lra|]. apply Rdiv_lt_0_compat; lra.
  - apply d_none. unfold sqlen, inner, point. cbn. ring.
Qed.
Print Assumptions C45_lengths.
Example C45_lengths_case : det hexagonal <> 0. Proof. exact (dual_det _ _ _ _ dual_hex). Qed.

(** A single crystal: every reflection once; which ones, and the numbers of each. *)
Theorem C45_single : forall s n dmin, det (recbase s) <> 0 ->
  exists ps, iter_peaks s n dmin SingleCrystal = Ok ps /\ NoDup (map p_hkl ps) /\ (forall p, In p ps -> entry_ok s p) /\
    (forall v, In v (map p_hkl ps) <-> reached (recbase s) dmin (- n) n v /\ bright (recbase s) (sites s) v).
Proof. exact single_peaks. Qed.
Print Assumptions C45_single.
(** With orthogonal axes these are all reflections with the given spacing. *)
Theorem C45_single_orthogonal : forall s n dmin, det (recbase s) <> 0 -> orthogonal_cell (recbase s) ->
  exists ps, iter_peaks s n dmin SingleCrystal = Ok ps /\
    (forall v, In v (map p_hkl ps) <-> within_index n v /\ v <> (0, 0, 0)%Z /\ spaced (recbase s) dmin v /\ bright (recbase s) (sites s) v).
Proof.
  intros s n dmin D O'. destruct (single_peaks s n dmin D) as (ps & A & _ & _ & B). exists ps. split; [exact A|]. intros [[h k] l]. rewrite B, ortho_reached by exact O'. unfold within_index.
  rewrite !Z.abs_le. tauto.
Qed.
Print Assumptions C45_single_orthogonal.
Example C45_single_case : det (recbase centred) <> 0 /\ orthogonal_cell (recbase centred) /\ bright (recbase (mkSt hexagonal six one_atom)) (sites (mkSt hexagonal six one_atom)) (3, 1, -2)%Z.
Proof. split; [exact (dual_det _ _ _ _ (proj1 centred_symmetric))|]. split; [unfold orthogonal_cell, inner, col0, col1, col2; cbn; lra|]. apply one_bright. Qed.
(** With other axes reflections are lost: (h,k,l) is not listed when (h,0,0) or (0,k,0) is too close, though it is not itself. *)
Theorem C45_single_oblique_refuted : ~ (forall s n d v ps, det (recbase s) <> 0 -> within_index n v -> v <> (0, 0, 0)%Z -> spaced (recbase s) (Some d) v -> bright (recbase s) (sites s) v ->
  iter_peaks s n (Some d) SingleCrystal = Ok ps -> In v (map p_hkl ps)).
Proof. intros H. destruct prune_bad as (s & n & d & v & A & B & C & D & E & ps & F & G). apply G. exact (H s n d v ps A B C D E F). Qed.
Print Assumptions C45_single_oblique_refuted.

(** A powder: no two listed peaks are equivalent, and every reflection the loops reach has an equivalent one that is listed unless its structure factor is zero. *)
Theorem C45_powder : forall s n dmin, det (recbase s) <> 0 -> group_like (symops s) -> (forall v, reached (recbase s) dmin 0 n v -> small_orbit (symops s) v) ->
  exists ps, iter_peaks s n dmin Powder = Ok ps /\ NoDup (map p_hkl ps) /\ (forall p, In p ps -> entry_ok s p) /\
    (forall v, In v (map p_hkl ps) -> reached (recbase s) dmin 0 n v /\ bright (recbase s) (sites s) v) /\
    (forall v w, In v (map p_hkl ps) -> In w (map p_hkl ps) -> related (symops s) v w -> v = w) /\
    (forall v, reached (recbase s) dmin 0 n v -> exists r, reached (recbase s) dmin 0 n r /\ related (symops s) r v /\ (bright (recbase s) (sites s) r -> In r (map p_hkl ps))).
Proof. exact powder_peaks. Qed.
Print Assumptions C45_powder.
(** If the operations are symmetries of the structure and closed under transposition, every reflection with an equivalent in reach has exactly one peak, with its q, its structure factor and the number of its
    equivalents. *)
Theorem C45_powder_complete : forall s a b c n dmin, symmetric_structure a b c (recbase s) (sites s) (symops s) -> (forall m, In m (symops s) -> In (flip m) (symops s)) -> group_like (symops s) ->
  (forall v, reached (recbase s) dmin 0 n v -> small_orbit (symops s) v) ->
  exists ps, iter_peaks s n dmin Powder = Ok ps /\
    (forall v, bright (recbase s) (sites s) v -> (exists u, related (symops s) v u /\ reached (recbase s) dmin 0 n u) ->
       exists! p, In p ps /\ related (symops s) v (p_hkl p) /\ p_q p = 2 * PI * sqrt (sqlen (recbase s) v) /\ p_F2 p = factor_sq (recbase s) (sites s) v / 100 /\ orbit_size (symops s) v (p_mult p)).
Proof. exact powder_complete. Qed.
Print Assumptions C45_powder_complete.
Example C45_powder_case : symmetric_structure (mkV 1 0 0) (mkV 0 1 0) (mkV 0 0 (1 / 2)) (recbase centred) (sites centred) (symops centred) /\ (forall m, In m (symops centred) -> In (flip m) (symops centred)) /\
  group_like (symops centred) /\ (forall v, reached (recbase centred) (Some (1 / 2)) 0 5 v -> small_orbit (symops centred) v) /\ det (recbase centred) <> 0 /\ reached (recbase centred) (Some (1 / 4)) 0 5 (1, 2, 0)%Z /\
  related (symops centred) (2, -1, 0)%Z (1, 2, 0)%Z.
Proof.
  split; [exact centred_symmetric|]. split; [exact centred_flip|]. split; [exact centred_group|]. split; [intros v; apply centred_small; lia|]. split; [exact (dual_det _ _ _ _ (proj1 centred_symmetric))|]. split.
  - apply ortho_reached; [unfold orthogonal_cell, inner, col0, col1, col2; cbn; lra|]. repeat (split; [lia|]). split; [discriminate|]. unfold spaced. replace (sqlen (recbase centred) (1, 2, 0)%Z) with 5 by (unfold sqlen, inner, point; cbn; lra).
    pose proof (sqrt_def 5 ltac:(lra)). pose proof (sqrt_pos 5). nra.
  - exists ((0, -1, 0), (1, 0, 0), (0, 0, 1))%Z. split; [cbn; tauto|]. reflexivity.
Qed.
(** The indices start at 0: with low symmetry reflections have no peak, at no spacing near. *)
Theorem C45_powder_octant_refuted : ~ (forall s a b c n v ps, symmetric_structure a b c (recbase s) (sites s) (symops s) -> (forall m, In m (symops s) -> In (flip m) (symops s)) -> group_like (symops s) ->
  within_index n v -> v <> (0, 0, 0)%Z -> bright (recbase s) (sites s) v -> iter_peaks s n None Powder = Ok ps -> exists p, In p ps /\ p_q p = 2 * PI * sqrt (sqlen (recbase s) v)).
Proof. intros H. destruct octant_bad as (s & a & b & c & n & v & A & B & C & D & E & F & ps & G & K). destruct (H s a b c n v ps A B C D E F G) as (p & P & Q). exact (K p P Q). Qed.
Print Assumptions C45_powder_octant_refuted.

(** The transposed matrices keep length and structure factor, as they should: the matrices of operations act on places. *)
Theorem C45_transposed : forall a b c recb l m v w, dual_cell a b c recb -> isometry a b c m -> (exists t, carries m t l) -> timage m v w -> sqlen recb w = sqlen recb v /\ factor_sq recb l w = factor_sq recb l v.
Proof. intros a b c recb l m v w D I K T. split; [exact (transposed_length a b c recb m v w D I T)|exact (transposed_factor a b c recb l m v w D I K T)]. Qed.
Print Assumptions C45_transposed.
Example C45_transposed_case : exists a b c l, forall m, In m six -> dual_cell a b c hexagonal /\ isometry a b c m /\ exists t, carries m t l.
Proof. eexists _, _, _, _. intros m Hm. split; [exact dual_hex|]. exact (proj2 hex_symmetric m Hm). Qed.
(** The code applies the matrices themselves: in hexagonal cells it takes reflections of different length as equivalent, *)
Theorem C45_equal_length_refuted : ~ (forall s a b c v w, symmetric_structure a b c (recbase s) (sites s) (symops s) -> group_like (symops s) -> In w (equivalent_hkls v (symops s)) -> sqlen (recbase s) w = sqlen (recbase s) v).
Proof. intros H. destruct hexagonal_orbit as (s & a & b & c & v & w & A & B & C & D & E). specialize (H s a b c v w A B C). lra. Qed.
Print Assumptions C45_equal_length_refuted.
(** and the powder list has no peak at the spacing of a reflection in reach. *)
Theorem C45_hexagonal_refuted : ~ (forall s a b c n v ps, symmetric_structure a b c (recbase s) (sites s) (symops s) -> group_like (symops s) -> reached (recbase s) None 0 n v -> bright (recbase s) (sites s) v ->
  iter_peaks s n None Powder = Ok ps -> exists p, In p ps /\ p_q p = 2 * PI * sqrt (sqlen (recbase s) v)).
Proof. intros H. destruct hexagonal_bad as (s & a & b & c & n & v & A & B & C & D & ps & E & K). destruct (H s a b c n v ps A B C D E) as (p & P & Q). exact (K p P Q). Qed.
Print Assumptions C45_hexagonal_refuted.

(** Lengths of .laz files are right for all reflections exactly if recbase commutes with its transpose; with a* along x and b* in the xy plane, exactly for orthogonal axes. *)
Theorem C45_laz : forall m, (forall v, laz_q m v = q_of m v) <-> matmul m (transpose m) = matmul (transpose m) m.
Proof. exact laz_iff. Qed.
Print Assumptions C45_laz.
Theorem C45_laz_upper : forall m, m10 m = 0 -> m20 m = 0 -> m21 m = 0 -> (forall v, laz_q m v = q_of m v) <-> m01 m = 0 /\ m02 m = 0 /\ m12 m = 0.
Proof. exact laz_upper. Qed.
Print Assumptions C45_laz_upper.
Example C45_laz_case : m10 hexagonal = 0 /\ m20 hexagonal = 0 /\ m21 hexagonal = 0 /\ m01 hexagonal <> 0.
Proof. cbn. repeat split; lra. Qed.
