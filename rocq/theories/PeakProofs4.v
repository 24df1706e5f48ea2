(** Proofs for C45: concrete structures and counterexamples. *)
From Coq Require Import Reals Lra Lia Psatz Sorting.Permutation.
From Verif Require Import Base RotModel PeakModel PeakSpec PeakProofs PeakProofs2 PeakProofs3.
Open Scope R_scope.

(** A check that matrices form a group. *)
Definition zmul (m n : imat) : imat :=
  let '((a, b, c), (d, e, f), (g, i, j)) := n in
  let col x y z := zapply m (x, y, z)%Z in
  let '(p, q, r) := col a d g in let '(p', q', r') := col b e i in let '(p'', q'', r'') := col c f j in ((p, p', p''), (q, q', q''), (r, r', r'')).
Definition zeqb (m n : imat) : bool := let '(a, b, c) := m in let '(d, e, f) := n in hkl_eqb a d && hkl_eqb b e && hkl_eqb c f.
Definition zid : imat := ((1, 0, 0), (0, 1, 0), (0, 0, 1))%Z.
Definition check_group (l : list imat) : bool := existsb (zeqb zid) l && forallb (fun m => forallb (fun n => existsb (zeqb (zmul m n)) l) l) l && forallb (fun m => existsb (fun n => zeqb (zmul n m) zid) l) l.
Lemma zeqb_is m n : zeqb m n = true -> m = n.
Proof. destruct m as [[a b] c], n as [[d e] f]. cbn. rewrite !andb_true_iff, !hkl_eqb_is. intros [[-> ->] ->]. reflexivity. Qed.
Lemma zmul_apply m n v : zapply (zmul m n) v = zapply m (zapply n v).
Proof. destruct m as [[[[a b] c] [[d e] f]] [[g i] j]], n as [[[[a' b'] c'] [[d' e'] f']] [[g' i'] j']], v as [[h k] l]. cbn. f_equal; [f_equal|]; ring. Qed.
Lemma zid_apply v : zapply zid v = v.
Proof. destruct v as [[h k] l]. unfold zapply, zid, zrow. f_equal; [f_equal|]; ring. Qed.
Lemma group_checked l : check_group l = true -> group_like l.
Proof.
  unfold check_group. rewrite !andb_true_iff. intros [[A B] C]. rewrite existsb_exists in A. rewrite forallb_forall in B, C. split; [|split].
  - intros v. destruct A as [i [Hi E]]. apply zeqb_is in E. subst i. exists zid. split; [exact Hi|]. apply image_is. symmetry. apply zid_apply.
  - intros u v w [m [Hm Im]] [n [Hn In']]. apply image_is in Im, In'. specialize (B n Hn). rewrite forallb_forall in B. specialize (B m Hm). apply existsb_exists in B. destruct B as [x [Hx E]]. apply zeqb_is in E. subst x v w.
    exists (zmul n m). split; [exact Hx|]. apply image_is. symmetry. apply zmul_apply.
  - intros u v [m [Hm Im]]. apply image_is in Im. specialize (C m Hm). apply existsb_exists in C. destruct C as [n [Hn E]]. apply zeqb_is in E. exists n. split; [exact Hn|]. apply image_is. subst v. rewrite <- zmul_apply, E. symmetry. apply zid_apply.
Qed.

(** One atom at the origin is seen in all reflections. *)
Definition one_atom : list atom := [mkAtom 1 1 0 (mkV 0 0 0)].
Lemma one_factor m v : factor_sq m (map (fun a => (occupancy a, b_c a, B_T a, xyz a)) one_atom) v = 1.
Proof.
  unfold factor_sq, factor_re, factor_im, one_atom, sum, site_weight. cbn [map fold_right occupancy b_c B_T xyz]. replace (phase v (mkV 0 0 0)) with 0 by (destruct v as [[h k] l]; unfold phase; cbn [vx vy vz]; ring).
  rewrite cos_0, sin_0. replace (- (0 * sqlen m v / 4)) with 0 by field. rewrite exp_0. ring.
Qed.
Lemma one_bright m v : bright m (map (fun a => (occupancy a, b_c a, B_T a, xyz a)) one_atom) v.
Proof. unfold bright. rewrite one_factor. lra. Qed.

(** Pruning. *)
Definition oblique : mat3 := mkM 1 (- (3 / 5)) 0 0 (4 / 5) 0 0 0 1.
Lemma prune_bad : exists s n d v, PeakSpec.det (recbase s) <> 0 /\ within_index n v /\ v <> (0, 0, 0)%Z /\ spaced (recbase s) (Some d) v /\ bright (recbase s) (sites s) v /\
  exists ps, iter_peaks s n (Some d) SingleCrystal = Ok ps /\ ~ In v (map p_hkl ps).
Proof.
  exists (mkSt oblique [zid] one_atom), 1%Z, (21 / 20), (1, 1, 0)%Z.
  assert (D : PeakSpec.det oblique <> 0) by (unfold PeakSpec.det, oblique; cbn; lra). split; [exact D|]. split; [cbn; lia|]. split; [discriminate|]. split.
  { unfold spaced. cbn [recbase]. assert (E : sqlen oblique (1, 1, 0)%Z = 4 / 5) by (unfold sqlen, inner, point, oblique; cbn; lra). rewrite E. pose proof (sqrt_def (4 / 5) ltac:(lra)) as S. pose proof (sqrt_pos (4 / 5)). nra. }
  split; [apply one_bright|]. destruct (single_peaks (mkSt oblique [zid] one_atom) 1 (Some (21 / 20)) D) as (ps & A & _ & _ & B). exists ps. split; [exact A|]. intros X. apply B in X. destruct X as [X _].
  destruct X as (_ & _ & _ & _ & _ & X & _). unfold spaced in X. cbn [recbase] in X. replace (sqlen oblique (1, 0, 0)%Z) with 1 in X by (unfold sqlen, inner, point, oblique; cbn; lra). rewrite sqrt_1 in X. lra.
Qed.

(** Reflections outside the octant of non-negative indices. *)
Definition zneg : imat := ((-1, 0, 0), (0, -1, 0), (0, 0, -1))%Z.
Definition tilted : mat3 := mkM 1 (1 / 3) 0 0 1 0 0 0 1.
Lemma reps_in s n ps : PeakSpec.det (recbase s) <> 0 -> iter_peaks s n None Powder = Ok ps -> forall p, In p ps -> In (p_hkl p) (reps (symops s) true [] (candidates (recbase s) None 0 (n + 1))) /\ p_q p = 2 * PI * sqrt (sqlen (recbase s) (p_hkl p)).
Proof.
  intros D. unfold iter_peaks. set (cs := candidates _ _ _ _). assert (N : forall v, In v cs -> sqlen (recbase s) v <> 0) by (intros v; apply reached_nz; exact D).
  rewrite peaks_are by exact N. intros E. injection E as <-. intros p Hp. apply in_map_iff in Hp. destruct Hp as [v [<- Hv]]. apply filter_In in Hv. destruct Hv as [Hv _]. split; [exact Hv|]. apply q_is.
Qed.
Lemma q_differs m v w : sqlen m v <> sqlen m w -> 2 * PI * sqrt (sqlen m v) <> 2 * PI * sqrt (sqlen m w).
Proof. intros N E. apply N. apply sqrt_eq_iff; try apply sqlen_nonneg. apply Rmult_eq_reg_l with (2 * PI); [exact E|]. pose proof PI_RGT_0. lra. Qed.
Lemma dual_tilted : dual_cell (mkV 1 (- (1 / 3)) 0) (mkV 0 1 0) (mkV 0 0 1) tilted.
Proof. unfold dual_cell, inner, col0, col1, col2, tilted. cbn. repeat split; lra. Qed.
Lemma carries_origin m : carries m (mkV 0 0 0) (map (fun a => (occupancy a, b_c a, B_T a, xyz a)) one_atom).
Proof.
  exists (map (fun a => (occupancy a, b_c a, B_T a, xyz a)) one_atom). split; [|apply Permutation_refl]. unfold one_atom. cbn [map occupancy b_c B_T xyz]. constructor; [|constructor]. cbn [same_kind]. repeat (split; [reflexivity|]).
  exists 0%Z, 0%Z, 0%Z. destruct m as [[[[a b] c] [[d e] f]] [[g i] j]]. unfold fractional. cbn [vx vy vz]. f_equal; ring.
Qed.
Lemma octant_bad : exists s a b c n v, symmetric_structure a b c (recbase s) (sites s) (symops s) /\ (forall m, In m (symops s) -> In (flip m) (symops s)) /\ group_like (symops s) /\
  within_index n v /\ v <> (0, 0, 0)%Z /\ bright (recbase s) (sites s) v /\
  exists ps, iter_peaks s n None Powder = Ok ps /\ (forall p, In p ps -> p_q p <> 2 * PI * sqrt (sqlen (recbase s) v)).
Proof.
  exists (mkSt tilted [zid; zneg] one_atom), (mkV 1 (- (1 / 3)) 0), (mkV 0 1 0), (mkV 0 0 1), 1%Z, (1, -1, 0)%Z. pose proof (dual_det _ _ _ _ dual_tilted) as D.
  assert (G : group_like [zid; zneg]) by (apply group_checked; vm_compute; reflexivity).
  split. { split; [exact dual_tilted|]. intros m Hm. split; [|exists (mkV 0 0 0); apply carries_origin]. destruct Hm as [<-|[<-|[]]]; intros x; unfold inner, place, fractional, zid, zneg; cbn [vx vy vz]; ring. }
  split. { intros m [<-|[<-|[]]]; cbn; tauto. } split; [exact G|]. split; [cbn; lia|]. split; [discriminate|]. split; [apply one_bright|].
  destruct (powder_peaks (mkSt tilted [zid; zneg] one_atom) 1 None D G) as (ps & A & _).
  { intros v Hv w [m [Hm Im]]. destruct v as [[h k] l]. destruct Hv as (H1 & H2 & H3 & _). destruct Hm as [<-|[<-|[]]]; cbn [image zid zneg] in Im; subst w; unfold within_index; lia. }
  exists ps. split; [exact A|]. intros p Hp. destruct (reps_in (mkSt tilted [zid; zneg] one_atom) _ _ D A p Hp) as [B C]. rewrite C. cbn [recbase symops] in *. apply q_differs.
  assert (R : reps [zid; zneg] true [] (candidates tilted None 0 (1 + 1)) = [(0, 0, 1); (0, 1, 0); (0, 1, 1); (1, 0, 0); (1, 0, 1); (1, 1, 0); (1, 1, 1)]%Z) by reflexivity.
  rewrite R in B. cbn [In] in B. repeat (destruct B as [B|B]; [rewrite <- B; unfold sqlen, inner, point, tilted; cbn [vx vy vz m00 m01 m02 m10 m11 m12 m20 m21 m22]; lra|]). destruct B.
Qed.

(** Hexagonal cells. *)
Definition hexagonal : mat3 := mkM 1 (1 / 2) 0 0 (sqrt 3 / 2) 0 0 0 1.
Definition six : list imat :=
  [((1, 0, 0), (0, 1, 0), (0, 0, 1)); ((1, -1, 0), (1, 0, 0), (0, 0, 1)); ((0, -1, 0), (1, -1, 0), (0, 0, 1)); ((-1, 0, 0), (0, -1, 0), (0, 0, 1)); ((-1, 1, 0), (-1, 0, 0), (0, 0, 1)); ((0, 1, 0), (-1, 1, 0), (0, 0, 1))]%Z.
Lemma sqrt3 : sqrt 3 * sqrt 3 = 3 /\ 0 < sqrt 3.
Proof. split; [apply sqrt_def; lra|apply sqrt_lt_R0; lra]. Qed.
Lemma dual_hex : dual_cell (mkV 1 (- (sqrt 3 / 3)) 0) (mkV 0 (2 * sqrt 3 / 3) 0) (mkV 0 0 1) hexagonal.
Proof. destruct sqrt3 as [A B]. unfold dual_cell, inner, col0, col1, col2, hexagonal. cbn. repeat split; nra. Qed.
Lemma hex_len h k l : sqlen hexagonal (h, k, l) = IZR h * IZR h + IZR h * IZR k + IZR k * IZR k + IZR l * IZR l.
Proof. destruct sqrt3 as [A B]. unfold sqlen, inner, point, hexagonal. cbn [vx vy vz m00 m01 m02 m10 m11 m12 m20 m21 m22]. replace (IZR h * 0 + IZR k * (sqrt 3 / 2) + IZR l * 0) with (IZR k * (sqrt 3 / 2)) by ring.
  replace (IZR k * (sqrt 3 / 2) * (IZR k * (sqrt 3 / 2))) with (IZR k * IZR k * (sqrt 3 * sqrt 3) / 4) by field. rewrite A. field. Qed.
Lemma hex_symmetric : symmetric_structure (mkV 1 (- (sqrt 3 / 3)) 0) (mkV 0 (2 * sqrt 3 / 3) 0) (mkV 0 0 1) hexagonal (map (fun a => (occupancy a, b_c a, B_T a, xyz a)) one_atom) six.
Proof.
  split; [exact dual_hex|]. intros m Hm. split; [|exists (mkV 0 0 0); apply carries_origin]. destruct sqrt3 as [A _].
  assert (L : forall x, inner (place (mkV 1 (- (sqrt 3 / 3)) 0) (mkV 0 (2 * sqrt 3 / 3) 0) (mkV 0 0 1) x) (place (mkV 1 (- (sqrt 3 / 3)) 0) (mkV 0 (2 * sqrt 3 / 3) 0) (mkV 0 0 1) x) = 4 / 3 * (vx x * vx x - vx x * vy x + vy x * vy x) + vz x * vz x).
  { intros x. unfold inner, place. cbn [vx vy vz]. transitivity (vx x * vx x + (sqrt 3 * sqrt 3) / 9 * (- vx x + 2 * vy x) * (- vx x + 2 * vy x) + vz x * vz x); [field|]. rewrite A. field. }
  intros x. rewrite !L. unfold six in Hm. cbn [In] in Hm. repeat (destruct Hm as [<-|Hm]; [unfold fractional; cbn [vx vy vz]; field|]). destruct Hm.
Qed.
Lemma hexagonal_bad : exists s a b c n v, symmetric_structure a b c (recbase s) (sites s) (symops s) /\ group_like (symops s) /\
  reached (recbase s) None 0 n v /\ bright (recbase s) (sites s) v /\
  exists ps, iter_peaks s n None Powder = Ok ps /\ (forall p, In p ps -> p_q p <> 2 * PI * sqrt (sqlen (recbase s) v)).
Proof.
  exists (mkSt hexagonal six one_atom), (mkV 1 (- (sqrt 3 / 3)) 0), (mkV 0 (2 * sqrt 3 / 3) 0), (mkV 0 0 1), 1%Z, (1, 1, 0)%Z. pose proof (dual_det _ _ _ _ dual_hex) as D.
  assert (G : group_like six) by (apply group_checked; vm_compute; reflexivity). split; [exact hex_symmetric|]. split; [exact G|]. split. { unfold reached. repeat split; try lia; discriminate. } split; [apply one_bright|].
  destruct (powder_peaks (mkSt hexagonal six one_atom) 1 None D G) as (ps & A & _).
  { intros v Hv w [m [Hm Im]]. destruct v as [[h k] l]. destruct Hv as (H1 & H2 & H3 & _). cbn [symops six In] in Hm. repeat (destruct Hm as [<-|Hm]; [cbn [image] in Im; subst w; unfold within_index; lia|]). destruct Hm. }
  exists ps. split; [exact A|]. intros p Hp. destruct (reps_in (mkSt hexagonal six one_atom) _ _ D A p Hp) as [B C]. rewrite C. cbn [recbase symops] in *. apply q_differs.
  assert (R : reps six true [] (candidates hexagonal None 0 (1 + 1)) = [(0, 0, 1); (0, 1, 0); (0, 1, 1)]%Z) by reflexivity.
  rewrite R in B. cbn [In] in B. repeat (destruct B as [B|B]; [rewrite <- B, !hex_len; lra|]). destruct B.
Qed.
Lemma hexagonal_orbit : exists s a b c v w, symmetric_structure a b c (recbase s) (sites s) (symops s) /\ group_like (symops s) /\ In w (equivalent_hkls v (symops s)) /\ sqlen (recbase s) w = 3 * sqlen (recbase s) v /\ 0 < sqlen (recbase s) v.
Proof.
  exists (mkSt hexagonal six one_atom), (mkV 1 (- (sqrt 3 / 3)) 0), (mkV 0 (2 * sqrt 3 / 3) 0), (mkV 0 0 1), (1, 0, 0)%Z, (1, 1, 0)%Z. split; [exact hex_symmetric|]. split; [apply group_checked; vm_compute; reflexivity|].
  split; [cbn; tauto|]. cbn [recbase]. rewrite !hex_len. lra.
Qed.

(** Large indices. *)
Lemma large_bad : exists ops v, group_like ops /\ orbit_size ops v 2 /\ multiplicity v ops = 1%Z.
Proof.
  exists [zid; ((0, 1, 0), (1, 0, 0), (0, 0, 1))%Z], (100000, 100001, 0)%Z. split; [apply group_checked; vm_compute; reflexivity|]. split; [|vm_compute; reflexivity].
  exists [(100000, 100001, 0); (100001, 100000, 0)]%Z. split; [repeat constructor; cbn; intuition discriminate|]. split; [|reflexivity]. intros w. rewrite related_is. cbn [map In]. tauto.
Qed.

(** A body-centred tetragonal structure with a fourfold axis. *)
Definition tetragonal : mat3 := mkM 1 0 0 0 1 0 0 0 2.
Definition four : list imat := [((1, 0, 0), (0, 1, 0), (0, 0, 1)); ((0, -1, 0), (1, 0, 0), (0, 0, 1)); ((-1, 0, 0), (0, -1, 0), (0, 0, 1)); ((0, 1, 0), (-1, 0, 0), (0, 0, 1))]%Z.
Definition two_atoms : list atom := [mkAtom 1 3 (1 / 2) (mkV 0 0 0); mkAtom (1 / 2) 7 1 (mkV (1 / 2) (1 / 2) (1 / 2))].
Definition centred : structure := mkSt tetragonal four two_atoms.
Lemma centred_symmetric : symmetric_structure (mkV 1 0 0) (mkV 0 1 0) (mkV 0 0 (1 / 2)) (recbase centred) (sites centred) (symops centred).
Proof.
  split; [unfold dual_cell, inner, col0, col1, col2; cbn; repeat split; lra|]. intros m Hm. cbn [centred symops four In] in Hm.
  assert (K : forall i j, shifted m (mkV 0 0 0) (mkV 0 0 0) (mkV 0 0 0) -> mkV (1 / 2) (1 / 2) (1 / 2) = mkV (vx (fractional m (mkV (1 / 2) (1 / 2) (1 / 2))) + 0 + IZR i) (vy (fractional m (mkV (1 / 2) (1 / 2) (1 / 2))) + 0 + IZR j) (vz (fractional m (mkV (1 / 2) (1 / 2) (1 / 2))) + 0 + 0) -> exists t, carries m t (sites centred)).
  { intros i j Z0 E. exists (mkV 0 0 0). exists (sites centred). split; [|apply Permutation_refl]. unfold sites, centred, two_atoms. cbn [atoms map occupancy b_c B_T xyz]. constructor; [cbn [same_kind]; tauto|]. constructor; [|constructor].
    cbn [same_kind]. repeat (split; [reflexivity|]). exists i, j, 0%Z. exact E. }
  assert (Z0 : forall n : imat, shifted n (mkV 0 0 0) (mkV 0 0 0) (mkV 0 0 0)).
  { intros n. exists 0%Z, 0%Z, 0%Z. destruct n as [[[[a b] c] [[d e] f]] [[g i] j]]. unfold fractional. cbn [vx vy vz]. f_equal; ring. }
  repeat (destruct Hm as [<-|Hm]; [split; [intros x; unfold inner, place, fractional; cbn [vx vy vz]; field|]|]); [apply (K 0%Z 0%Z)|apply (K 1%Z 0%Z)|apply (K 1%Z 1%Z)|apply (K 0%Z 1%Z)|destruct Hm]; try apply Z0; unfold fractional; cbn [vx vy vz]; f_equal; lra.
Qed.
Lemma centred_group : group_like (symops centred). Proof. apply group_checked. vm_compute. reflexivity. Qed.
Lemma centred_flip m : In m (symops centred) -> In (flip m) (symops centred).
Proof. cbn [centred symops four In]. intros Hm. repeat (destruct Hm as [<-|Hm]; [cbn; tauto|]). destruct Hm. Qed.
Lemma centred_small n v dmin : (n <= 99999)%Z -> reached (recbase centred) dmin 0 n v -> small_orbit (symops centred) v.
Proof.
  intros Hn Hv w [m [Hm Im]]. destruct v as [[h k] l]. destruct Hv as (H1 & H2 & H3 & _). cbn [centred symops four In] in Hm. repeat (destruct Hm as [<-|Hm]; [cbn [image] in Im; subst w; unfold within_index; lia|]). destruct Hm.
Qed.
