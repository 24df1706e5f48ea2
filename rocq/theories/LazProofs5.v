(** Proofs for C64: laz files. *)
From Coq Require Import Ascii Reals Lra Sorting.Sorted Sorting.Permutation.
From Verif Require Import Base PyStr RotModel PeakModel LazModel LazSpec LazProofs LazProofs2 LazProofs3.
Open Scope Z_scope.

(** ** Sorting *)
Definition below_q (a b : Peak) : Prop := (z_q a <= z_q b)%R.
Lemma insert_perm : forall x l, Permutation (x :: l) (insert_peak x l).
Proof. induction l as [|y l IH]; [reflexivity|]. cbn [insert_peak]. destruct (Rltb (z_q y) (z_q x)); [|reflexivity]. rewrite perm_swap. now constructor. Qed.
Lemma sort_perm : forall l, Permutation l (sort_peaks l).
Proof. induction l as [|x l IH]; [reflexivity|]. unfold sort_peaks in *. cbn [fold_right]. rewrite IH at 1. apply insert_perm. Qed.
Lemma insert_sorted : forall x l, StronglySorted below_q l -> StronglySorted below_q (insert_peak x l).
Proof.
  intros x l H. induction H as [|y l H IH F]; [repeat constructor|]. cbn [insert_peak]. unfold Rltb. destruct (Rlt_dec (z_q y) (z_q x)) as [C|C].
  - constructor; [exact IH|]. rewrite <- insert_perm. constructor; [unfold below_q; lra|exact F].
  - constructor; [now constructor|]. constructor; [unfold below_q; lra|]. revert F. apply Forall_impl. unfold below_q. intros; lra.
Qed.
Lemma sort_sorted : forall l, StronglySorted below_q (sort_peaks l).
Proof. induction l as [|x l IH]; [constructor|]. now apply insert_sorted. Qed.
Lemma laz_q_length : forall m h k l, laz_q m (h, k, l) = row_length m h k l.
Proof.
  intros m h k l. unfold laz_q, q_rows, row_length, norm. cbn [vx vy vz]. pose proof PI_RGT_0 as P.
  set (x := (IZR h * m00 m + IZR k * m10 m + IZR l * m20 m)%R). set (y := (IZR h * m01 m + IZR k * m11 m + IZR l * m21 m)%R). set (z := (IZR h * m02 m + IZR k * m12 m + IZR l * m22 m)%R).
  replace (2 * PI * x * (2 * PI * x) + 2 * PI * y * (2 * PI * y) + 2 * PI * z * (2 * PI * z))%R with ((2 * PI)² * (x² + y² + z²))%R by (unfold Rsqr; ring).
  pose proof (Rle_0_sqr x). pose proof (Rle_0_sqr y). pose proof (Rle_0_sqr z). rewrite sqrt_mult by (try apply Rle_0_sqr; lra). now rewrite sqrt_Rsqr by lra.
Qed.

(** ** Attributes *)
Lemma lookup_set : forall xs a v b, lookup (setattr xs a v) b = if String.eqb a b then Ok v else lookup xs b.
Proof.
  induction xs as [|[k w] xs IH]; intros a v b; [reflexivity|]. cbn [setattr]. destruct (String.eqb_spec k a) as [->|Q]; cbn [lookup].
  - destruct (String.eqb a b); reflexivity.
  - destruct (String.eqb_spec k b) as [->|Q']; [destruct (String.eqb_spec a b); [congruence|reflexivity]|apply IH].
Qed.
Lemma append_length : forall a b : string, (String.length (a ++ b) = String.length a + String.length b)%nat.
Proof. induction a as [|c a IH]; intros b; [reflexivity|]. cbn [append String.length]. rewrite IH. reflexivity. Qed.
Lemma drop_app : forall a b, drop (String.length a) (a ++ b) = b.
Proof. induction a as [|c a IH]; intros b; [destruct b; reflexivity|]. apply IH. Qed.
Lemma spaced_last : forall ws x, exists p, spaced (ws ++ [x]) = (p ++ x)%string.
Proof.
  induction ws as [|w ws IH]; intros x; [now exists EmptyString|]. destruct (IH x) as (p & E). exists (w ++ " " ++ p)%string. cbn [app]. unfold spaced in *.
  destruct (ws ++ [x]) as [|y t] eqn:Q; [destruct ws; discriminate Q|]. change (String.concat " " (w :: y :: t)) with (w ++ " " ++ String.concat " " (y :: t))%string. rewrite E, !append_assoc. reflexivity.
Qed.
Lemma last6_barn : forall ws, last6 (spaced (ws ++ ["[barn]"%string])) = "[barn]"%string.
Proof. intros ws. destruct (spaced_last ws "[barn]") as (p & ->). unfold last6. rewrite append_length. cbn [String.length]. rewrite Nat.add_sub. apply drop_app. Qed.
Lemma drop2_words : forall s ws, layout s ("#"%string :: ws) -> (exists t, s = String "#" t) -> words (strip (drop 2 s)) = ws.
Proof.
  intros s ws H (t & E). rewrite words_strip. inversion H as [|g w rest ws' G W R H' E1 E2]; subst w ws'. rewrite <- E1 in E. destruct g as [|c g].
  - cbn [append]. change (drop 2 (String "#" rest)) with (drop 1 rest). destruct R as [->|(c & r & -> & C)].
    + rewrite <- (words_layout _ _ H'). reflexivity.
    + rewrite <- (words_layout _ _ H'). rewrite words_space by now apply gap_is_space. destruct r; reflexivity.
  - cbn [append] in E. injection E as -> _. destruct (gap_nohash _ (proj1 G)). reflexivity.
Qed.

Section numbers.
Context (py_float : string -> option R) (L : Type) (Lattice : R -> R -> R -> R -> R -> R -> result L) (recbase_of : L -> mat3).
Lemma at_first : forall (w : string) ws, at_index (w :: ws) 0 = Ok w.
Proof. intros w ws. unfold at_index. cbn [List.length]. change (0 <? 0) with false. cbv iota. change (0 <? 0) with false. rewrite (proj2 (Z.leb_gt _ 0)) by lia. reflexivity. Qed.
Lemma at_second : forall (w x : string) ws, at_index (w :: x :: ws) 1 = Ok x.
Proof. intros w x ws. unfold at_index. cbn [List.length]. change (1 <? 0) with false. cbv iota. change (1 <? 0) with false. rewrite (proj2 (Z.leb_gt _ 1)) by lia. reflexivity. Qed.
Lemma sigma_line : forall s x value ws v nb xs, layout s ("#"%string :: ("sigma_" ++ x)%string :: value :: ws ++ ["[barn]"%string]) -> (exists t, s = String "#" t) -> py_float value = Some v ->
  one_sigma py_float nb xs s = Ok (setattr xs x (v * IZR nb)%R).
Proof.
  intros s x value ws v nb xs H T E. unfold one_sigma. rewrite (drop2_words _ _ H T), at_first. cbn [bind]. rewrite at_second. cbn [bind skipn]. rewrite last6_barn. change (String.eqb "[barn]" "[barn]") with true. cbn [negb].
  rewrite E. reflexivity.
Qed.
Definition sigma_entry (nb : Z) (vals : list (string * R)) (kv : string * string) : Prop :=
  exists x v, In (x, v) vals /\ fst kv = ("sigma_" ++ x)%string /\ forall xs, one_sigma py_float nb xs (snd kv) = Ok (setattr xs x (v * IZR nb)%R).
Lemma sigma_inj : forall x y, ("sigma_" ++ x)%string = ("sigma_" ++ y)%string -> x = y.
Proof. intros x y H. cbn in H. congruence. Qed.
Lemma sigmas : forall nb vals S, NoDup (map fst vals) -> NoDup (map fst S) -> Forall (sigma_entry nb vals) S -> forall xs,
  exists xs', fold_result (fun xs kv => one_sigma py_float nb xs (snd kv)) S xs = Ok xs' /\
    (forall x v, In (x, v) vals -> In ("sigma_" ++ x)%string (map fst S) -> lookup xs' x = Ok (v * IZR nb)%R) /\
    (forall x, ~ In ("sigma_" ++ x)%string (map fst S) -> lookup xs' x = lookup xs x).
Proof.
  intros nb vals S NV NS F. induction F as [|[k s] S (x & v & I1 & E & H) F IH]; intros xs; [exists xs; repeat split; intros; contradiction|].
  cbn [fst snd] in E, H. subst k. cbn [map fst] in NS. inversion NS as [|? ? N1 N2]; subst. cbn [fold_result snd]. rewrite H. cbn [bind]. destruct (IH N2 (setattr xs x (v * IZR nb)%R)) as (xs' & E & A & B).
  exists xs'. split; [exact E|]. split.
  - intros y u Iu [Q|Q].
    + apply sigma_inj in Q. subst y. rewrite (B x N1), lookup_set, String.eqb_refl. pose proof (lookup_in _ _ _ _ NV I1) as L1. rewrite (lookup_in _ _ _ _ NV Iu) in L1. congruence.
    + now apply A.
  - intros y Ny. cbn [map fst] in Ny. rewrite B by (intros Q; apply Ny; now right). rewrite lookup_set. destruct (String.eqb_spec x y) as [->|_]; [exfalso; apply Ny; now left|reflexivity].
Qed.
Lemma sigma_not_atom : forall r, ~ (exists a b, ("sigma" ++ r)%string = (a ++ "_" ++ b)%string /\ atom_word a).
Proof. intros r (a & b & E & (x & t & o & m & q & -> & [->| ->] & _)); discriminate E. Qed.
Lemma keys_filter_nodup : forall A (p : string * A -> bool) d, NoDup (map fst d) -> NoDup (map fst (filter p d)).
Proof.
  intros A p d H. induction d as [|[k v] d IH]; [constructor|]. cbn [map fst] in H. inversion H as [|? ? N1 N2]; subst. cbn [filter]. destruct (p (k, v)); [|now apply IH].
  cbn [map fst]. constructor; [|now apply IH]. intros Q. apply N1. apply in_map_iff in Q. destruct Q as (e & <- & Q). apply filter_In in Q. apply in_map. tauto.
Qed.
Definition sigma_part (f : list line) : dict := filter (fun kv => String.prefix "sigma" (fst kv)) (keyed f).
Lemma sigma_keys : forall f, well_formed f -> three_sigmas f -> incl (map fst (sigma_part f)) ["sigma_coh"; "sigma_inc"; "sigma_abs"]%string.
Proof.
  intros f W T k H. apply in_map_iff in H. destruct H as ([k' s] & E & H). cbn [fst] in E. subst k'. apply filter_In in H. destruct H as [H P]. cbn [fst] in P. apply prefix_iff in P. destruct P as (r & ->).
  destruct (keyed_plain f _ s W (sigma_not_atom r) H) as (w & ws & I1 & _). apply T in I1. cbn [In] in I1. destruct I1 as [<-|[<-|[<-|[]]]]; cbn; tauto.
Qed.
Lemma sigma_in : forall f x value, well_formed f -> says_sigma f x value -> exists s ws, In (("sigma_" ++ x)%string, s) (sigma_part f) /\ layout s ("#"%string :: ("sigma_" ++ x)%string :: value :: ws ++ ["[barn]"%string]) /\ exists t, s = String "#" t.
Proof.
  intros f x value W (ws & I1). destruct (keyed_remark f _ _ _ W (not_atom ("sigma_" ++ x) eq_refl) I1) as (s & I2 & LY & T). exists s, ws. split; [|tauto]. apply filter_In. split; [exact I2|]. cbn [fst]. apply prefix_iff. now exists ("_" ++ x)%string.
Qed.
Lemma atoms_line : forall f n, well_formed f -> distinct_names f -> says_atoms f n -> (let! l := lookup (keyed f) "nb_atoms" in let! w := at_index (words (strip l)) 2 in number (py_int w)) = Ok n.
Proof.
  intros f n W D (w & ws & I1). destruct (keyed_remark f _ _ _ W (not_atom "nb_atoms"%string eq_refl) I1) as (s & I2 & LY & _). rewrite (lookup_in _ _ _ _ (distinct_keys f D) I2). cbn [bind].
  rewrite words_strip, (words_layout _ _ LY), at_third. cbn [bind]. now rewrite py_int_str.
Qed.
Lemma cross_sections : forall f n wc wi wa vc vi va, well_formed f -> distinct_names f -> says_atoms f n -> three_sigmas f ->
  says_sigma f "coh" wc -> says_sigma f "inc" wi -> says_sigma f "abs" wa -> py_float wc = Some vc -> py_float wi = Some vi -> py_float wa = Some va ->
  exists xs, getCrossSections py_float (keyed f) = Ok xs /\ forall x r, lookup xs x = Ok r <-> In (x, r) [("coh"%string, (vc * IZR n)%R); ("inc"%string, (vi * IZR n)%R); ("abs"%string, (va * IZR n)%R)].
Proof.
  intros f n wc wi wa vc vi va W D AT T Sc Si Sa Ec Ei Ea. unfold getCrossSections. pose proof (atoms_line f n W D AT) as A.
  destruct (lookup (keyed f) "nb_atoms") as [l|]; cbn [bind] in A |- *; [|discriminate A]. destruct (at_index (words (strip l)) 2) as [w|]; cbn [bind] in A |- *; [|discriminate A]. rewrite A. cbn [bind].
  fold (sigma_part f). destruct (sigma_in f _ _ W Sc) as (sc & lc & Ic & Lc & Tc). destruct (sigma_in f _ _ W Si) as (si & li & Ii & Li & Ti). destruct (sigma_in f _ _ W Sa) as (sa & la & Ia & La & Ta).
  assert (NS : NoDup (map fst (sigma_part f))) by (apply keys_filter_nodup, distinct_keys, D).
  assert (K : forall k, In k (map fst (sigma_part f)) <-> In k ["sigma_coh"; "sigma_inc"; "sigma_abs"]%string).
  { intros k. split; [now apply sigma_keys|]. intros [<-|[<-|[<-|[]]]]; [exact (in_map fst _ _ Ic)|exact (in_map fst _ _ Ii)|exact (in_map fst _ _ Ia)]. }
  assert (LN : (List.length (sigma_part f) = 3)%nat).
  { rewrite <- (map_length fst). rewrite (Permutation_length (NoDup_Permutation NS (l' := ["sigma_coh"; "sigma_inc"; "sigma_abs"]%string) ltac:(repeat constructor; cbn [In]; intuition discriminate) K)). reflexivity. }
  rewrite LN. cbn [Nat.eqb negb]. set (vals := [("coh"%string, vc); ("inc"%string, vi); ("abs"%string, va)]).
  assert (NV : NoDup (map fst vals)) by (cbn; repeat constructor; cbn [In]; intuition discriminate).
  assert (F : Forall (sigma_entry n vals) (sigma_part f)).
  { rewrite Forall_forall. intros [k s] H. assert (Q := in_map fst _ _ H). cbn [fst] in Q. apply K in Q.
    assert (U : forall s', In (k, s') (sigma_part f) -> s = s') by (intros s' H'; pose proof (lookup_in _ _ _ _ NS H) as L1; rewrite (lookup_in _ _ _ _ NS H') in L1; congruence).
    destruct Q as [<-|[<-|[<-|[]]]]; [exists "coh"%string, vc; rewrite (U _ Ic)|exists "inc"%string, vi; rewrite (U _ Ii)|exists "abs"%string, va; rewrite (U _ Ia)];
      (split; [cbn; tauto|split; [reflexivity|intros xs; cbn [snd]; eapply sigma_line; eassumption]]). }
  destruct (sigmas n vals (sigma_part f) NV NS F []) as (xs & E & A1 & B1). exists xs. split; [exact E|]. intros x r.
  assert (Ac : lookup xs "coh" = Ok (vc * IZR n)%R) by (apply A1; [cbn; tauto|apply K; cbn; tauto]).
  assert (Ai : lookup xs "inc" = Ok (vi * IZR n)%R) by (apply A1; [cbn; tauto|apply K; cbn; tauto]).
  assert (Aa : lookup xs "abs" = Ok (va * IZR n)%R) by (apply A1; [cbn; tauto|apply K; cbn; tauto]).
  split.
  - intros H. destruct (in_dec string_dec ("sigma_" ++ x)%string (map fst (sigma_part f))) as [Q|Q].
    + apply K in Q. cbn [In] in Q. destruct Q as [Q|[Q|[Q|[]]]]; cbn in Q; injection Q as <-; [rewrite Ac in H|rewrite Ai in H|rewrite Aa in H]; injection H as <-; cbn; tauto.
    + rewrite (B1 x Q) in H. discriminate H.
  - intros [Q|[Q|[Q|[]]]]; injection Q as <- <-; assumption.
Qed.
Lemma int_entry : forall cols row name n x, lookup cols name = Ok (n - 1) -> reads_int row n x -> int_cell cols row name = Ok x.
Proof. intros cols row name n x LK E. unfold int_cell. rewrite (cell_entry _ _ _ _ _ LK E). cbn [bind]. now rewrite py_int_str. Qed.
Lemma F2_key : forall f, well_formed f -> (existsb (fun kv => String.eqb (fst kv) "column_F2") (keyed f) = true <-> exists w ws, In (w :: "column_F2"%string :: ws) (remarks f)).
Proof.
  intros f W. rewrite has_key, in_map_iff. split.
  - intros ([k s] & E & H). cbn [fst] in E. subst k. destruct (keyed_plain f _ s W (column_not_atom "_F2") H) as (w & ws & I1 & _). now exists w, ws.
  - intros (w & ws & I1). destruct (keyed_remark f _ _ _ W (not_atom "column_F2"%string eq_refl) I1) as (s & I2 & _). now exists ("column_F2"%string, s).
Qed.
Lemma peaks_main : forall f lat width dw nh nk nn nj, well_formed f -> ended f -> distinct_names f -> columns_ok f ->
  column f "column_h" nh -> column f "column_k" nk -> column f "column_l" nn -> column f "column_j" nj ->
  Forall (fun row => exists p, says_peak py_float (recbase_of lat) width dw f nh nk nn nj row p) (rows f) ->
  exists l, getPeaks py_float L recbase_of (text_of f) (keyed f) lat width dw = Ok (sort_peaks l) /\ Forall2 (says_peak py_float (recbase_of lat) width dw f nh nk nn nj) (rows f) l.
Proof.
  intros f lat width dw nh nk nn nj W E D CO Ch Ck Cl Cj RW. unfold getPeaks. destruct (columns f W D CO) as (cols & -> & CL). cbn [bind]. rewrite (table_rows f W E).
  destruct (each_forall _ _ (laz_row py_float L recbase_of (keyed f) lat width dw cols) _ (rows f) RW) as (l & -> & F); [|cbn [bind]; now exists l].
  intros row p (SF & Rj & Ew & Ed & h & k & n & Rh & Rk & Rl & Eq). unfold laz_row.
  rewrite (int_entry _ _ _ _ _ (proj1 (CL "_h"%string nh Ch) : lookup cols "column_h" = Ok (nh - 1)) Rh). cbn [bind].
  rewrite (int_entry _ _ _ _ _ (proj1 (CL "_k"%string nk Ck) : lookup cols "column_k" = Ok (nk - 1)) Rk). cbn [bind].
  rewrite (int_entry _ _ _ _ _ (proj1 (CL "_l"%string nn Cl) : lookup cols "column_l" = Ok (nn - 1)) Rl). cbn [bind].
  assert (X : (if existsb (fun kv => String.eqb (fst kv) "column_F2") (keyed f) then float_cell py_float cols row "column_F2" else let! F := float_cell py_float cols row "column_F" in Ok (F * F)%R) = Ok (z_F2 p)).
  { destruct SF as [(nf & Cf & Rf)|(NF & nf & y & Cf & Rf & Ef)].
    - rewrite (proj2 (F2_key f W)) by (destruct Cf as (w & ws & I1 & _); now exists w, (str_of_Z nf :: ws)).
      exact (float_entry _ _ _ _ _ _ (proj1 (CL "_F2"%string nf Cf) : lookup cols "column_F2" = Ok (nf - 1)) Rf).
    - destruct (existsb _ (keyed f)) eqn:Q; [apply (F2_key f W) in Q; destruct Q as (w & ws & I1); destruct (NF w ws I1)|].
      rewrite (float_entry _ _ _ _ _ _ (proj1 (CL "_F"%string nf Cf) : lookup cols "column_F" = Ok (nf - 1)) Rf). cbn [bind]. now rewrite Ef. }
  rewrite X. cbn [bind]. rewrite (int_entry _ _ _ _ _ (proj1 (CL "_j"%string nj Cj) : lookup cols "column_j" = Ok (nj - 1)) Rj). cbn [bind].
  rewrite laz_q_length, <- Eq, <- Ew, <- Ed. destruct p; reflexivity.
Qed.
Lemma laz_head : forall f lat wa wb wc wal wbe wga a b c al be ga width dw, well_formed f -> ended f -> nameable f -> distinct_names f -> says_cell f wa wb wc wal wbe wga ->
  py_float wa = Some a -> py_float wb = Some b -> py_float wc = Some c -> py_float wal = Some al -> py_float wbe = Some be -> py_float wga = Some ga -> Lattice a b c al be ga = Ok lat ->
  laz_parse py_float L Lattice recbase_of (text_of f) width dw =
  let! peaks := getPeaks py_float L recbase_of (text_of f) (keyed f) lat width dw in let! xs := getCrossSections py_float (keyed f) in Ok (lat, peaks, xs).
Proof.
  intros f lat wa wb wc wal wbe wga a b c al be ga width dw W E N D SC Ea Eb Ec Eal Ebe Ega EL. unfold laz_parse. rewrite (read_file f W E N D). cbn [bind].
  pose proof (cell_line py_float L Lattice f _ _ _ _ _ _ _ _ _ _ _ _ W D SC Ea Eb Ec Eal Ebe Ega) as C. destruct (lookup (keyed f) "CELL") as [s|]; cbn [bind] in C |- *; [|congruence]. now rewrite C, EL.
Qed.
Lemma missing_sigma : forall f n, well_formed f -> distinct_names f -> says_atoms f n -> (exists x y, forall w k ws, In (w :: ("sigma" ++ k)%string :: ws) (remarks f) -> k = x \/ k = y) -> getCrossSections py_float (keyed f) = Err AssertionError.
Proof.
  intros f n W D AT (x & y & H). unfold getCrossSections. pose proof (atoms_line f n W D AT) as A.
  destruct (lookup (keyed f) "nb_atoms") as [l|]; cbn [bind] in A |- *; [|discriminate A]. destruct (at_index (words (strip l)) 2) as [w|]; cbn [bind] in A |- *; [|discriminate A]. rewrite A. cbn [bind].
  fold (sigma_part f). assert (NS : NoDup (map fst (sigma_part f))) by (apply keys_filter_nodup, distinct_keys, D).
  assert (IN : incl (map fst (sigma_part f)) [("sigma" ++ x)%string; ("sigma" ++ y)%string]).
  { intros k Q. apply in_map_iff in Q. destruct Q as ([k' s] & E & Q). cbn [fst] in E. subst k'. apply filter_In in Q. destruct Q as [Q P]. cbn [fst] in P. apply prefix_iff in P. destruct P as (r & ->).
    destruct (keyed_plain f _ s W (sigma_not_atom r) Q) as (w' & ws & I1 & _). apply H in I1. destruct I1 as [->| ->]; cbn; tauto. }
  pose proof (NoDup_incl_length NS IN) as LE. rewrite map_length in LE. cbn [List.length] in LE. destruct (List.length (sigma_part f) =? 3)%nat eqn:Q; [apply Nat.eqb_eq in Q; lia|reflexivity].
Qed.
End numbers.
