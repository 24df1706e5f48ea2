(** Proofs for C45: what the generator yields. *)
From Coq Require Import Reals Lra Lia.
From Verif Require Import Base RotModel ChanModel ChanProofs PeakModel PeakSpec PeakProofs.
Open Scope R_scope.

Lemma F_i_is m v a : sqlen m v <> 0 ->
  F_i m v a = (site_weight m v (occupancy a, b_c a, B_T a, xyz a) * cos (phase v (xyz a)), site_weight m v (occupancy a, b_c a, B_T a, xyz a) * sin (phase v (xyz a))).
Proof.
  intros N. unfold F_i, site_weight. rewrite d_some by exact N. pose proof (sqrt_pos' _ _ N) as P. pose proof (sqlen_nonneg m v) as Q. pose proof (sqrt_def _ Q) as E.
  replace (B_T a / 4 / (1 / sqrt (sqlen m v)) / (1 / sqrt (sqlen m v))) with (B_T a * sqlen m v / 4) by (rewrite <- E at 1; field; lra).
  replace (2 * PI * vdot3 (realv v) (xyz a)) with (phase v (xyz a)) by (destruct v as [[h k] l]; reflexivity). cbv zeta. f_equal; ring.
Qed.
Lemma F_fold m v l : sqlen m v <> 0 -> forall z,
  fold_left (fun z a => let f := F_i m v a in (fst z + fst f, snd z + snd f)) l z =
  (fst z + factor_re m (map (fun a => (occupancy a, b_c a, B_T a, xyz a)) l) v, snd z + factor_im m (map (fun a => (occupancy a, b_c a, B_T a, xyz a)) l) v).
Proof.
  intros N. induction l as [|a l IH]; intros z; cbn [fold_left map].
  - unfold factor_re, factor_im. cbn. rewrite !Rplus_0_r. destruct z; reflexivity.
  - rewrite IH, F_i_is by exact N. unfold factor_re, factor_im, sum. cbn [map fold_right fst snd]. f_equal; ring.
Qed.
Lemma F_is s v : sqlen (recbase s) v <> 0 -> F_of s v = (factor_re (recbase s) (sites s) v, factor_im (recbase s) (sites s) v).
Proof. intros N. unfold F_of. rewrite F_fold by exact N. cbn [fst snd]. rewrite !Rplus_0_l. reflexivity. Qed.
Lemma cabs_sq z : cabs z ^ 2 = fst z * fst z + snd z * snd z.
Proof. unfold cabs. replace (sqrt (fst z * fst z + snd z * snd z) ^ 2) with (sqrt (fst z * fst z + snd z * snd z) * sqrt (fst z * fst z + snd z * snd z)) by ring. apply sqrt_def. nra. Qed.
Lemma bright_is s v : sqlen (recbase s) v <> 0 -> Rltb (/ 10000000) (cabs (F_of s v)) = true <-> bright (recbase s) (sites s) v.
Proof.
  intros N. rewrite Rltb_t. unfold bright. pose proof (cabs_sq (F_of s v)) as A. assert (P : 0 <= cabs (F_of s v)) by apply sqrt_pos.
  assert (B : factor_sq (recbase s) (sites s) v = cabs (F_of s v) ^ 2) by (rewrite A, F_is by exact N; reflexivity). rewrite B. replace (1 / 10 ^ 14) with (/ 10000000 * / 10000000) by field. set (c := cabs _) in *. split; intros H; [nra|].
  destruct (Rlt_le_dec (/ 10000000) c); [assumption|]. exfalso. assert (c * c <= / 10000000 * / 10000000) by (apply Rmult_le_compat; lra). nra.
Qed.
Lemma mult_is ops v : small_orbit ops v -> orbit_size ops v (multiplicity v ops).
Proof. intros S. destruct (equivalents_ok ops v S) as [A B]. exists (equivalent_hkls v ops). split; [exact A|]. split; [exact B|reflexivity]. Qed.

(** The reflections which are not passed over, and the peaks made of them. *)
Definition make_peak (s : structure) (v : refl) : peak :=
  mkPeak v (d_spacing (recbase s) v) (q_of (recbase s) v) (F_of s v) (cabs (F_of s v) ^ 2 / 100) (multiplicity v (symops s)).
Definition brightb (s : structure) (v : refl) : bool := Rltb (/ 10000000) (cabs (F_of s v)).
Fixpoint reps (ops : list imat) (powder : bool) (skip cs : list refl) : list refl :=
  match cs with
  | [] => []
  | v :: cs => if powder && existsb (hkl_eqb v) skip then reps ops powder skip cs else v :: reps ops powder (if powder then equivalent_hkls v ops ++ skip else skip) cs
  end.
Lemma peaks_are s powder cs : (forall v, In v cs -> sqlen (recbase s) v <> 0) -> forall skip,
  peaks_from s powder skip cs = Ok (map (make_peak s) (filter (brightb s) (reps (symops s) powder skip cs))).
Proof.
  induction cs as [|v cs IH]; intros N skip; cbn [peaks_from reps]; [reflexivity|].
  assert (N' : forall v, In v cs -> sqlen (recbase s) v <> 0) by (intros w Hw; apply N; right; exact Hw).
  destruct (powder && existsb (hkl_eqb v) skip)%bool; [apply IH; exact N'|]. cbv zeta. rewrite dq_is by (apply N; left; reflexivity). rewrite IH by exact N'. cbn [bind filter].
  fold (brightb s v). destruct (brightb s v); reflexivity.
Qed.
Lemma entry_made s v : sqlen (recbase s) v <> 0 -> entry_ok s (make_peak s v).
Proof.
  intros N. unfold entry_ok, make_peak. cbn [p_d p_q p_F p_F2 p_mult p_hkl]. split; [apply d_some; exact N|]. split; [apply q_is|]. split; [apply F_is; exact N|]. split; [|apply mult_is].
  rewrite cabs_sq, F_is by exact N. reflexivity.
Qed.
Lemma reps_single ops skip cs : reps ops false skip cs = cs.
Proof. induction cs as [|v cs IH]; cbn [reps andb]; [reflexivity|]. f_equal. exact IH. Qed.

Section Powder.
Variable ops : list imat.
Hypothesis G : group_like ops.
Lemma reps_from skip cs : forall v, In v (reps ops true skip cs) -> In v cs /\ ~ In v skip.
Proof.
  revert skip. induction cs as [|w cs IH]; intros skip v; cbn [reps andb]; [intros []|]. destruct (existsb (hkl_eqb w) skip) eqn:E.
  - intros H. apply IH in H. destruct H. split; [right; assumption|assumption].
  - intros [<-|H]; [split; [left; reflexivity|]; intros X; apply in_skip in X; congruence|]. apply IH in H. destruct H as [A B]. split; [right; exact A|]. intros X. apply B. apply in_app_iff. right. exact X.
Qed.
Lemma reps_cover cs : (forall v, In v cs -> small_orbit ops v) -> forall skip v, In v cs -> In v skip \/ exists r, In r (reps ops true skip cs) /\ related ops r v.
Proof using G.
  induction cs as [|w cs IH]; intros S skip v; [intros []|]. cbn [reps andb]. assert (S' : forall v, In v cs -> small_orbit ops v) by (intros x Hx; apply S; right; exact Hx).
  destruct (existsb (hkl_eqb w) skip) eqn:E.
  - intros [<-|H]; [left; apply in_skip; exact E|]. apply IH; assumption.
  - intros [<-|H]; [right; exists w; split; [left; reflexivity|apply (proj1 G)]|]. destruct (IH S' (equivalent_hkls w ops ++ skip) v H) as [X|[r [X Y]]].
    + apply in_app_iff in X. destruct X as [X|X]; [|left; exact X]. right. exists w. split; [left; reflexivity|]. apply (proj2 (equivalents_ok ops w (S w (or_introl eq_refl)))) in X. exact X.
    + right. exists r. split; [right; exact X|exact Y].
Qed.
Lemma reps_apart cs : (forall v, In v cs -> small_orbit ops v) -> forall skip, ForallOrdPairs (fun a b => ~ related ops a b) (reps ops true skip cs).
Proof.
  induction cs as [|w cs IH]; intros S skip; cbn [reps andb]; [constructor|]. assert (S' : forall v, In v cs -> small_orbit ops v) by (intros x Hx; apply S; right; exact Hx).
  destruct (existsb (hkl_eqb w) skip) eqn:E; [apply IH; exact S'|]. constructor; [|apply IH; exact S']. apply Forall_forall. intros x Hx R. apply reps_from in Hx. destruct Hx as [_ Hx]. apply Hx. apply in_app_iff. left.
  apply (proj2 (equivalents_ok ops w (S w (or_introl eq_refl)))). exact R.
Qed.
Lemma apart_unique l : ForallOrdPairs (fun a b => ~ related ops a b) l -> NoDup l /\ (forall a b, In a l -> In b l -> related ops a b -> a = b).
Proof using G.
  induction 1 as [|a l F H [N U]]; [split; [constructor|intros a b []]|]. rewrite Forall_forall in F. split.
  - constructor; [|exact N]. intros X. apply (F a X). apply (proj1 G).
  - intros x y [<-|Hx] [<-|Hy] R; [reflexivity|exfalso; exact (F y Hy R)|exfalso; apply (F x Hx); apply (proj2 (proj2 G)); exact R|apply U; assumption].
Qed.
End Powder.

Lemma map_hkl s l : map p_hkl (map (make_peak s) l) = l.
Proof. rewrite map_map. cbn. apply map_id. Qed.
Lemma reached_is m dmin lo hi v : det m <> 0 -> In v (candidates m dmin lo (hi + 1)) <-> reached m dmin lo hi v.
Proof. intros D. rewrite candidates_in by exact D. destruct v as [[h k] l]. unfold reached. split; intros H; repeat match goal with H : _ /\ _ |- _ => destruct H end; repeat split; try assumption; lia. Qed.
Lemma reached_nz m dmin lo hi v : det m <> 0 -> In v (candidates m dmin lo (hi + 1)) -> sqlen m v <> 0.
Proof. intros D H. apply reached_is in H; [|exact D]. destruct v as [[h k] l]. apply sqlen_nz; [exact D|]. apply H. Qed.

Lemma single_peaks s n dmin : det (recbase s) <> 0 ->
  exists ps, iter_peaks s n dmin SingleCrystal = Ok ps /\ NoDup (map p_hkl ps) /\ (forall p, In p ps -> entry_ok s p) /\
    (forall v, In v (map p_hkl ps) <-> reached (recbase s) dmin (- n) n v /\ bright (recbase s) (sites s) v).
Proof.
  intros D. unfold iter_peaks. set (cs := candidates _ _ _ _). assert (N : forall v, In v cs -> sqlen (recbase s) v <> 0) by (intros v; apply reached_nz; exact D).
  rewrite peaks_are by exact N. rewrite reps_single. eexists. split; [reflexivity|]. rewrite map_hkl. split; [apply NoDup_filter; apply candidates_nodup|]. split.
  - intros p Hp. apply in_map_iff in Hp. destruct Hp as [v [<- Hv]]. apply filter_In in Hv. apply entry_made. apply N. apply Hv.
  - intros v. rewrite filter_In. split.
    + intros [A B]. split; [apply reached_is; [exact D|exact A]|]. apply bright_is; [apply N; exact A|exact B].
    + intros [A B]. apply reached_is in A; [|exact D]. split; [exact A|]. apply bright_is; [apply N; exact A|exact B].
Qed.

Lemma powder_peaks s n dmin : det (recbase s) <> 0 -> group_like (symops s) -> (forall v, reached (recbase s) dmin 0 n v -> small_orbit (symops s) v) ->
  exists ps, iter_peaks s n dmin Powder = Ok ps /\ NoDup (map p_hkl ps) /\ (forall p, In p ps -> entry_ok s p) /\
    (forall v, In v (map p_hkl ps) -> reached (recbase s) dmin 0 n v /\ bright (recbase s) (sites s) v) /\
    (forall v w, In v (map p_hkl ps) -> In w (map p_hkl ps) -> related (symops s) v w -> v = w) /\
    (forall v, reached (recbase s) dmin 0 n v -> exists r, reached (recbase s) dmin 0 n r /\ related (symops s) r v /\ (bright (recbase s) (sites s) r -> In r (map p_hkl ps))).
Proof.
  intros D G S. unfold iter_peaks. set (cs := candidates _ _ _ _). assert (N : forall v, In v cs -> sqlen (recbase s) v <> 0) by (intros v; apply reached_nz; exact D).
  assert (S' : forall v, In v cs -> small_orbit (symops s) v) by (intros v Hv; apply S; apply reached_is; assumption).
  rewrite peaks_are by exact N. eexists. split; [reflexivity|]. rewrite map_hkl. destruct (apart_unique (symops s) G _ (reps_apart (symops s) cs S' [])) as [ND U].
  split; [apply NoDup_filter; exact ND|]. split.
  { intros p Hp. apply in_map_iff in Hp. destruct Hp as [v [<- Hv]]. apply filter_In in Hv. apply entry_made. apply N. apply (reps_from (symops s) [] cs v). apply Hv. }
  split.
  { intros v Hv. apply filter_In in Hv. destruct Hv as [A B]. apply reps_from in A. destruct A as [A _]. split; [apply reached_is; assumption|]. apply bright_is; [apply N; exact A|exact B]. }
  split.
  { intros v w Hv Hw. apply filter_In in Hv, Hw. apply U; [apply Hv|apply Hw]. }
  intros v Hv. apply reached_is in Hv; [|exact D]. destruct (reps_cover (symops s) G cs S' [] v Hv) as [[]|[r [A B]]]. pose proof (reps_from _ _ _ _ A) as [C _]. exists r. split; [apply reached_is; assumption|]. split; [exact B|].
  intros H. apply filter_In. split; [exact A|]. apply bright_is; [apply N; exact C|exact H].
Qed.
Lemma powder_once s n dmin : det (recbase s) <> 0 -> group_like (symops s) -> (forall v, reached (recbase s) dmin 0 n v -> small_orbit (symops s) v) ->
  (forall v w, related (symops s) v w -> bright (recbase s) (sites s) v -> bright (recbase s) (sites s) w) ->
  exists ps, iter_peaks s n dmin Powder = Ok ps /\
    (forall v, bright (recbase s) (sites s) v -> (exists u, related (symops s) v u /\ reached (recbase s) dmin 0 n u) -> exists! p, In p ps /\ related (symops s) v (p_hkl p)).
Proof.
  intros D G S F. destruct (powder_peaks s n dmin D G S) as (ps & A & ND & _ & _ & U & C). exists ps. split; [exact A|]. intros v Bv [u [Ru Hu]]. destruct (C u Hu) as (r & Hr & Rr & Br).
  assert (Rv : related (symops s) v r). { apply (proj1 (proj2 G) v u r); [exact Ru|]. apply (proj2 (proj2 G)). exact Rr. }
  assert (Ir : In r (map p_hkl ps)) by (apply Br; apply (F v r Rv Bv)). apply in_map_iff in Ir. destruct Ir as [p [Ep Ip]]. exists p. split; [split; [exact Ip|rewrite Ep; exact Rv]|].
  intros p' [Ip' Rp']. assert (E : p_hkl p = p_hkl p').
  { apply U; [apply in_map; exact Ip|apply in_map; exact Ip'|]. apply (proj1 (proj2 G) (p_hkl p) v (p_hkl p')); [|exact Rp']. apply (proj2 (proj2 G)). rewrite Ep. exact Rv. }
  clear - ND Ip Ip' E. induction ps as [|x ps IH]; [destruct Ip|]. cbn [map] in ND. inversion ND as [|? ? X Y]; subst. destruct Ip as [<-|Ip], Ip' as [<-|Ip']; [reflexivity| | |apply IH; assumption].
  - exfalso. apply X. rewrite E. apply in_map. exact Ip'.
  - exfalso. apply X. rewrite <- E. apply in_map. exact Ip.
Qed.
