(** C59, continued: from the conditions on each body to the search. *)
From Coq Require Import Reals Lra Lia Sorted Permutation.
From Verif Require Import Base RotModel RotSpec ChanModel ChanProofs ShapeModel ShapeSpec ShapeProofs ShapeProofs2 ShapeProofs3 ScatSpec HitModel HitSpec HitProofs.
Open Scope R_scope.

Lemma tag_fop (P : tiv -> tiv -> Prop) l : forall k, (forall ivs i, In ivs l -> ForallOrdPairs P (map (pair i) ivs)) ->
  (forall x y, In x (tag k l) -> In y (tag k l) -> fst x <> fst y -> P x y) -> ForallOrdPairs P (tag k l).
Proof.
  induction l as [|ivs l IH]; intros k W C; [constructor|]. cbn [tag] in *. apply fop_app.
  - apply W. now left.
  - apply IH; [intros; apply W; now right|]. intros x y X Y. apply C; apply in_app_iff; now right.
  - intros x y X Y. apply C; try (apply in_app_iff; auto). apply in_map_iff in X. destruct X as (p & <- & _). destruct y as (j & a & b). apply tag_in in Y.
    destruct Y as (? & L & _). cbn. lia.
Qed.
Lemma sorted_fop {A} (P : A -> A -> Prop) l : StronglySorted P l -> ForallOrdPairs P l.
Proof. induction 1; constructor; assumption. Qed.
Lemma fop_impl {A} (P Q : A -> A -> Prop) l : (forall x y, P x y -> Q x y) -> ForallOrdPairs P l -> ForallOrdPairs Q l.
Proof. intros I. induction 1 as [|x l F]; constructor; [|assumption]. eapply Forall_impl; [|exact F]. intros. now apply I. Qed.
Lemma fop_map {A B} (f : A -> B) (P : B -> B -> Prop) l : ForallOrdPairs (fun x y => P (f x) (f y)) l -> ForallOrdPairs P (map f l).
Proof. induction 1 as [|x l F]; constructor; [|assumption]. apply Forall_map. exact F. Qed.

Definition follows (tol : R) (r v : vec3) (s : shape) (ivs : list (R * R)) : Prop :=
  profile s r v ivs /\ intersect tol s r v = ends ivs /\
    forall a b, In (a, b) ivs -> 0 < b -> locate tol s (on_line r v ((Rmax a 0 + b) / 2)) = Inside.
Lemma follow_all tol r v shapes : Forall (fun s => followed tol s r v) shapes -> exists l, Forall2 (follows tol r v) shapes l.
Proof. induction 1 as [|s shapes (ivs & H) F (l & IH)]; [exists []; constructor|]. exists (ivs :: l). constructor; assumption. Qed.
Lemma f2_nth {A B} (P : A -> B -> Prop) l l' : Forall2 P l l' -> forall i,
  (forall x, nth_error l i = Some x -> exists y, nth_error l' i = Some y /\ P x y) /\ (forall y, nth_error l' i = Some y -> exists x, nth_error l i = Some x /\ P x y).
Proof.
  induction 1 as [|x y l l' H F IH]; intros [|i]; cbn; split; try discriminate; try (intros ? E; injection E as <-; eauto); apply IH.
Qed.
Lemma ends_in t ivs : In t (ends ivs) <-> exists a b, In (a, b) ivs /\ (t = a \/ t = b).
Proof.
  unfold ends. rewrite in_flat_map. split.
  - intros ((a & b) & I & [E|[E|[]]]); cbn in E; exists a, b; auto.
  - intros (a & b & I & E). exists (a, b). split; [exact I|]. cbn. destruct E; auto.
Qed.

Section Assemble.
Context (tol : R) (shapes : list shape) (r v : vec3) (l : list (list (R * R))).
Hypothesis Ht : 0 < tol.
Hypothesis WF : Forall wf shapes.
Hypothesis FL : Forall2 (follows tol r v) shapes l.
Hypothesis AP : apart shapes r v.

Lemma tag_wf : Forall (fun y => lo y < hi y) (tag 0 l).
Proof using FL.
  rewrite Forall_forall. intros (i & a & b) I. apply tag_in in I. destruct I as (ivs & _ & N & I). destruct (f2_nth _ _ _ FL (i - 0)) as (_ & K).
  destruct (K ivs N) as (s & _ & (P & _) & _). cbn. now apply P.
Qed.
Lemma tag_core i s t : nth_error shapes i = Some s -> (core s (on_line r v t) <-> exists a b, In (i, (a, b)) (tag 0 l) /\ a < t < b).
Proof using FL.
  intros N. destruct (f2_nth _ _ _ FL i) as (K & _). destruct (K s N) as (ivs & N' & (_ & _ & C & _) & _). rewrite C. split.
  - intros (a & b & I & T). exists a, b. split; [|exact T]. apply tag_in. exists ivs. split; [lia|]. now rewrite Nat.sub_0_r.
  - intros (a & b & I & T). apply tag_in in I. destruct I as (ivs' & _ & N2 & I). rewrite Nat.sub_0_r in N2. exists a, b. split; [congruence|exact T].
Qed.
Lemma tag_nth i a b : In (i, (a, b)) (tag 0 l) -> exists s ivs, nth_error shapes i = Some s /\ follows tol r v s ivs /\ In (a, b) ivs.
Proof using FL.
  intros I. apply tag_in in I. destruct I as (ivs & _ & N & I). rewrite Nat.sub_0_r in N. destruct (f2_nth _ _ _ FL i) as (_ & K).
  destruct (K ivs N) as (s & N' & F). exists s, ivs. auto.
Qed.
Lemma tag_pairs : ForallOrdPairs (fun x y => before x y \/ before y x) (tag 0 l).
Proof using FL AP.
  apply tag_fop.
  - intros ivs i I. apply fop_map. apply (fop_impl (fun p q => snd p <= fst q)); [intros [? ?] [? ?]; cbn; unfold before, lo, hi; cbn; auto|].
    apply sorted_fop. apply In_nth_error in I. destruct I as (k & I). destruct (f2_nth _ _ _ FL k) as (_ & K). destruct (K ivs I) as (s & _ & (_ & S1 & _) & _). exact S1.
  - intros (i & a & b) (j & c & d) X Y D. cbn in D. pose proof tag_wf as W. rewrite Forall_forall in W. pose proof (W _ X) as W1. pose proof (W _ Y) as W2.
    unfold before, lo, hi in *. cbn in *. apply disjoint_before; [exact W1|exact W2|]. intros t T1 T2.
    destruct (tag_nth _ _ _ X) as (s & _ & N1 & _). destruct (tag_nth _ _ _ Y) as (s' & _ & N2 & _).
    apply (AP i j s s' t N1 N2 D); [apply (tag_core i s t N1)|apply (tag_core j s' t N2)]; eauto.
Qed.
Lemma tag_ends i a b s : In (i, (a, b)) (tag 0 l) -> nth_error shapes i = Some s ->
  forall t, t = a \/ t = b -> solid s (on_line r v t) /\ forall j s', nth_error shapes j = Some s' -> ~ core s' (on_line r v t).
Proof using FL AP.
  intros I N t T. pose proof tag_wf as W. pose proof tag_pairs as P. destruct (tag_nth _ _ _ I) as (s0 & ivs & N0 & ((_ & _ & _ & SL) & _) & I0).
  rewrite N in N0. injection N0 as <-. rewrite Forall_forall in W. pose proof (W _ I) as W1. unfold lo, hi in W1. cbn in W1.
  split; [apply SL; exists a, b; split; [exact I0|lra]|]. intros j s' N' C. apply (tag_core _ _ _ N') in C. destruct C as (c & d & J & T2).
  assert (B : (i, (a, b)) = (j, (c, d)) \/ before (i, (a, b)) (j, (c, d)) \/ before (j, (c, d)) (i, (a, b))).
  { destruct (ForallOrdPairs_In P _ _ I J) as [E|[[E|E]|[E|E]]]; auto. }
  unfold before, lo, hi in B. cbn in B. destruct B as [B|[B|B]]; [injection B as _ <- <-|..]; lra.
Qed.

Lemma union_border t : In t (flat_map ends l) -> locate tol (Union shapes) (on_line r v t) = Onborder.
Proof using Ht WF FL AP.
  intros I. apply in_flat_map in I. destruct I as (ivs & I & E). apply In_nth_error in I. destruct I as (i & I). apply ends_in in E. destruct E as (a & b & J & E).
  assert (X : In (i, (a, b)) (tag 0 l)) by (apply tag_in; exists ivs; rewrite Nat.sub_0_r; auto with arith).
  destruct (tag_nth _ _ _ X) as (s & _ & N & _). destruct (tag_ends _ _ _ _ X N t E) as (A & B).
  assert (WU : wf (Union shapes)) by (cbn; now apply fold_and_map).
  destruct (locate_right tol (Union shapes) (on_line r v t) WU Ht) as (_ & _ & K). apply K. split.
  - unfold solid. cbn. rewrite Exists_exists. exists (fst (body s)). split; [|exact A]. apply in_map_iff. exists s. split; [reflexivity|]. now apply nth_error_In in N.
  - unfold core. cbn. rewrite Exists_exists. intros (Q & IQ & C). apply in_map_iff in IQ. destruct IQ as (s' & <- & IS). apply In_nth_error in IS. destruct IS as (j & IS).
    exact (B j s' IS C).
Qed.
Lemma filter_all {A} (f : A -> bool) l0 : (forall x, In x l0 -> f x = true) -> filter f l0 = l0.
Proof. induction l0 as [|x l0 IH]; intros H; [reflexivity|]. cbn. rewrite H by now left. f_equal. apply IH. intros. apply H. now right. Qed.
Lemma union_times : flat_map (fun d => filter (on_border_of tol (Union shapes) r v) d) (map (fun s => intersect tol s r v) shapes) = flat_map ends l.
Proof using Ht WF FL AP.
  assert (E : map (fun s => intersect tol s r v) shapes = map ends l).
  { clear - FL. induction FL as [|s ivs ss ll (_ & E & _) F IH]; [reflexivity|]. cbn. now rewrite E, IH. }
  rewrite E. pose proof union_border as UB. revert UB. generalize (Union shapes). intros u UB. clear - UB. induction l as [|ivs ll IH]; [reflexivity|]. cbn [map flat_map] in *. f_equal.
  - apply filter_all. intros t T. unfold on_border_of. rewrite arrow_line, UB; [reflexivity|]. apply in_app_iff. now left.
  - apply IH. intros t T. apply UB. apply in_app_iff. now right.
Qed.

Lemma hit_found : match find_1st_hit tol r v shapes with Some i => first_met shapes r v i | None => none_met shapes r v end.
Proof using Ht WF FL AP.
  destruct (tsort (tag 0 l) tag_wf tag_pairs) as (ts & P & SO).
  assert (WI : Forall (fun y => lo y < hi y) ts).
  { pose proof tag_wf as W. rewrite Forall_forall in W |- *. intros y Y. apply W. now apply (Permutation_in _ (Permutation_sym P)). }
  apply (hit_right tol shapes r v ts); try assumption.
  - intros i s t N. rewrite (tag_core i s t N). split; intros (a & b & I & T); exists a, b; (split; [|exact T]); [now apply (Permutation_in _ P)|now apply (Permutation_in _ (Permutation_sym P))].
  - intros i a b I. apply (Permutation_in _ (Permutation_sym P)) in I. destruct (tag_nth _ _ _ I) as (s & ivs & N & (_ & _ & TH) & J). exists s. split; [exact N|]. intros B. now apply TH.
  - intros i a b s I N. apply (Permutation_in _ (Permutation_sym P)) in I. unfold border.
    destruct (tag_ends _ _ _ _ I N a (or_introl eq_refl)) as (A1 & A2). destruct (tag_ends _ _ _ _ I N b (or_intror eq_refl)) as (B1 & B2).
    split; split; try assumption; eauto.
  - unfold forward_intersect, forward. f_equal. cbn [intersect]. unfold visit_composition. rewrite union_times. apply perm_sorted_eq.
    + apply rsort_sorted.
    + now apply tends_sorted.
    + rewrite rsort_perm, <- (tends_tag l 0). now apply tends_perm.
Qed.
End Assemble.

Lemma first_met_unique shapes r v i j : apart shapes r v -> first_met shapes r v i -> first_met shapes r v j -> i = j.
Proof.
  intros AP (s & a & b & N & L & C & O1) (s' & a' & b' & N' & L' & C' & O2). destruct (Nat.eq_dec i j) as [|D]; [assumption|]. exfalso.
  destruct (Rle_lt_dec b a') as [K|K].
  - apply (O2 s ((a + b) / 2)); [now apply nth_error_In in N|lra|]. apply C. lra.
  - destruct (Rle_lt_dec b' a) as [M|M].
    + apply (O1 s' ((a' + b') / 2)); [now apply nth_error_In in N'|lra|]. apply C'. lra.
    + assert (T : exists t, a < t < b /\ a' < t < b').
      { exists ((Rmax a a' + Rmin b b') / 2). unfold Rmax, Rmin. destruct (Rle_dec a a'), (Rle_dec b b'); lra. }
      destruct T as (t & T1 & T2). exact (AP i j s s' t N N' D (C t T1) (C' t T2)).
Qed.
Lemma met_not_none shapes r v i : first_met shapes r v i -> none_met shapes r v -> False.
Proof. intros (s & a & b & N & L & C & _) H. apply (H s ((a + b) / 2)); [now apply nth_error_In in N|lra|]. apply C. lra. Qed.

Lemma first_hit tol shapes r v : 0 < tol -> Forall wf shapes -> Forall (fun s => followed tol s r v) shapes -> apart shapes r v ->
  (forall i, find_1st_hit tol r v shapes = Some i <-> first_met shapes r v i) /\ (find_1st_hit tol r v shapes = None <-> none_met shapes r v).
Proof.
  intros Ht WF FO AP. destruct (follow_all _ _ _ _ FO) as (l & FL). pose proof (hit_found tol shapes r v l Ht WF FL AP) as H.
  destruct (find_1st_hit tol r v shapes) as [k|]; split.
  - intros i. split; [intros E; injection E as <-; exact H|]. intros M. f_equal. exact (first_met_unique _ _ _ _ _ AP H M).
  - split; [discriminate|]. intros M. exfalso. exact (met_not_none _ _ _ _ H M).
  - intros i. split; [discriminate|]. intros M. exfalso. exact (met_not_none _ _ _ _ M H).
  - split; auto.
Qed.
