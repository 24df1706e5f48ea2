(** Proofs for C32 and C33. *)
From Coq Require Import Reals Lra Psatz FinFun.
From Verif Require Import Base RotModel DetModel DetSpec DetProofs ChanModel ChanSpec ChanProofs MonModel MonSpec.
From Coq Require Import ZifyBool.
Open Scope R_scope.

(** ** crossing the plane *)
Lemma propagate_some n m : propagateToZ0 n = Some m <-> crosses n m.
Proof.
  unfold propagateToZ0, crosses. destruct (Req_EM_T (vz (e_v n)) 0) as [E|E]; split.
  - discriminate.
  - intros (dt & _ & H & _). contradiction.
  - intros H. inversion H; subst m; clear H. exists (- vz (e_r n) / vz (e_v n)); cbn.
    assert (Z0 : vz (e_r n) + vz (e_v n) * (- vz (e_r n) / vz (e_v n)) = 0) by (field; exact E).
    split; [exact Z0|]. split; [exact E|]. split.
    { unfold displaced. cbn. f_equal; lra. }
    auto 10.
  - intros (dt & Z0 & _ & R & V & Tm & S1 & S2 & P).
    assert (Ed : dt = - vz (e_r n) / vz (e_v n)) by (apply (Rmult_eq_reg_l (vz (e_v n))); [field_simplify; lra|exact E]).
    destruct m as [r v s1 s2 t p]; cbn in *. subst. f_equal. f_equal.
    unfold displaced. f_equal; lra.
Qed.
Lemma crosses_fun n m m' : crosses n m -> crosses n m' -> m = m'.
Proof. rewrite <- !propagate_some. congruence. Qed.

Lemma rows_crossings (P : event -> Prop) f ns : (forall m, f m = true <-> P m) ->
  crossings P ns (propagated_rows f ns).
Proof.
  intros F. induction ns as [|n ns IH]; [constructor|].
  unfold propagated_rows; cbn [flat_map]; fold (propagated_rows f ns).
  destruct (propagateToZ0 n) as [m|] eqn:E.
  - apply propagate_some in E. destruct (f m) eqn:Em; cbn [app].
    + apply cr_take; [exact E|apply F; exact Em|exact IH].
    + apply cr_skip; [|exact IH]. intros m' C Pm. rewrite (crosses_fun n m m' E C) in Em. apply F in Pm. congruence.
  - cbn [app]. apply cr_skip; [|exact IH]. intros m' C _. apply propagate_some in C. congruence.
Qed.
Lemma crossings_fun P ns ms ms' : crossings P ns ms -> crossings P ns ms' -> ms = ms'.
Proof.
  intros H; revert ms'. induction H as [|n m ns ms C Pm _ IH|n ns ms N _ IH]; intros ms' H'; inversion H'; subst; auto.
  - f_equal; [eapply crosses_fun; eauto|auto].
  - exfalso. match goal with X : forall m, crosses n m -> ~ P m |- _ => exact (X m C Pm) end.
  - exfalso. eapply N; eauto.
Qed.
Lemma in_area_spec w h m : in_area w h m = true <-> on_monitor w h m.
Proof.
  unfold in_area, on_monitor. rewrite !Bool.andb_true_iff, !Rleb_true. tauto.
Qed.
Lemma in_window_spec a m : in_window a m = true <-> in_detector a m.
Proof.
  unfold in_window, in_detector, in_interval. rewrite !Bool.andb_true_iff, !Rleb_true, !Rltb_t. tauto.
Qed.

(** ** bins *)
Lemma filter_seq_count (f : nat -> bool) m : forall n s, (m <= n)%nat -> (forall i, (s <= i < s + n)%nat -> f i = true <-> (i < s + m)%nat) ->
  List.length (filter f (seq s n)) = m.
Proof.
  intros n; revert m. induction n as [|n IH]; intros m s L H; cbn [seq filter]; [cbn; lia|].
  destruct m as [|m].
  - assert (f s = false) by (destruct (f s) eqn:E; [apply H in E; lia|reflexivity]). rewrite H0.
    rewrite (IH 0%nat (S s)); [reflexivity|lia|]. intros i Hi. rewrite H by lia. lia.
  - assert (f s = true) by (apply H; lia). rewrite H0. cbn [List.length]. f_equal.
    apply IH; [lia|]. intros i Hi. rewrite H by lia. lia.
Qed.
Lemma filter_map_length {A B} (g : A -> B) (f : B -> bool) l : List.length (filter f (map g l)) = List.length (filter (fun x => f (g x)) l).
Proof. induction l as [|x l IH]; cbn; [reflexivity|]. destruct (f (g x)); cbn; auto. Qed.

Section Axis.
  Variable a : axis.
  Hypothesis ok : axis_ok a.
  Let w := (a_max a - a_min a) / INR (a_bins a).
  Lemma bins_pos : 0 < INR (a_bins a).
  Proof. destruct ok. apply lt_0_INR. lia. Qed.
  Lemma w_pos : 0 < w.
  Proof. destruct ok. unfold w. pose proof bins_pos. apply Rdiv_lt_0_compat; lra. Qed.
  Lemma w_total : INR (a_bins a) * w = a_max a - a_min a.
  Proof. unfold w. pose proof bins_pos. field. lra. Qed.
  Lemma edge_mono i j : (i <= j)%nat -> a_min a + INR i * w <= a_min a + INR j * w.
  Proof. intros H. pose proof w_pos. apply le_INR in H. nra. Qed.

  Lemma count_edges x k : (k <= a_bins a)%nat -> a_min a + INR k * w <= x -> (k = a_bins a \/ x < a_min a + (INR k + 1) * w) ->
    searchsorted_right (edges a) x = S k.
  Proof.
    intros L A B. unfold searchsorted_right, edges. fold w. rewrite filter_map_length. apply filter_seq_count; [lia|].
    intros i Hi. rewrite Rleb_true. split.
    - intros Hx. destruct B as [->|B]; [lia|]. pose proof w_pos.
      assert (INR i * w < (INR k + 1) * w) by lra. apply Rmult_lt_reg_r in H0; [|exact H].
      rewrite <- S_INR in H0. apply INR_lt in H0. lia.
    - intros Hk. pose proof (edge_mono i k ltac:(lia)). lra.
  Qed.
  Lemma count_edges_below x : x < a_min a -> searchsorted_right (edges a) x = 0%nat.
  Proof.
    intros H. unfold searchsorted_right, edges. fold w. rewrite filter_map_length. apply filter_seq_count; [lia|].
    intros i Hi. rewrite Rleb_true. split; [|lia]. intros Hx. pose proof (edge_mono 0 i ltac:(lia)). cbn in H0. lra.
  Qed.
  Lemma bin_of_below x : x < a_min a -> bin_of a x = None.
  Proof.
    intros H. unfold bin_of. rewrite (count_edges_below x H). destruct (Req_EM_T x (a_max a)); reflexivity.
  Qed.
  Lemma bin_of_above x : a_max a < x -> bin_of a x = None.
  Proof.
    intros H. unfold bin_of. rewrite (count_edges x (a_bins a)); [|lia| |left; reflexivity].
    - destruct (Req_EM_T x (a_max a)); [lra|]. rewrite Nat.ltb_irrefl. reflexivity.
    - rewrite w_total. lra.
  Qed.
  Lemma bin_of_in x k : (k < a_bins a)%nat -> a_min a + INR k * w <= x -> x < a_min a + (INR k + 1) * w -> bin_of a x = Some k.
  Proof.
    intros L A B. unfold bin_of. rewrite (count_edges x k) by (auto; lia).
    destruct (Req_EM_T x (a_max a)) as [E|_].
    - pose proof (edge_mono (S k) (a_bins a) ltac:(lia)). rewrite S_INR, w_total in H. lra.
    - replace (Nat.ltb k (a_bins a)) with true by (symmetry; apply Nat.ltb_lt; exact L). reflexivity.
  Qed.
  Lemma bin_of_last : bin_of a (a_max a) = Some (a_bins a - 1)%nat.
  Proof.
    destruct ok as [_ P]. unfold bin_of. rewrite (count_edges (a_max a) (a_bins a)); [|lia| |left; reflexivity].
    - destruct (Req_EM_T (a_max a) (a_max a)); [|contradiction].
      replace (S (a_bins a) - 1)%nat with (S (a_bins a - 1)) by lia.
      replace (Nat.ltb (a_bins a - 1) (a_bins a)) with true by (symmetry; apply Nat.ltb_lt; lia). reflexivity.
    - rewrite w_total. lra.
  Qed.
  Lemma bin_exists x : a_min a <= x -> x < a_max a -> exists k, (k < a_bins a)%nat /\ a_min a + INR k * w <= x < a_min a + (INR k + 1) * w.
  Proof.
    intros A B. pose proof w_pos as W. pose proof w_total as WT.
    assert (Q : 0 <= (x - a_min a) / w) by (apply Rle_mult_inv_pos; lra).
    pose proof (floor_nonneg _ Q) as F. destruct (floor_bounds ((x - a_min a) / w)) as [F1 F2].
    exists (Z.to_nat (floorZ ((x - a_min a) / w))).
    assert (I : INR (Z.to_nat (floorZ ((x - a_min a) / w))) = IZR (floorZ ((x - a_min a) / w))) by (rewrite INR_IZR_INZ, Z2Nat.id by exact F; reflexivity).
    assert (E : (x - a_min a) / w * w = x - a_min a) by (field; lra).
    rewrite I. split; [|split; nra].
    apply INR_lt. rewrite I. apply (Rmult_lt_reg_r w); [exact W|]. rewrite WT. nra.
  Qed.

  Lemma bin_of_spec x k : bin_of a x = Some k <-> in_bin a k x = true.
  Proof.
    unfold in_bin. fold w. rewrite !Bool.andb_true_iff, Bool.orb_true_iff, Bool.andb_true_iff, Nat.ltb_lt, Nat.eqb_eq, !Rleb_true, Rltb_t.
    split.
    - intros H. destruct (Rlt_dec x (a_min a)); [rewrite bin_of_below in H by assumption; discriminate|].
      destruct (Rlt_dec (a_max a) x); [rewrite bin_of_above in H by assumption; discriminate|].
      destruct (Req_dec x (a_max a)) as [->|N].
      + rewrite bin_of_last in H. inversion H; subst k. destruct ok as [_ P]. split; [split; [lia|]|].
        * pose proof (edge_mono (a_bins a - 1) (a_bins a) ltac:(lia)). rewrite w_total in H0. lra.
        * right. split; [lia|lra].
      + destruct (bin_exists x) as (j & J & J1 & J2); [lra|lra|]. rewrite (bin_of_in x j) in H by assumption. inversion H; subst j. auto.
    - intros [[L A] [B|[E B]]]; [apply bin_of_in; assumption|].
      destruct (Req_dec x (a_max a)) as [->|N]; [rewrite bin_of_last; f_equal; lia|].
      apply bin_of_in; [assumption|assumption|]. rewrite <- S_INR, E, w_total. lra.
  Qed.
  Lemma bin_of_range x : (exists k, bin_of a x = Some k) <-> a_min a <= x <= a_max a.
  Proof.
    split.
    - intros [k H]. destruct (Rlt_dec x (a_min a)); [rewrite bin_of_below in H by assumption; discriminate|].
      destruct (Rlt_dec (a_max a) x); [rewrite bin_of_above in H by assumption; discriminate|]. lra.
    - intros [A B]. destruct (Req_dec x (a_max a)) as [->|N]; [eexists; apply bin_of_last|].
      destruct (bin_exists x) as (j & J & J1 & J2); [lra|lra|]. exists j. apply bin_of_in; assumption.
  Qed.
  Lemma bin_of_lt x k : bin_of a x = Some k -> (k < a_bins a)%nat.
  Proof. intros H. apply bin_of_spec in H. unfold in_bin in H. rewrite !Bool.andb_true_iff, Nat.ltb_lt in H. tauto. Qed.

  Lemma axis_shape_ok : axis_shape a = Ok (a_bins a).
  Proof.
    destruct ok as [A B]. unfold axis_shape. replace (Rleb (a_max a) (a_min a)) with false by (symmetry; apply Rleb_false; lra).
    transitivity (Ok (Z.to_nat (arange_len (a_min a) (a_max a + w / 10) w - 1))); [unfold w; destruct (a_bins a); [lia|reflexivity]|].
    f_equal. unfold arange_len.
    pose proof w_pos as W. pose proof w_total as WT.
    assert (E : (a_max a + w / 10 - a_min a) / w = INR (a_bins a) + / 10).
    { apply (Rmult_eq_reg_r w); [|lra]. rewrite Rmult_plus_distr_r, WT. field. lra. }
    rewrite E, INR_IZR_INZ.
    rewrite (floor_unique _ (- Z.of_nat (a_bins a) - 1)).
    - replace (- (- Z.of_nat (a_bins a) - 1) - 1)%Z with (Z.of_nat (a_bins a)) by lia. apply Nat2Z.id.
    - rewrite minus_IZR, opp_IZR. lra.
  Qed.
End Axis.

Lemma engine_shape_gen axes : Forall axis_ok axes -> forall s,
  fold_result (fun s a => match axis_shape a with Ok k => Ok (s ++ [k]) | Err e => Err e end) axes s = Ok (s ++ map a_bins axes).
Proof.
  induction 1 as [|a axes H _ IH]; intros s; cbn; [rewrite app_nil_r; reflexivity|].
  rewrite (axis_shape_ok a H). cbn. rewrite IH, <- app_assoc. reflexivity.
Qed.
Lemma engine_shape_ok axes : Forall axis_ok axes -> engine_shape axes = Ok (map a_bins axes).
Proof. intros H. exact (engine_shape_gen axes H []). Qed.

Lemma multi_index_spec axes m : Forall axis_ok axes -> forall idx, multi_index axes m = Some idx <-> in_bins axes idx m = true.
Proof.
  induction 1 as [|a axes H _ IH]; intros idx; cbn [multi_index in_bins].
  - destruct idx; split; intros E; try discriminate; reflexivity.
  - destruct idx as [|k idx].
    + split; [|discriminate]. destruct (a_expr a m); [|discriminate]. destruct (bin_of a r); [|discriminate]. destruct (multi_index axes m); discriminate.
    + rewrite Bool.andb_true_iff, <- IH. destruct (a_expr a m) as [x|]; [|split; [discriminate|intros []; discriminate]].
      rewrite <- (bin_of_spec a H). destruct (bin_of a x); [|split; [discriminate|intros []; discriminate]].
      destruct (multi_index axes m); split; intros E; try discriminate; try (destruct E; discriminate).
      * inversion E; auto.
      * destruct E as [E1 E2]. inversion E1; inversion E2; reflexivity.
Qed.
Lemma multi_index_ranges axes m : Forall axis_ok axes -> (exists idx, multi_index axes m = Some idx) <-> in_ranges axes m = true.
Proof.
  unfold in_ranges. induction 1 as [|a axes H _ IH]; cbn [multi_index forallb].
  - split; [reflexivity|intros _; eexists; reflexivity].
  - rewrite Bool.andb_true_iff, <- IH. destruct (a_expr a m) as [x|].
    + rewrite Bool.andb_true_iff, !Rleb_true, <- (bin_of_range a H). destruct (bin_of a x) as [k|].
      * destruct (multi_index axes m) as [l|]; split.
        { intros _. split; eexists; reflexivity. } { intros _; eexists; reflexivity. }
        { intros [? ?]; discriminate. } { intros [_ [? ?]]; discriminate. }
      * split; [intros [? ?]; discriminate|intros [[? ?] _]; discriminate].
    + split; [intros [? ?]; discriminate|intros [? _]; discriminate].
Qed.

(** ** sums over bins *)
Lemma all_indices_in shape idx : In idx (all_indices shape) <-> Forall2 (fun k b => (k < b)%nat) idx shape.
Proof.
  revert idx. induction shape as [|b s IH]; intros idx; cbn [all_indices].
  - cbn. split; [intros [<-|[]]; constructor|intros H; inversion H; auto].
  - rewrite in_flat_map. split.
    + intros (k & K & H). apply in_map_iff in H. destruct H as (l & <- & L). apply in_seq in K. constructor; [lia|apply IH; exact L].
    + intros H. inversion H; subst. exists x. split; [apply in_seq; lia|]. apply in_map_iff. eexists; split; [reflexivity|]. apply IH. assumption.
Qed.
Lemma NoDup_app_intro {A} (l1 l2 : list A) : NoDup l1 -> NoDup l2 -> (forall x, In x l1 -> ~ In x l2) -> NoDup (l1 ++ l2).
Proof.
  induction 1 as [|x l1 N _ IH]; cbn; intros H2 D; [exact H2|]. constructor.
  - rewrite in_app_iff. intros [H|H]; [contradiction|]. apply (D x); [left; reflexivity|exact H].
  - apply IH; [exact H2|]. intros y Y. apply D. right; exact Y.
Qed.
Lemma NoDup_flat_map {A B} (f : A -> list B) l : NoDup l -> (forall x, In x l -> NoDup (f x)) ->
  (forall x y z, In x l -> In y l -> In z (f x) -> In z (f y) -> x = y) -> NoDup (flat_map f l).
Proof.
  induction 1 as [|x l N _ IH]; cbn; intros H1 H2; [constructor|]. apply NoDup_app_intro.
  - apply H1; auto.
  - apply IH; [intros; apply H1; auto|]. intros; eapply H2; eauto.
  - intros z Z1 Z2. apply in_flat_map in Z2. destruct Z2 as (y & Y1 & Y2).
    assert (x = y) by (eapply H2; eauto). subst y. contradiction.
Qed.
Lemma all_indices_nodup shape : NoDup (all_indices shape).
Proof.
  induction shape as [|b s IH]; cbn [all_indices]; [repeat constructor; intros []|].
  apply NoDup_flat_map; [apply seq_NoDup| |].
  - intros k _. apply Injective_map_NoDup; [|exact IH]. intros x y E. inversion E; reflexivity.
  - intros x y z _ _ X Y. apply in_map_iff in X, Y. destruct X as (l & <- & _), Y as (l' & E & _). inversion E; reflexivity.
Qed.

Lemma rsum_app a b : rsum (a ++ b) = rsum a + rsum b.
Proof. unfold rsum. induction a; cbn; lra. Qed.
Lemma rsum_map_plus {A} (f g : A -> R) l : rsum (map (fun x => f x + g x) l) = rsum (map f l) + rsum (map g l).
Proof. unfold rsum. induction l; cbn; lra. Qed.
Lemma rsum_map_0 {A} (f : A -> R) l : (forall x, In x l -> f x = 0) -> rsum (map f l) = 0.
Proof. unfold rsum. induction l as [|x l IH]; cbn; intros H; [reflexivity|]. rewrite (H x) by auto. rewrite IH; [lra|]. intros; apply H; auto. Qed.
Lemma rsum_map_ext {A} (f g : A -> R) l : (forall x, In x l -> f x = g x) -> rsum (map f l) = rsum (map g l).
Proof. intros H. rewrite (map_ext_in f g l H). reflexivity. Qed.
Lemma rsum_pick i (v : R) l : NoDup l -> In i l -> rsum (map (fun j => if index_dec i j then v else 0) l) = v.
Proof.
  induction 1 as [|x l N _ IH]; intros I; [destruct I|]. cbn [map]. change (rsum (?a :: ?b)) with (a + rsum b).
  destruct (index_dec i x) as [->|Ne].
  - rewrite rsum_map_0; [lra|]. intros j J. destruct (index_dec x j) as [->|]; [contradiction|reflexivity].
  - destruct I as [E|I]; [congruence|]. rewrite IH by exact I. lra.
Qed.
Lemma rsum_swap {A B} (f : A -> B -> R) la lb :
  rsum (map (fun a => rsum (map (f a) lb)) la) = rsum (map (fun b => rsum (map (fun a => f a b) la)) lb).
Proof.
  induction la as [|a la IH]; cbn [map].
  - cbn. rewrite rsum_map_0; auto.
  - change (rsum (?x :: ?y)) with (x + rsum y). rewrite IH, <- rsum_map_plus. apply rsum_map_ext. intros b _. reflexivity.
Qed.

Lemma multi_index_shape axes m idx : Forall axis_ok axes -> multi_index axes m = Some idx -> In idx (all_indices (map a_bins axes)).
Proof.
  intros H; revert idx. induction H as [|a axes H _ IH]; intros idx E; apply all_indices_in.
  - inversion E. constructor.
  - cbn [multi_index] in E. destruct (a_expr a m) as [x|]; [|discriminate]. destruct (bin_of a x) eqn:B; [|discriminate].
    destruct (multi_index axes m); [|discriminate]. inversion E; subst. cbn [map]. constructor.
    + eapply bin_of_lt; eauto.
    + apply all_indices_in. apply IH. reflexivity.
Qed.

Definition hit_sum (keep : event -> bool) (w : event -> R) (ms : list event) : R := rsum (map w (filter keep ms)).
Lemma hit_sum_alt keep w ms : hit_sum keep w ms = rsum (map (fun m => if keep m then w m else 0) ms).
Proof. unfold hit_sum, rsum. induction ms as [|m ms IH]; cbn; [reflexivity|]. destruct (keep m); cbn; rewrite IH; lra. Qed.

Lemma histogramdd_bin axes ms w idx : Forall axis_ok axes ->
  histogramdd axes ms w idx = rsum (map w (filter (in_bins axes idx) ms)).
Proof.
  intros H. change (rsum (map w (filter (in_bins axes idx) ms))) with (hit_sum (in_bins axes idx) w ms). rewrite hit_sum_alt.
  unfold histogramdd. apply (rsum_map_ext (fun n => match multi_index axes n with Some i => if index_dec i idx then w n else 0 | None => 0 end)).
  intros m _. pose proof (multi_index_spec axes m H idx) as S. destruct (multi_index axes m) as [i|].
  - destruct (index_dec i idx) as [->|N].
    + rewrite (proj1 S eq_refl). reflexivity.
    + destruct (in_bins axes idx m) eqn:E; [|reflexivity]. pose proof (proj2 S eq_refl) as S'. congruence.
  - destruct (in_bins axes idx m) eqn:E; [|reflexivity]. pose proof (proj2 S eq_refl) as S'. discriminate.
Qed.
Lemma histogramdd_total axes ms w : Forall axis_ok axes ->
  sum_bins (map a_bins axes) (histogramdd axes ms w) = rsum (map w (filter (in_ranges axes) ms)).
Proof.
  intros H. change (rsum (map w (filter (in_ranges axes) ms))) with (hit_sum (in_ranges axes) w ms). rewrite hit_sum_alt.
  unfold sum_bins, histogramdd.
  rewrite (rsum_swap (fun idx n => match multi_index axes n with Some i => if index_dec i idx then w n else 0 | None => 0 end)).
  apply rsum_map_ext. intros m _. pose proof (multi_index_ranges axes m H) as S. destruct (multi_index axes m) as [i|] eqn:E.
  - rewrite (proj1 S); [|eexists; reflexivity].
    apply rsum_pick; [apply all_indices_nodup|]. eapply multi_index_shape; eauto.
  - destruct (in_ranges axes m); [destruct (proj2 S eq_refl); discriminate|]. apply rsum_map_0. reflexivity.
Qed.
Lemma one_bin axes m : Forall axis_ok axes -> in_ranges axes m = true ->
  exists! idx, In idx (all_indices (map a_bins axes)) /\ in_bins axes idx m = true.
Proof.
  intros H R. apply multi_index_ranges in R; [|exact H]. destruct R as [idx E]. exists idx. split.
  - split; [eapply multi_index_shape; eauto|]. apply multi_index_spec; assumption.
  - intros j [_ J]. apply multi_index_spec in J; [|exact H]. congruence.
Qed.
Lemma no_bin axes m idx : Forall axis_ok axes -> in_ranges axes m = false -> in_bins axes idx m = false.
Proof.
  intros H R. destruct (in_bins axes idx m) eqn:E; [|reflexivity]. apply multi_index_spec in E; [|exact H].
  assert (in_ranges axes m = true) by (apply multi_index_ranges; eauto). congruence.
Qed.

(** ** the engine *)
Lemma new_engine_ok axes w h : Forall axis_ok axes ->
  new_engine axes w h = Ok (mkEngine axes w h (map a_bins axes) (fun _ => 0) (fun _ => 0)).
Proof. intros H. unfold new_engine. rewrite (engine_shape_ok axes H). reflexivity. Qed.

Lemma engine_process_ok g ns ms : Forall axis_ok (g_axes g) -> g_axes g <> [] -> g_shape g = map a_bins (g_axes g) ->
  0 < g_xwidth g -> 0 < g_yheight g -> crossings (on_monitor (g_xwidth g) (g_yheight g)) ns ms ->
  exists g', engine_process g ns = Ok (g', ns) /\
    g_axes g' = g_axes g /\ g_xwidth g' = g_xwidth g /\ g_yheight g' = g_yheight g /\ g_shape g' = g_shape g /\
    (forall idx, g_I g' idx = g_I g idx + histogramdd (g_axes g) ms e_p idx) /\
    (forall idx, g_E2 g' idx = g_E2 g idx + histogramdd (g_axes g) ms (fun m => e_p m * e_p m) idx).
Proof.
  intros A N Sh W H C.
  pose proof (rows_crossings _ (in_area (g_xwidth g) (g_yheight g)) ns (in_area_spec _ _)) as R.
  pose proof (crossings_fun _ _ _ _ C R) as ->. clear C R.
  assert (Z0 : forall w idx, histogramdd (g_axes g) [] w idx = 0) by reflexivity.
  unfold engine_process. destruct ns as [|n ns].
  { exists g. change (propagated_rows _ []) with (@nil event). repeat (split; [reflexivity|]). split; intros idx; rewrite Z0; lra. }
  replace (Rltb 0 (g_xwidth g) && Rltb 0 (g_yheight g))%bool with true
    by (symmetry; rewrite Bool.andb_true_iff, !Rltb_t; auto).
  destruct (propagated_rows _ (n :: ns)) as [|m ms].
  { exists g. repeat (split; [reflexivity|]). split; intros idx; rewrite Z0; lra. }
  destruct (g_axes g) as [|a axes] eqn:E; [contradiction|]. rewrite <- E in *.
  destruct (list_eq_dec Nat.eq_dec (g_shape g) (map a_bins (g_axes g))); [|contradiction].
  eexists. split; [reflexivity|]. cbn. repeat (split; [reflexivity|]). split; reflexivity.
Qed.

(** ** the event area monitor *)
Lemma quot_scaled x lo hi n : lo < hi -> n <> 0 -> (x - lo) / ((hi - lo) / n) = (x - lo) * n / (hi - lo).
Proof. intros H N. field. split; lra. Qed.
Lemma pos_range x lo hi n : lo <= x < hi -> 0 < n -> 0 <= (x - lo) * n / (hi - lo) < n.
Proof.
  intros [A B] N. assert (0 < hi - lo) by lra. split.
  - apply Rle_mult_inv_pos; nra.
  - apply (Rmult_lt_reg_r (hi - lo)); [assumption|]. replace ((x - lo) * n / (hi - lo) * (hi - lo)) with ((x - lo) * n) by (field; lra). nra.
Qed.
Lemma to_u32_ok x : 0 <= x -> x < IZR (2 ^ 32) -> to_u32 x = Ok (floorZ x).
Proof.
  intros A B. unfold to_u32. rewrite trunc_nonneg by exact A. pose proof (floor_nonneg x A). pose proof (floor_lt x _ B).
  replace ((0 <=? floorZ x) && (floorZ x <? 2 ^ 32))%Z%bool with true by lia. reflexivity.
Qed.
Lemma IZR_floor_cell x k : in_cell k x -> floorZ x = k.
Proof. apply floor_unique. Qed.

Lemma area_event_ok a m : area_ok a -> in_detector a m ->
  area_event a m = Ok (mkA (floorZ (x_pos a m * IZR (ny a) + y_pos a m)) (floorZ (t_pos a m)) (e_p m)).
Proof.
  intros (X & Y & Tt & Nx & Ny & Nt & B) (Dx & Dy & Dt). unfold area_event.
  replace ((nx a =? 0) || (ny a =? 0) || (ntof a =? 0))%Z%bool with false by lia.
  assert (Rx : 0 < IZR (nx a)) by (apply IZR_lt; lia). assert (Ry : 0 < IZR (ny a)) by (apply IZR_lt; lia).
  assert (Rt : 0 < IZR (ntof a)) by (apply IZR_lt; lia).
  rewrite !quot_scaled by lra. fold (x_pos a m) (y_pos a m) (t_pos a m).
  pose proof (pos_range _ _ _ _ Dx Rx) as Px. pose proof (pos_range _ _ _ _ Dy Ry) as Py. pose proof (pos_range _ _ _ _ Dt Rt) as Pt.
  fold (x_pos a m) in Px. fold (y_pos a m) in Py. fold (t_pos a m) in Pt.
  assert (Bb : IZR (nx a) * IZR (ny a) + IZR (ny a) <= IZR (2 ^ 32)) by (rewrite <- mult_IZR, <- plus_IZR; apply IZR_le; exact B).
  rewrite to_u32_ok; [|nra|nra]. cbn. rewrite to_u32_ok; [reflexivity|lra|].
  assert (IZR (ntof a) <= IZR (2 ^ 32)) by (apply IZR_le; lia). lra.
Qed.

Lemma pixel_cells a m i j : area_ok a -> in_detector a m -> in_cell i (x_pos a m) -> in_cell j (y_pos a m) ->
  floorZ (x_pos a m * IZR (ny a) + y_pos a m) =
  (i * ny a + j + floorZ ((x_pos a m - IZR i) * IZR (ny a) + (y_pos a m - IZR j)))%Z.
Proof.
  intros _ _ _ _. apply floor_unique.
  pose proof (floor_bounds ((x_pos a m - IZR i) * IZR (ny a) + (y_pos a m - IZR j))) as [F1 F2].
  rewrite !plus_IZR, mult_IZR. split; lra.
Qed.

Lemma area_events_gen a ms : area_ok a -> Forall (in_detector a) ms -> forall l,
  fold_result (fun l n => let! e := area_event a n in Ok (l ++ [e])) ms l =
  Ok (l ++ map (fun m => mkA (floorZ (x_pos a m * IZR (ny a) + y_pos a m)) (floorZ (t_pos a m)) (e_p m)) ms).
Proof.
  intros A. induction 1 as [|m ms D _ IH]; intros l; cbn; [rewrite app_nil_r; reflexivity|].
  rewrite (area_event_ok a m A D). cbn. rewrite IH, <- app_assoc. reflexivity.
Qed.
Lemma crossings_all P ns ms : crossings P ns ms -> Forall P ms.
Proof. induction 1; auto. Qed.

Lemma area_process_ok a st ns ms : area_ok a -> crossings (in_detector a) ns ms ->
  area_process a st ns = Ok (match ms with [] => st | _ =>
    Some (map (fun m => mkA (floorZ (x_pos a m * IZR (ny a) + y_pos a m)) (floorZ (t_pos a m)) (e_p m)) ms) end).
Proof.
  intros A C. pose proof (rows_crossings _ (in_window a) ns (in_window_spec a)) as R.
  pose proof (crossings_fun _ _ _ _ R C) as E. unfold area_process. destruct ns as [|n ns].
  { inversion C; subst. reflexivity. }
  replace (Rltb (xmin a) (xmax a) && Rltb (ymin a) (ymax a) && Rltb (tmin a) (tmax a))%bool with true.
  - rewrite E. destruct ms as [|m ms]; [reflexivity|]. unfold area_events.
    rewrite (area_events_gen a (m :: ms) A (crossings_all _ _ _ C) []). reflexivity.
  - symmetry. destruct A as (X & Y & Tt & _). rewrite !Bool.andb_true_iff, !Rltb_t. auto.
Qed.
