(** Proofs for C61: what comes out has left the frame. *)
From Coq Require Import Reals Lra Lia Sorted.
From Verif Require Import Base RotModel RotSpec RotProofs ChanModel ChanProofs ShapeModel ShapeSpec ShapeProofs ShapeProofs2 ScatModel ScatSpec HitModel HitSpec HitProofs HitProofs3 CmpsModel CmpsSpec CmpsProofs.
Open Scope R_scope.

Definition fwd (l : list R) : list R := filter (fun t => negb (Rltb t 0)) l.
Lemma forward_fwd : forall tol s r v, forward_intersect tol s r v = fwd (intersect tol s r v).
Proof. reflexivity. Qed.
Lemma line_0 : forall r v, on_line r v 0 = r.
Proof. intros [x y z] v. unfold on_line; cbn. f_equal; ring. Qed.

Lemma border_all : forall tol s ev ivs p, (forall a b, In (a, b) ivs -> a < b) -> StronglySorted (fun p q => snd p <= fst q) ivs ->
  0 <= p -> (p = 0 \/ forall a b, In (a, b) ivs -> p <= a) -> all_onborder tol s ev p (fwd (ends ivs)) = true ->
  forall a b, In (a, b) ivs -> 0 < b -> locate tol s (on_line (e_r ev) (e_v ev) ((Rmax a 0 + b) / 2)) = Onborder.
Proof.
  intros tol s ev ivs. induction ivs as [|[a1 b1] ivs IH]; intros p W S1 P0 PA H a b I B; [destruct I|].
  pose proof (W a1 b1 (or_introl eq_refl)) as L. destruct (StronglySorted_inv S1) as (S2 & F). rewrite Forall_forall in F.
  assert (N : forall x y, In (x, y) ivs -> b1 <= x) by (intros x y J; exact (F (x, y) J)).
  assert (W2 : forall x y, In (x, y) ivs -> x < y) by (intros x y J; apply W; now right).
  assert (eqb : forall x, loc_eqb x Onborder = true -> x = Onborder) by (intros []; cbn; congruence).
  change (fwd (ends ((a1, b1) :: ivs))) with (filter (fun t => negb (Rltb t 0)) (a1 :: b1 :: ends ivs)) in H. cbn [filter] in H.
  change (filter (fun t => negb (Rltb t 0)) (ends ivs)) with (fwd (ends ivs)) in H.
  destruct (Rlt_dec b1 0) as [Bn|Bp].
  - rewrite (proj2 (Rltb_t a1 0)), (proj2 (Rltb_t b1 0)) in H by lra. cbn [negb] in H.
    destruct I as [I|I]; [injection I as <- <-; lra|]. apply (IH p); try assumption. destruct PA as [->|PA]; [now left|]. specialize (PA a1 b1 (or_introl eq_refl)). lra.
  - rewrite (proj2 (Rltb_f b1 0)) in H by lra. cbn [negb] in H.
    assert (K : locate tol s (on_line (e_r ev) (e_v ev) ((Rmax a1 0 + b1) / 2)) = Onborder /\ all_onborder tol s ev b1 (fwd (ends ivs)) = true).
    { destruct (Rlt_dec a1 0) as [An|Ap].
      - rewrite (proj2 (Rltb_t a1 0)) in H by lra. cbn [negb all_onborder] in H. apply andb_prop in H. destruct H as [H1 H2]. split; [|exact H2].
        destruct PA as [->|PA]; [|specialize (PA a1 b1 (or_introl eq_refl)); lra]. rewrite Rmax_right by lra. rewrite <- arrow_line. now apply eqb.
      - rewrite (proj2 (Rltb_f a1 0)) in H by lra. cbn [negb all_onborder] in H. apply andb_prop in H. destruct H as [_ H]. apply andb_prop in H. destruct H as [H1 H2].
        split; [|exact H2]. rewrite Rmax_left by lra. rewrite <- arrow_line. now apply eqb. }
    destruct K as [K1 K2]. destruct I as [I|I]; [injection I as <- <-; exact K1|].
    apply (IH b1); try assumption; [lra|]. right. exact N.
Qed.
Lemma exiting_gone : forall tol s ev, exact_line tol s (e_r ev) (e_v ev) -> thick_ahead tol s (e_r ev) (e_v ev) -> is_exiting tol ev s = true -> gone s ev.
Proof.
  intros tol s ev (ivs & PR & EX) TH H t Ht C. pose proof PR as (W & S1 & CO & _). destruct (proj1 (CO t) C) as (a & b & I & B).
  specialize (EX 0). rewrite line_0 in EX. rewrite (map_ext _ (fun t => t)) in EX by (intros; ring). rewrite map_id in EX.
  pose proof (TH ivs a b PR I ltac:(lra)) as TI.
  assert (BI : In b (fwd (ends ivs))).
  { unfold fwd. apply filter_In. split; [|rewrite (proj2 (Rltb_f b 0)) by lra; reflexivity]. unfold ends. apply in_flat_map. exists (a, b). split; [exact I|]. right. now left. }
  unfold is_exiting, forward_tofs in H. rewrite forward_fwd, EX in H. destruct (locate_ev tol ev s) eqn:L; [discriminate H| |].
  - cbn [loc_eqb] in H. assert (K : all_onborder tol s ev 0 (fwd (ends ivs)) = true) by (destruct (fwd (ends ivs)); [reflexivity|exact H]).
    rewrite (border_all tol s ev ivs 0 W S1 (Rle_refl 0) (or_introl eq_refl) K a b I ltac:(lra)) in TI. discriminate TI.
  - destruct (fwd (ends ivs)); [destruct BI|discriminate H].
Qed.
Lemma last_max : forall l t l', StronglySorted Rle l -> rev l = t :: l' -> forall x, In x l -> x <= t.
Proof.
  intros l t l' S1 E x I. assert (E2 : l = rev l' ++ [t]) by (rewrite <- (rev_involutive l), E; reflexivity). rewrite E2 in S1, I. clear E E2.
  apply in_app_iff in I. destruct I as [I|[<-|[]]]; [|lra]. induction (rev l') as [|y m IH]; [destruct I|]. cbn in S1. destruct (StronglySorted_inv S1) as (S2 & F).
  destruct I as [<-|I]; [|now apply IH]. rewrite Forall_forall in F. apply F. apply in_app_iff. right. now left.
Qed.
Lemma ends_le : forall ivs, (forall a b, In (a, b) ivs -> a < b) -> StronglySorted (fun p q : R * R => snd p <= fst q) ivs -> StronglySorted Rle (ends ivs).
Proof.
  intros ivs W S1. replace (ends ivs) with (tends (map (pair 0%nat) ivs)).
  - apply tends_sorted.
    + apply Forall_map. rewrite Forall_forall. intros [a b] I. exact (W a b I).
    + clear W. induction S1 as [|[a b] l S2 IH F]; cbn; constructor; [exact IH|]. apply Forall_map. exact F.
  - clear. induction ivs as [|[a b] ivs IH]; [reflexivity|]. cbn. f_equal. f_equal. exact IH.
Qed.
Lemma minus_sorted : forall l t0, StronglySorted Rle l -> StronglySorted Rle (map (fun t => t - t0) l).
Proof. induction 1 as [|x l S1 IH F]; cbn; constructor; [exact IH|]. apply Forall_map. eapply Forall_impl; [|exact F]. cbn. intros. lra. Qed.
Lemma out_gone : forall tol s ev, let x := propagate_out tol ev s in exact_line tol s (e_r x) (e_v x) -> gone s x.
Proof.
  intros tol s ev x (ivs & PR & EX) t Ht C. destruct (out_later tol ev s) as [d Ed]. fold x in Ed.
  pose proof PR as (W & S1 & CO & _). destruct (proj1 (CO t) C) as (a & b & I & B).
  assert (EV : on_line (e_r x) (e_v x) (- d) = e_r ev /\ e_v x = e_v ev).
  { rewrite Ed. split; [|reflexivity]. destruct ev as [[p q w] [u1 u2 u3] ? ? ? ?]. unfold on_line; cbn. f_equal; ring. }
  destruct EV as [EV1 EV2]. specialize (EX (- d)). rewrite EV1, EV2 in EX. unfold x, propagate_out, all_tofs in Ed.
  assert (BI : In (b - - d) (map (fun t => t - - d) (ends ivs))) by (apply in_map_iff; exists b; split; [reflexivity|]; unfold ends; apply in_flat_map; exists (a, b); split; [exact I|right; now left]).
  destruct (rev (intersect tol s (e_r ev) (e_v ev))) as [|t1 l] eqn:Q.
  - assert (Z : intersect tol s (e_r ev) (e_v ev) = []) by (rewrite <- (rev_involutive (intersect _ _ _ _)), Q; reflexivity). rewrite Z in EX. rewrite <- EX in BI. destruct BI.
  - rewrite <- EX in BI. assert (SO : StronglySorted Rle (intersect tol s (e_r ev) (e_v ev))) by (rewrite EX; apply minus_sorted, ends_le; assumption).
    pose proof (last_max _ _ _ SO Q _ BI) as LM.
    assert (TD : t1 = d).
    { rewrite later_propagate in Ed. assert (T := f_equal e_t Ed). cbn in T. lra. }
    lra.
Qed.

Section leave.
Context (tol : R) (c : composite).
Definition leaving (x : event) : Prop := is_exiting tol x (c_frame c) = true \/ exists y k, x = scale_p (propagate_out tol y (c_frame c)) k.
Lemma outer_round_leaving : forall todo n evts s2 n' evts' s2', Forall leaving evts -> outer_round tol c n todo evts s2 = Ok (n', evts', s2') -> Forall leaving evts'.
Proof using.
  induction todo as [|ev l IH]; intros n evts s2 n' evts' s2' A H; cbn [outer_round] in H. { injection H as <- <- <-. exact A. }
  destruct (too_low _ _); [eapply IH; eassumption|]. destruct (negb _); [eapply IH; eassumption|]. destruct (is_exiting tol ev (c_frame c)) eqn:E.
  { eapply IH; [|exact H]. apply Forall_app. split; [exact A|]. constructor; [now left|constructor]. }
  destruct (interactM_path1 _ _ _ _ _) as [[[n1 i] s]|]; cbn [bind] in H; [|discriminate H]. eapply IH; eassumption.
Qed.
Lemma outer_loop_leaving : forall left n todo evts n' evts' rest, Forall leaving evts -> outer_loop tol c left n todo evts = Ok (n', evts', rest) -> Forall leaving evts'.
Proof using.
  induction left as [|left IH]; intros n todo evts n' evts' rest A H; cbn [outer_loop] in H. { injection H as <- <- <-. exact A. }
  destruct todo as [|x todo]. { injection H as <- <- <-. exact A. }
  destruct (outer_round tol c n (x :: todo) evts []) as [[[n1 e1] a1]|] eqn:E; cbn [bind] in H; [|discriminate H].
  eapply IH; [|exact H]. eapply outer_round_leaving; eassumption.
Qed.
Lemma scatterM_leaving : forall n ev out, scatterM tol c n ev = Ok out -> Forall leaving out.
Proof using.
  intros n ev out H. unfold scatterM in H. destruct (outer_loop _ _ _ _ _ _) as [[[n1 e1] rest]|] eqn:E; cbn [bind] in H; [|discriminate H]. injection H as <-.
  apply Forall_app. split; [eapply outer_loop_leaving; [|exact E]; constructor|]. apply Forall_map. apply Forall_forall. intros x _. right. unfold outer_rest. eauto.
Qed.
Lemma scatterM_gone : forall n ev out x, scatterM tol c n ev = Ok out -> In x out -> exact_line tol (c_frame c) (e_r x) (e_v x) -> thick_ahead tol (c_frame c) (e_r x) (e_v x) ->
  gone (c_frame c) x.
Proof using.
  intros n ev out x H I EX TH. pose proof (scatterM_leaving _ _ _ H) as L. rewrite Forall_forall in L. destruct (L x I) as [E|(y & k & ->)].
  - eapply exiting_gone; eassumption.
  - exact (out_gone tol (c_frame c) y EX).
Qed.
End leave.

(** Boxes, cylinders and spheres. *)
Lemma line_line : forall r v a t, on_line (on_line r v a) v t = on_line r v (a + t).
Proof. intros [x y z] [u w q] a t. unfold on_line; cbn. f_equal; ring. Qed.
Lemma meets_shift : forall s r v a, meets s r v -> meets s (on_line r v a) v.
Proof. intros s r v a (t & C). exists (t - a). rewrite line_line. now replace (a + (t - a)) with t by ring. Qed.
Lemma regular_shift : forall s, plain s -> forall r v a, regular s r v -> regular s (on_line r v a) v.
Proof.
  induction s; intros PL r0 v0 t0 RG; cbn in PL; try contradiction; cbn [regular] in RG |- *; try contradiction; try exact I.
  - destruct RG as [N|(M & E)]; [left|right].
    + intros t. rewrite line_line. apply N.
    + split; [now apply meets_shift|]. intros t. rewrite line_line. apply E.
  - destruct RG as [N|M]; [left; intros t; rewrite line_line; apply N|right; now apply meets_shift].
  - replace (vscale (1 / scale) (on_line r0 v0 t0)) with (on_line (vscale (1 / scale) r0) (vscale (1 / scale) v0) t0) by (apply vec_eq; cbn; ring). now apply IHs.
  - replace (vsub (on_line r0 v0 t0) v) with (on_line (vsub r0 v) v0 t0) by (apply vec_eq; cbn; ring). now apply IHs.
  - replace (dot_mv (transpose m) (on_line r0 v0 t0)) with (on_line (dot_mv (transpose m) r0) (dot_mv (transpose m) v0) t0) by (apply vec_eq; cbn; ring). now apply IHs.
Qed.
Lemma ee_shift : forall s r v a b t0, entry_exit s r v a b -> entry_exit s (on_line r v t0) v (a - t0) (b - t0).
Proof.
  intros s r v a b t0 (L & C & D). split; [lra|]. split; intros t; rewrite line_line; [rewrite C|rewrite D]; lra.
Qed.
Lemma ee_same : forall s r v a b a' b', entry_exit s r v a b -> entry_exit s r v a' b' -> a = a' /\ b = b'.
Proof.
  intros s r v a b a' b' (L & _ & S1) (L' & _ & S2).
  assert (A : a' <= a <= b') by (apply S2, S1; lra). assert (B : a' <= b <= b') by (apply S2, S1; lra).
  assert (A' : a <= a' <= b) by (apply S1, S2; lra). assert (B' : a <= b' <= b) by (apply S1, S2; lra). lra.
Qed.
Lemma plain_line : forall tol s r v, plain s -> positive s -> v <> mkV 0 0 0 ->
  (forall t, ~ solid s (on_line r v t)) \/ (meets s r v /\ regular s r v) -> exact_line tol s r v.
Proof.
  intros tol s r v PL PO V [N|(M & RG)].
  - exists []. split; [apply profile_none; [now apply positive_wf|exact N]|]. intros t0. cbn. apply plain_missed; [exact PL|exact PO|]. intros t. rewrite line_line. apply N.
  - destruct (plain_exact tol s PL PO r v V RG M) as (a & b & EE & E). exists [(a, b)]. split; [now apply profile_one|]. intros t0.
    destruct (plain_exact tol s PL PO (on_line r v t0) v V (regular_shift s PL r v t0 RG) (meets_shift s r v t0 M)) as (a' & b' & EE' & E').
    destruct (ee_same _ _ _ _ _ _ _ EE' (ee_shift s r v a b t0 EE)) as (-> & ->). rewrite E'. reflexivity.
Qed.
