(** Proofs for C61: a body that only absorbs. *)
From Coq Require Import Reals Lra Lia Sorted.
From Verif Require Import Base RotModel RotSpec RotProofs ChanModel ChanProofs ShapeModel ShapeSpec ShapeProofs ShapeProofs2 ScatModel ScatSpec HitModel HitSpec HitProofs HitProofs2 HitProofs3 CmpsModel CmpsSpec CmpsProofs CmpsProofs3.
Open Scope R_scope.

Lemma orth_I3 : orthogonal I3.
Proof. intros a b. unfold sdot, I3; cbn. ring. Qed.
Lemma g2l_id : forall ev, global2local ev (mkV 0 0 0) I3 = ev.
Proof. intros [[x y z] [u v w] s1 s2 t p]. unfold global2local, I3; cbn. f_equal; apply vec_eq; cbn; ring. Qed.
Lemma l2g_id : forall ev, local2global ev (mkV 0 0 0) I3 = ev.
Proof. intros [[x y z] [u v w] s1 s2 t p]. unfold local2global, I3; cbn. f_equal; apply vec_eq; cbn; ring. Qed.
Lemma placed_point : forall r, dot_mv (transpose I3) (vsub r (mkV 0 0 0)) = r.
Proof. intros [x y z]. apply vec_eq; cbn; ring. Qed.
Lemma placed_dir : forall r, dot_mv (transpose I3) r = r.
Proof. intros [x y z]. apply vec_eq; cbn; ring. Qed.
Definition home (s : shape) : shape := Translation (Rotation s I3) (mkV 0 0 0).
Lemma home_locate : forall tol s p, locate tol (home s) p = locate tol s p.
Proof. intros. unfold home. cbn [locate]. now rewrite placed_point. Qed.
Lemma home_core : forall s p, core (home s) p <-> core s p.
Proof. intros. unfold home. rewrite core_tr, core_rot by exact orth_I3. now rewrite placed_point. Qed.
Lemma home_solid : forall s p, solid (home s) p <-> solid s p.
Proof. intros. unfold home. rewrite solid_tr, solid_rot by exact orth_I3. now rewrite placed_point. Qed.
Lemma home_regular : forall s r v, regular s r v -> regular (home s) r v.
Proof. intros. unfold home. cbn [regular]. now rewrite placed_point, placed_dir. Qed.
Lemma plain_not_cone : forall s, plain s -> ~ plain_cone s.
Proof. induction s; cbn; tauto. Qed.

Lemma low_false : forall m x, m <= e_p x -> too_low m x = false.
Proof. intros m x L. unfold too_low. rewrite (proj2 (Rltb_f (e_p x) m)) by lra. apply Bool.andb_false_r. Qed.

Section body.
Context (tol : R) (s : shape) (T : 0 < tol) (PL : plain s) (PO : positive s).
Context (ev : event) (a b : R) (V : e_v ev <> mkV 0 0 0) (EE : entry_exit s (e_r ev) (e_v ev) a b) (RG : regular s (e_r ev) (e_v ev)).
Context (MID : locate tol s (on_line (e_r ev) (e_v ev) ((a + b) / 2)) = Inside).
Notation pt t := (on_line (e_r ev) (e_v ev) t).

Lemma body_meets : meets s (e_r ev) (e_v ev).
Proof using EE. destruct EE as (L & C & _). exists ((a + b) / 2). apply C. lra. Qed.
Lemma body_crossings : forall t0, intersect tol s (pt t0) (e_v ev) = [a - t0; b - t0].
Proof using PL PO V EE RG.
  intros t0. destruct (plain_exact tol s PL PO (pt t0) (e_v ev) V (regular_shift s PL _ _ t0 RG) (meets_shift s _ _ t0 body_meets)) as (a' & b' & EE' & E').
  destruct (ee_same _ _ _ _ _ _ _ EE' (ee_shift s _ _ a b t0 EE)) as (-> & ->). exact E'.
Qed.
Lemma body_onborder : locate tol s (pt a) = Onborder /\ locate tol s (pt b) = Onborder.
Proof using T PL PO V EE RG.
  assert (K : forall t, In t [a; b] -> locate tol s (pt t) = Onborder).
  { intros t I. apply intersect_onborder; [exact T|exact PO|now apply plain_not_cone|]. pose proof (body_crossings 0) as E. rewrite line_0, !Rminus_0_r in E. rewrite E. exact I. }
  split; apply K; [now left|right; now left].
Qed.
Lemma body_hit : forall t0, t0 <= a -> find_1st_hit tol (pt t0) (e_v ev) [home s] = Some 0%nat.
Proof using T PL PO V EE RG MID.
  intros t0 T0. pose proof EE as (L & C & D). apply (proj2 (proj1 (first_hit tol [home s] (pt t0) (e_v ev) T
    ltac:(constructor; [apply positive_wf; cbn [positive home]; split; [exact PO|exact orth_I3]|constructor])
    ltac:(constructor; [|constructor]; apply plain_followed; [exact PL|split; [exact PO|exact orth_I3]|exact V| |right; split; [exists ((a + b) / 2 - t0); rewrite home_core, line_line; apply C; lra|apply home_regular, regular_shift; assumption]];
      intros a' b' EE' P; assert (X : entry_exit (home s) (pt t0) (e_v ev) (a - t0) (b - t0)) by
        (destruct (ee_shift s _ _ a b t0 EE) as (L1 & C1 & D1); split; [exact L1|]; split; intros t; [rewrite home_core; apply C1|rewrite home_solid; apply D1]);
      destruct (ee_same _ _ _ _ _ _ _ EE' X) as (-> & ->); rewrite home_locate, Rmax_left, line_line by lra; replace (t0 + (a - t0 + (b - t0)) / 2) with ((a + b) / 2) by field; exact MID)
    ltac:(intros i j s1 s2 t N1 N2 D1; destruct i as [|[]], j as [|[]]; cbn in N1, N2; congruence)) 0%nat)).
  exists (home s), (a - t0), (b - t0). split; [reflexivity|]. split; [lra|]. split.
  - intros t Ht. rewrite home_core, line_line. apply C. lra.
  - intros s' t [<-|[]] Ht X. rewrite home_core, line_line in X. apply C in X. lra.
Qed.
Lemma body_search : forall w, search tol s (later ev a) w [0; b - a] = match w with Inside => Some (b - a) | _ => None end.
Proof using T PL PO V EE RG MID.
  intros w. cbn [search e_r e_v later]. rewrite !arrow_line, !line_line.
  replace (a + 0 * (1 / 2)) with a by field. replace (a + (b - a) * (1 / 2)) with ((a + b) / 2) by field. rewrite (proj1 body_onborder), MID. destruct w; reflexivity.
Qed.
Lemma body_forward : forward_tofs tol (later ev a) s = [0; b - a].
Proof using T PL PO V EE RG MID.
  unfold forward_tofs. rewrite forward_fwd. cbn [e_r e_v later]. rewrite body_crossings, Rminus_diag_eq by reflexivity. pose proof (proj1 EE) as L. unfold fwd. cbn [filter].
  rewrite (proj2 (Rltb_f 0 0)), (proj2 (Rltb_f (b - a) 0)) by lra. reflexivity.
Qed.
Lemma body_here : locate_ev tol (later ev a) s = Onborder.
Proof using T PL PO V EE RG. exact (proj1 body_onborder). Qed.

Lemma body_exit : propagate_to_next_exiting_surface tol (later ev a) s = Ok (later ev b).
Proof using T PL PO V EE RG MID.
  unfold propagate_to_next_exiting_surface. rewrite body_here. cbn [loc_eqb bind]. rewrite body_here. cbn [loc_eqb negb]. rewrite body_forward, body_search. f_equal.
  rewrite later_propagate, later_later. f_equal. ring.
Qed.
Section absorber.
Context (h : hscatterer) (HS : h_shape h = s).
Notation K := (mu h (later ev a) + sigma h (later ev a)).
Context (KP : K <> 0).
Lemma body_interact : forall u n, exists o, interactM1 tol h (later ev a) u n = Ok o /\
  m_transmitted o = scale_p (later ev b) (exp (- K * ((b - a) * vnorm (e_v ev)))) /\ exists e, m_scattered o = scale_p (k_scatter (h_kernel h) n e) (h_packing h).
Proof using T PL PO V EE RG MID HS KP.
  intros u n. unfold interactM1. rewrite HS, body_here. cbn [loc_eqb].
  assert (I1 : propagate_to_next_incident_surface tol (later ev a) s = Ok (later ev a)) by (unfold propagate_to_next_incident_surface; rewrite body_here, body_forward, body_search; reflexivity).
  assert (I2 : tof_before_exit tol (later ev a) s = Ok (b - a)) by (unfold tof_before_exit; rewrite body_here, body_forward; cbn [loc_eqb]; rewrite body_search; reflexivity).
  rewrite I1. cbn [bind]. rewrite I2. cbn [bind]. unfold divide at 1. destruct (Req_EM_T K 0) as [Z|_]; [contradiction|]. cbn [bind]. rewrite body_exit. cbn [bind e_v later].
  assert (VN : vnorm (e_v ev) <> 0).
  { pose proof (vnorm_pos (e_v ev) V). lra. }
  unfold divide. destruct (Req_EM_T (vnorm (e_v ev)) 0) as [Z|_]; [contradiction|]. cbn [bind]. eexists. split; [reflexivity|]. cbn [m_transmitted m_scattered].
  split; [reflexivity|]. eexists. reflexivity.
Qed.

Context (LOOPS : (1 <= h_loops h)%Z) (NS : forall n e, e_p (k_scatter (h_kernel h) n e) * h_packing h < / 100000000000000000000).
Notation q := (e_p ev * exp (- K * ((b - a) * vnorm (e_v ev)))).
Context (HM : h_min h <= e_p ev) (Q : / 100000000000000000000 <= q).
Definition through : event := scale_p (later ev b) (exp (- K * ((b - a) * vnorm (e_v ev)))).
Lemma body_M : forall u, h_interactM_path1 tol h u (later ev a) = Ok (Scattering, [through]).
Proof using T PL PO V EE RG MID HS KP LOOPS NS HM Q.
  intros u. unfold h_interactM_path1. destruct (Z.to_nat (h_loops h)) as [|left] eqn:E; [lia|]. cbn [h_loop h_round]. rewrite low_false by exact HM.
  destruct (body_interact (u 0%nat) 0%nat) as (o & O1 & O2 & e & O3). rewrite O1. cbn [bind]. rewrite O2, O3. fold through. unfold h_sort. cbn [filter].
  assert (P1 : e_p through = q) by reflexivity. rewrite P1, (proj2 (Rltb_f q (/ 100000000000000000000))) by exact Q.
  rewrite (proj2 (Rltb_t (e_p (scale_p (k_scatter (h_kernel h) 0 e) (h_packing h))) (/ 100000000000000000000))) by (cbn; apply NS). cbn [negb filter].
  assert (LO : locate_ev tol through (h_shape h) = Onborder) by (rewrite HS; exact (proj2 body_onborder)). rewrite LO. cbn [loc_eqb negb app bind].
  destruct left; reflexivity.
Qed.
End absorber.

Context (OUT : locate tol s (e_r ev) = Outside) (AP : 0 < a) (MV : is_moving ev = true) (low : R) (LM : low <= e_p ev).
Lemma body_first : forward_tofs tol ev s = [a; b].
Proof using PL PO V EE RG AP.
  pose proof (proj1 EE) as L. unfold forward_tofs. rewrite forward_fwd. pose proof (body_crossings 0) as X. rewrite line_0, !Rminus_0_r in X. rewrite X. unfold fwd. cbn [filter].
  rewrite (proj2 (Rltb_f a 0)), (proj2 (Rltb_f b 0)) by lra. reflexivity.
Qed.
Context (e : element) (ES : el_shape e = s) (EP : el_position e = mkV 0 0 0) (EO : el_orientation e = I3).
Lemma body_elem : forall c, c_elements c = [e] -> hit tol c (later ev a) = Some e.
Proof using T PL PO V EE RG MID ES EP EO.
  intros c EC. unfold hit, c_shapes. rewrite EC. cbn [map e_r e_v later]. unfold placed_shape. rewrite ES, EP, EO. fold (home s). rewrite (body_hit a (Rle_refl a)). reflexivity.
Qed.
Lemma body_entering : is_exiting tol ev s = false.
Proof using PL PO V EE RG OUT AP. unfold is_exiting, locate_ev. rewrite OUT, body_first. reflexivity. Qed.
Lemma body_to : propagate_to_next_incident_surface tol ev s = Ok (later ev a).
Proof using PL PO V EE RG OUT AP. unfold propagate_to_next_incident_surface, locate_ev. rewrite OUT, body_first. now rewrite later_propagate. Qed.
Context (k : R) (LQ : low <= e_p ev * k).
Lemma body_any : forall n i, i <> Absorption -> el_interactM e n (later ev a) = Ok (i, [scale_p (later ev b) k]) ->
  exists d, b <= d <= b + 1 / 10000000 /\ scatterM tol (alone e low) n ev = Ok [scale_p (later ev d) k].
Proof using T PL PO V EE RG MID OUT AP MV LM LQ ES EP EO.
  intros n i NA EI. set (c := alone e low). assert (FR : c_frame c = s) by exact ES. pose proof EE as (L & C & D).
  unfold scatterM. change (c_loops c) with 5%nat. cbn [outer_loop outer_round]. rewrite (low_false (c_min c) ev LM), MV. cbn [negb].
  rewrite FR, body_entering.
  assert (I0 : interactM_path1 tol c n ev [] = Ok (S n, Scattering, [scale_p (later ev b) k])).
  { unfold interactM_path1. rewrite FR. unfold locate_ev at 1. rewrite OUT. cbn [loc_eqb]. rewrite body_to. cbn [bind].
    change (c_inner_loops c) with 2%nat. cbn [inner_loop inner_round]. unfold inner_event at 1. rewrite (low_false (c_min c) (later ev a) LM).
    rewrite (body_elem c eq_refl), EP, EO, g2l_id, EI. cbn [bind map]. rewrite l2g_id. cbn [filter]. rewrite FR.
    assert (LO : locate_ev tol (scale_p (later ev b) k) s = Onborder) by exact (proj2 body_onborder). rewrite LO. cbn [loc_eqb negb app bind].
    destruct i; [congruence|reflexivity|reflexivity]. }
  rewrite I0. cbn [bind].
  assert (N0 : exists d, b <= d <= b + 1 / 10000000 /\ nudge ev [scale_p (later ev b) k] = [scale_p (later ev d) k]).
  { cbn [nudge]. assert (Z : exists d, b <= d <= b + 1 / 10000000 /\ [scale_p (later ev b) k] = [scale_p (later ev d) k]) by (exists b; split; [lra|reflexivity]).
    destruct (Req_EM_T _ _); [exact Z|]. destruct (Rltb _ _); [|exact Z]. exists (b + 1 / 10000000). split; [lra|]. f_equal.
    unfold propagate, scale_p, later. cbn. f_equal; [rewrite arrow_line, line_line; reflexivity|ring]. }
  destruct N0 as (d & Dd & N0). exists d. split; [exact Dd|]. rewrite N0. set (x := scale_p (later ev d) _). cbn [outer_round].
  rewrite (low_false (c_min c) x LQ). assert (MX : is_moving x = true) by exact MV. rewrite MX. cbn [negb].
  assert (EX : is_exiting tol x s = true).
  { unfold is_exiting, locate_ev, forward_tofs. cbn [x e_r e_v scale_p later]. rewrite forward_fwd, body_crossings.
    assert (NI : locate tol s (pt d) <> Inside).
    { intros Y. destruct (locate_right tol s (pt d) (positive_wf s PO) T) as (A & _). destruct (A Y) as (A1 & _). apply C in A1. lra. }
    destruct (Req_EM_T d b) as [->|NE].
    - rewrite (proj2 body_onborder). unfold fwd. cbn [filter]. rewrite (proj2 (Rltb_t (a - b) 0)), (proj2 (Rltb_f (b - b) 0)) by lra. cbn [negb loc_eqb all_onborder].
      cbn [e_r e_v x scale_p later]. rewrite arrow_line, line_line. replace (b + (0 + (b - b)) / 2) with b by field. rewrite (proj2 body_onborder). reflexivity.
    - unfold fwd. cbn [filter]. rewrite (proj2 (Rltb_t (a - d) 0)), (proj2 (Rltb_t (b - d) 0)) by lra. cbn [negb]. destruct (locate tol s (pt d)); [contradiction|reflexivity|reflexivity]. }
  rewrite FR, EX. cbn [bind app map]. reflexivity.
Qed.
Lemma body_err : forall n x loops inner, el_interactM e n (later ev a) = Err x -> scatterM tol (mkCo s [e] (S loops) (S inner) low) n ev = Err x.
Proof using T PL PO V EE RG MID OUT AP MV LM ES EP EO.
  intros n x loops inner EI. unfold scatterM. cbn [c_loops outer_loop outer_round c_min c_frame]. rewrite (low_false low ev LM), MV. cbn [negb]. rewrite body_entering.
  unfold interactM_path1. cbn [c_frame c_inner_loops]. unfold locate_ev at 1. rewrite OUT. cbn [loc_eqb]. rewrite body_to. cbn [bind inner_loop inner_round]. unfold inner_event at 1. cbn [c_min].
  rewrite (low_false low (later ev a) LM), body_elem, EP, EO, g2l_id, EI by reflexivity. reflexivity.
Qed.
(** one event *)
Lemma union_locate : forall c p, c_elements c = [e] -> locate tol (c_union c) p = locate tol s p.
Proof using ES EP EO.
  intros c p EC. unfold c_union, c_shapes. rewrite EC. cbn [map]. unfold placed_shape. rewrite ES, EP, EO. fold (home s). change (union_loop (fun s' => locate tol s' p) [home s] true = locate tol s p). cbn [union_loop]. rewrite <- (home_locate tol s p).
  destruct (locate tol (home s) p); reflexivity.
Qed.
Lemma union_crossings : forall c t0, c_elements c = [e] -> intersect tol (c_union c) (pt t0) (e_v ev) = [a - t0; b - t0].
Proof using T PL PO V EE RG ES EP EO.
  intros c t0 EC. pose proof (fun p => union_locate c p EC) as UL. revert UL. unfold c_union, c_shapes. rewrite EC. cbn [map]. unfold placed_shape. rewrite ES, EP, EO. fold (home s). intros UL.
  cbn [intersect map]. unfold home at 2. cbn [intersect]. rewrite placed_point, placed_dir, body_crossings. unfold visit_composition. cbn [flat_map filter]. unfold on_border_of. rewrite !UL, !arrow_line, !line_line.
  replace (t0 + (a - t0)) with a by ring. replace (t0 + (b - t0)) with b by ring. rewrite (proj1 body_onborder), (proj2 body_onborder). cbn [loc_eqb app rsort rinsert].
  pose proof (proj1 EE) as L. cbn [rsort fold_right rinsert]. unfold Rleb. destruct (Rle_dec (a - t0) (b - t0)); [reflexivity|exfalso; lra].
Qed.
Lemma body_start : forall c, c_frame c = s -> c_elements c = [e] -> is_exiting tol ev (c_union c) = false /\ hit tol c ev = Some e.
Proof using T PL PO V EE RG MID OUT AP ES EP EO.
  intros c FR EC. pose proof EE as (L & C & D). split.
  - unfold is_exiting, locate_ev, forward_tofs. rewrite (union_locate c (e_r ev) EC), OUT, forward_fwd. pose proof (union_crossings c 0 EC) as X. rewrite line_0, !Rminus_0_r in X. rewrite X.
    unfold fwd. cbn [filter]. rewrite (proj2 (Rltb_f a 0)) by lra. reflexivity.
  - unfold hit, c_shapes. rewrite EC. cbn [map]. unfold placed_shape. rewrite ES, EP, EO. fold (home s). pose proof (body_hit 0 ltac:(lra)) as X. rewrite line_0 in X. rewrite X. reflexivity.
Qed.
Lemma body_scatter_err : forall n fuel c x, c_frame c = s -> c_elements c = [e] -> el_interact e n ev = Err x -> scatter (S (S fuel)) tol c n ev = Err x.
Proof using T PL PO V EE RG MID OUT AP MV ES EP EO.
  intros n fuel c x FR EC EI. destruct (body_start c FR EC) as [E1 H0]. cbn [scatter]. rewrite MV, FR, body_entering. cbn [negb]. rewrite E1. cbn [c_interact_path1].
  rewrite H0, EP, EO, g2l_id, EI. reflexivity.
Qed.
Lemma body_scatter_absorbed : forall n fuel c x, c_frame c = s -> c_elements c = [e] -> el_interact e n ev = Ok (Absorption, x) -> scatter (S (S fuel)) tol c n ev = Ok (set_p ev (-1)).
Proof using T PL PO V EE RG MID OUT AP MV ES EP EO.
  intros n fuel c x FR EC EI. destruct (body_start c FR EC) as [E1 H0]. cbn [scatter]. rewrite MV, FR, body_entering. cbn [negb]. rewrite E1. cbn [c_interact_path1].
  rewrite H0, EP, EO, g2l_id, EI. reflexivity.
Qed.
Lemma body_scatter : forall n fuel c, c_frame c = s -> c_elements c = [e] -> el_interact e n ev = Ok (NoInteraction, scale_p (later ev b) k) ->
  scatter (S (S fuel)) tol c n ev = Ok (scale_p (later ev b) k).
Proof using T PL PO V EE RG MID OUT AP MV ES EP EO.
  intros n fuel c FR EC EI. destruct (body_start c FR EC) as [E1 H0]. pose proof EE as (L & C & D). cbn [scatter]. rewrite MV, FR, body_entering. cbn [negb]. rewrite E1. cbn [c_interact_path1].
  rewrite H0, EP, EO, g2l_id, EI. cbn [bind]. rewrite l2g_id, FR. set (x := scale_p (later ev b) k).
  assert (LO : locate tol s (e_r x) = Onborder) by exact (proj2 body_onborder). unfold locate_ev at 1. rewrite LO. cbn [loc_eqb negb bind].
  assert (FX : forall u, (forall t0, intersect tol u (pt t0) (e_v ev) = [a - t0; b - t0]) -> forward_tofs tol x u = [0]).
  { intros u U. unfold forward_tofs. rewrite forward_fwd. change (e_r x) with (pt b). change (e_v x) with (e_v ev). rewrite U. unfold fwd. cbn [filter].
    rewrite (proj2 (Rltb_t (a - b) 0)), (proj2 (Rltb_f (b - b) 0)) by lra. cbn [negb]. f_equal. ring. }
  assert (M0 : arrow_at (e_r x) (e_v x) (0 * (1 / 2)) = e_r x /\ arrow_at (e_r x) (e_v x) ((0 + 0) / 2) = e_r x).
  { split; rewrite arrow_line; [replace (0 * (1 / 2)) with 0 by ring|replace ((0 + 0) / 2) with 0 by field]; apply line_0. }
  unfold propagate_to_next_incident_surface. unfold locate_ev at 1. rewrite (union_locate c (e_r x) EC), LO, (FX (c_union c)) by (intros; now apply union_crossings).
  cbn [search]. rewrite (proj1 M0), (union_locate c (e_r x) EC), LO. cbn [bind].
  assert (MX : is_moving x = true) by exact MV. rewrite MX. cbn [negb].
  assert (EX : is_exiting tol x s = true).
  { unfold is_exiting, locate_ev. rewrite LO, (FX s body_crossings). cbn [loc_eqb all_onborder]. rewrite (proj2 M0), LO. reflexivity. }
  rewrite EX. reflexivity.
Qed.
End body.

(** ** Absorbers create no weight *)

Lemma search_in : forall tol s ev w l t, search tol s ev w l = Some t -> In t l.
Proof.
  induction l as [|x l IH]; intros t H; cbn [search] in H; [discriminate H|].
  destruct (locate tol s _); cbn [loc_eqb] in H; try (right; now apply IH); destruct w; try discriminate H; injection H as <-; now left.
Qed.
Lemma forward_pos : forall tol ev s t, In t (forward_tofs tol ev s) -> 0 <= t.
Proof.
  intros tol ev s t I. unfold forward_tofs, forward_intersect in I. apply filter_In in I. destruct I as (_ & I). apply negb_true_iff, Rltb_f in I. lra.
Qed.
Lemma tof_pos : forall tol ev s t, tof_before_exit tol ev s = Ok t -> 0 <= t.
Proof.
  intros tol ev s t H. unfold tof_before_exit in H. pose proof (forward_pos tol ev s) as F. destruct (locate_ev tol ev s); try discriminate H; destruct (forward_tofs tol ev s) as [|x l]; try discriminate H.
  - cbn [loc_eqb] in H. injection H as <-. apply F. now left.
  - cbn [loc_eqb] in H. destruct (search _ _ _ _ _) as [t'|] eqn:E; injection H as <-; [|lra]. apply F. eapply search_in; exact E.
Qed.
Section absorbers.
Context (tol : R) (h : hscatterer) (MU : forall x, 0 <= mu h x) (SI : forall x, 0 <= sigma h x) (NS : forall n x, e_p (k_scatter (h_kernel h) n x) = 0).
Lemma one_absorbed : forall ev u n o, 0 <= e_p ev -> interactM1 tol h ev u n = Ok o -> 0 <= e_p (m_transmitted o) <= e_p ev /\ e_p (m_scattered o) = 0.
Proof using MU SI NS.
  intros ev u n o P H. unfold interactM1 in H. destruct (if loc_eqb _ _ then _ else _) as [x|] eqn:E; cbn [bind] in H; [|discriminate H].
  assert (PX : e_p x = e_p ev) by (destruct (loc_eqb _ _) in E; [injection E as <-; reflexivity|destruct (incident_later _ _ _ _ E) as [t ->]; reflexivity]).
  destruct (tof_before_exit tol x (h_shape h)) as [tof|] eqn:TF; cbn [bind] in H; [|discriminate H]. pose proof (tof_pos _ _ _ _ TF) as TP.
  destruct (divide (mu h x) _); cbn [bind] in H; [|discriminate H].
  destruct (propagate_to_next_exiting_surface tol x (h_shape h)) as [y|] eqn:Y; cbn [bind] in H; [|discriminate H].
  destruct (divide _ (vnorm (e_v x))); cbn [bind] in H; [|discriminate H]. injection H as <-. cbn [m_transmitted m_scattered scale_p e_p]. rewrite NS.
  destruct (exit_later _ _ _ _ Y) as [t ->]. cbn [later e_p]. rewrite PX. split; [|ring].
  assert (X1 : exp (- (mu h x + sigma h x) * (tof * vnorm (e_v x))) <= 1).
  { replace 1 with (exp 0) by exact exp_0. destruct (Rle_lt_or_eq_dec (- (mu h x + sigma h x) * (tof * vnorm (e_v x))) 0) as [L| ->]; [|left; now apply exp_increasing|right; reflexivity].
    pose proof (MU x). pose proof (SI x). assert (0 <= vnorm (e_v x)) by apply sqrt_pos. assert (0 <= tof * vnorm (e_v x)) by (apply Rmult_le_pos; assumption). nra. }
  pose proof (exp_pos (- (mu h x + sigma h x) * (tof * vnorm (e_v x)))) as X0. nra.
Qed.
Lemma sort_absorbed : forall l d m, sound l -> h_sort tol h l = (d, m) -> sound d /\ sound m /\ total d + total m <= total l.
Proof using.
  intros l d m S1 H. unfold h_sort in H. injection H as <- <-. set (l1 := filter _ l). assert (S2 : sound l1) by now apply sound_filter.
  split; [now apply sound_filter|]. split; [now apply sound_filter|]. rewrite total_filter by reflexivity. unfold l1. clear S2 l1. induction l as [|x l IH]; cbn [filter total]; [lra|].
  pose proof (Forall_inv S1) as P. specialize (IH (Forall_inv_tail S1)). destruct (negb _); cbn [total]; lra.
Qed.
Lemma round_absorbed : forall u todo n evts again n' evts' again', sound todo -> sound evts -> sound again -> h_round tol h u n todo evts again = Ok (n', evts', again') ->
  sound evts' /\ sound again' /\ total evts' + total again' <= total evts + total again + total todo.
Proof using MU SI NS.
  intros u. induction todo as [|ev l IH]; intros n evts again n' evts' again' A B D H; cbn [h_round] in H.
  { injection H as <- <- <-. cbn. split; [exact B|]. split; [exact D|]. lra. }
  pose proof (Forall_inv A) as P. pose proof (Forall_inv_tail A) as A'. cbn [total].
  destruct (too_low _ _). { destruct (IH _ _ _ _ _ _ A' B D H) as [K1 [K2 K3]]. split; [exact K1|]. split; [exact K2|]. lra. }
  destruct (interactM1 tol h ev (u n) n) as [o|] eqn:E; cbn [bind] in H; [|discriminate H]. destruct (one_absorbed _ _ _ _ P E) as [G1 G2].
  destruct (h_sort tol h [m_transmitted o; m_scattered o]) as [d m] eqn:HS.
  assert (SS : sound [m_transmitted o; m_scattered o]) by (constructor; [lra|constructor; [lra|constructor]]).
  destruct (sort_absorbed _ _ _ SS HS) as [S1 [S2 S3]]. cbn [total] in S3.
  destruct (IH _ _ _ _ _ _ A' (proj2 (sound_app _ _) (conj B S1)) (proj2 (sound_app _ _) (conj D S2)) H) as [K1 [K2 K3]].
  split; [exact K1|]. split; [exact K2|]. rewrite !total_app in K3. lra.
Qed.
Lemma loop_absorbed : forall u left n todo evts evts' rest, sound todo -> sound evts -> h_loop tol h u left n todo evts = Ok (evts', rest) ->
  sound evts' /\ sound rest /\ total evts' + total rest <= total evts + total todo.
Proof using MU SI NS.
  intros u. induction left as [|left IH]; intros n todo evts evts' rest A B H; cbn [h_loop] in H.
  { injection H as <- <-. split; [exact B|]. split; [exact A|]. lra. }
  destruct todo as [|x todo]. { injection H as <- <-. split; [exact B|]. split; [constructor|]. lra. }
  destruct (h_round tol h u n (x :: todo) evts []) as [[[n1 e1] a1]|] eqn:E; cbn [bind] in H; [|discriminate H].
  destruct (round_absorbed _ _ _ _ _ _ _ _ A B (Forall_nil _) E) as [K1 [K2 K3]].
  destruct (IH _ _ _ _ _ K2 K1 H) as [L1 [L2 L3]]. split; [exact L1|]. split; [exact L2|]. cbn [total] in K3 |- *. lra.
Qed.
Lemma length_more : forall s r v k M l prev len0, StronglySorted Rle l -> Forall (Rle prev) l -> 0 <= k -> (k = 0 \/ prev <= M) -> len0 <= inside_length tol s r v k M prev len0 l.
Proof using.
  intros s r v k M. induction l as [|t l IH]; intros prev len0 SO F K PM; cbn [inside_length]; [lra|].
  pose proof (Forall_inv F) as F1. destruct (StronglySorted_inv SO) as (SO' & F2). cbn beta in F1.
  set (tof := if Rltb M t then M else t). set (len1 := if loc_eqb _ _ then _ else _).
  assert (PT : k = 0 \/ prev <= tof) by (unfold tof; destruct (Rltb M t); [destruct PM; [now left|now right]|now right]).
  assert (L1 : len0 <= len1) by (unfold len1; destruct (loc_eqb _ _); [destruct PT as [-> |PT]; nra|lra]).
  destruct (Rltb M tof) eqn:Z; [exact L1|]. apply Rle_trans with len1; [exact L1|]. apply IH; [exact SO'| |exact K|].
  - eapply Forall_impl; [|exact F2]. intros y Y. unfold tof. destruct (Rltb M t) eqn:W; [apply Rltb_t in W; lra|exact Y].
  - right. apply Rltb_f in Z. lra.
Qed.
Lemma absorber_attenuation : forall x stop, 0 <= calculate_attenuation tol h x stop <= 1.
Proof using MU SI.
  intros x stop. unfold calculate_attenuation. set (len := inside_length _ _ _ _ _ _ _ _ _). assert (L : 0 <= len).
  { unfold len. apply length_more.
    - unfold forward_intersect. pose proof (intersect_sorted_all tol (h_shape h) (e_r x) (e_v x)) as SO. induction SO as [|y l S1 IH F]; cbn [filter]; [constructor|].
      destruct (negb (Rltb y 0)); [|exact IH]. constructor; [exact IH|]. rewrite Forall_forall in F |- *. intros z Z. apply filter_In in Z. apply F. tauto.
    - rewrite Forall_forall. intros t I. exact (forward_pos tol x (h_shape h) t I).
    - apply sqrt_pos.
    - destruct (Req_dec (vnorm (e_v x)) 0) as [Z|Z]; [now left|right]. assert (0 < vnorm (e_v x)) by (pose proof (sqrt_pos (vdot (e_v x) (e_v x))); unfold vnorm in *; lra).
      apply Rmult_le_pos; [apply sqrt_pos|left; now apply Rinv_0_lt_compat]. }
  split; [left; apply exp_pos|]. pose proof (MU x). pose proof (SI x). replace 1 with (exp 0) by exact exp_0.
  destruct (Rle_lt_or_eq_dec (- (mu h x + sigma h x) * len) 0) as [Z| ->]; [nra|left; now apply exp_increasing|right; reflexivity].
Qed.
Lemma absorber_frugal : forall u p m, frugal (homogeneous tol h u p m).
Proof using MU SI NS.
  intros u p m. split; [|exact absorber_attenuation]. intros n ev itype l P H. cbn [homogeneous el_interactM] in H. unfold h_interactM_path1 in H.
  destruct (h_loop _ _ _ _ _ _ _) as [[e1 rest]|] eqn:E; cbn [bind] in H; [|discriminate H]. injection H as <- <-.
  destruct (loop_absorbed _ _ _ _ _ _ _ (sound_one ev P) (Forall_nil _) E) as [K1 [K2 K3]]. split; [apply sound_app; now split|]. rewrite total_app. cbn [total] in K3. lra.
Qed.
End absorbers.
