(** Proofs about the guide: straight guides, the reflectivity, loops without end. *)
From Coq Require Import Reals List Lra Lia.
From Verif Require Import Base RotModel ChanModel ShapeModel ChanProofs GridProofs OptModel OptSpec OptProofs GuidModel GuidSpec GuidProofs.
Import ListNotations.
Open Scope R_scope.

(* the entrance *)
Lemma entrance_free G r : vz (r_vel r) <> 0 -> 0 < g_l G ->
  let q := prop_z0 None r in
  (Rabs (vx (r_pos q)) < g_w1 G / 2 /\ Rabs (vy (r_pos q)) < g_h1 G / 2 -> inside G q /\ vz (r_pos q) = 0 /\ forall fuel, guide_trace fuel None G r = guide_loop fuel None G q) /\
  (g_w1 G / 2 <= Rabs (vx (r_pos q)) \/ g_h1 G / 2 <= Rabs (vy (r_pos q)) -> forall fuel, guide_trace fuel None G r = Ok (absorb q)).
Proof.
  intros N L q. destruct (z0_none r N) as [_ Z]. fold q in Z. unfold guide_trace. fold q. clearbody q. unfold whalf, hhalf. split.
  - intros [A B]. assert (A' : - (g_w1 G / 2) < vx (r_pos q) < g_w1 G / 2) by (revert A; unfold Rabs; destruct (Rcase_abs _); lra).
    assert (B' : - (g_h1 G / 2) < vy (r_pos q) < g_h1 G / 2) by (revert B; unfold Rabs; destruct (Rcase_abs _); lra).
    split; [|split; [exact Z|]].
    + unfold inside, within, half_width, half_height. rewrite Z. split; [replace ((g_w2 G - g_w1 G) / 2 * 0 / g_l G) with 0 by (field; lra)|replace ((g_h2 G - g_h1 G) / 2 * 0 / g_l G) with 0 by (field; lra)]; lra.
    + intros fuel. assert (E1 : Rleb (vx (r_pos q)) (- (/ 2 * g_w1 G)) = false) by (apply Rleb_false; lra). assert (E2 : Rleb (/ 2 * g_w1 G) (vx (r_pos q)) = false) by (apply Rleb_false; lra).
      assert (E3 : Rleb (vy (r_pos q)) (- (/ 2 * g_h1 G)) = false) by (apply Rleb_false; lra). assert (E4 : Rleb (/ 2 * g_h1 G) (vy (r_pos q)) = false) by (apply Rleb_false; lra).
      rewrite E1, E2, E3, E4. reflexivity.
  - intros H fuel. destruct (_ || _)%bool eqn:E; [reflexivity|exfalso]. rewrite !Bool.orb_false_iff in E. destruct E as (((E1 & E2) & E3) & E4).
    apply Rleb_false in E1. apply Rleb_false in E2. apply Rleb_false in E3. apply Rleb_false in E4.
    assert (Rabs (vx (r_pos q)) < g_w1 G / 2) by (apply Rabs_def1; lra). assert (Rabs (vy (r_pos q)) < g_h1 G / 2) by (apply Rabs_def1; lra). lra.
Qed.

(* straight guides *)
Section Straight.
Variable G : guide.
Hypothesis long : 0 < g_l G.
Hypothesis wide : 0 < g_w1 G.
Hypothesis high : 0 < g_h1 G.
Hypothesis same_w : g_w2 G = g_w1 G.
Hypothesis same_h : g_h2 G = g_h1 G.
Lemma ww0 : ww G = 0. Proof. unfold ww. rewrite same_w. ring. Qed.
Lemma hh0 : hh G = 0. Proof. unfold hh. rewrite same_h. ring. Qed.
Definition kept (r r' : ray) : Prop := vz (r_vel r') = vz (r_vel r) /\ Rabs (vx (r_vel r')) = Rabs (vx (r_vel r)) /\ Rabs (vy (r_vel r')) = Rabs (vy (r_vel r)).
Lemma reflect_straight k r q r' : reflect G k (vdotn G k r) r = (q, r') ->
  r_pos r' = r_pos r /\ r_vel r' = match k with MLeft | MRight => mkV (- vx (r_vel r)) (vy (r_vel r)) (vz (r_vel r)) | _ => mkV (vx (r_vel r)) (- vy (r_vel r)) (vz (r_vel r)) end.
Proof.
  intros H. unfold reflect, vdotn in H. rewrite ww0, hh0 in H. destruct k; injection H as _ <-; cbn [with_v r_pos r_vel]; (split; [reflexivity|]); f_equal; field; lra.
Qed.
(* the way to the wall ahead *)
Definition ahead (half u x : R) : R := if Rltb u 0 then half + x else half - x.
Definition count1 (w u x T : R) : R := (T * Rabs u + (w - ahead (w / 2) u x)) / w.
Definition count (r : ray) : R :=
  let T := (g_l G - vz (r_pos r)) / vz (r_vel r) in
  count1 (g_w1 G) (vx (r_vel r)) (vx (r_pos r)) T + count1 (g_h1 G) (vy (r_vel r)) (vy (r_pos r)) T.
Lemma count1_nonneg w u x T : 0 < w -> 0 <= T -> Rabs x <= w / 2 -> 0 <= count1 w u x T.
Proof.
  intros W HT X. unfold count1. apply Rmult_le_pos; [|apply Rlt_le, Rinv_0_lt_compat, W]. pose proof (Rabs_pos u). assert (0 <= T * Rabs u) by (apply Rmult_le_pos; lra).
  assert (- (w / 2) <= x <= w / 2) by (revert X; unfold Rabs; destruct (Rcase_abs x); lra). unfold ahead. destruct (Rltb u 0); lra.
Qed.
(* free flight does not change it *)
Lemma count1_moved w u x T s : 0 < w -> count1 w u (x + u * s) (T - s) = count1 w u x T.
Proof. intros W. unfold count1, ahead. destruct (Rltb u 0) eqn:E; [apply Rltb_t in E; rewrite (Rabs_left u) by exact E|apply Rltb_f in E; rewrite (Rabs_right u) by lra]; f_equal; ring. Qed.
(* a reflection takes one away *)
Lemma count1_wall w u x T : 0 < w -> u <> 0 -> ahead (w / 2) u x = 0 -> count1 w (- u) x T = count1 w u x T - 1.
Proof.
  intros W N A. unfold count1. rewrite Rabs_Ropp, A. assert (B : ahead (w / 2) (- u) x = w).
  { unfold ahead in *. destruct (Rltb u 0) eqn:E; [apply Rltb_t in E|apply Rltb_f in E].
    - assert (F : Rltb (- u) 0 = false) by (apply Rltb_f; lra). rewrite F. lra.
    - assert (F : Rltb (- u) 0 = true) by (apply Rltb_t; lra). rewrite F. lra. }
  rewrite B. field. lra.
Qed.
Lemma straight_width z : half_width G z = g_w1 G / 2. Proof. unfold half_width. rewrite same_w. field. lra. Qed.
Lemma straight_height z : half_height G z = g_h1 G / 2. Proof. unfold half_height. rewrite same_h. field. lra. Qed.
Lemma count_turn r t k q r2 f : inside G r -> vz (r_pos r) < g_l G -> 0 < vz (r_vel r) -> first_hit G r = Some (t, k) ->
  reflect G k (vdotn G k r) (prop_dt t None r) = (q, r2) -> count (with_p r2 (r_p r2 * f)) = count r - 1 /\ kept r r2.
Proof.
  intros I Z P H R. destruct (hit_some G long r t k I Z H) as (_ & V & T & ET & ZL & _). rewrite (dt_moved t r T) in R.
  change (vdotn G k r) with (vdotn G k (moved r t)) in R. destruct (reflect_straight k (moved r t) q r2 R) as [EP EV].
  assert (E0 : room G k (moved r t) = 0) by (rewrite room_moved; rewrite ET; unfold room, time; field; lra).
  pose proof (mirror_room G long k (moved r t) E0) as OM.
  assert (C0 : count (moved r t) = count r).
  { unfold count. cbn [moved prop_dt_nogravity r_pos r_vel vx vy vz].
    replace ((g_l G - (vz (r_pos r) + vz (r_vel r) * t)) / vz (r_vel r)) with ((g_l G - vz (r_pos r)) / vz (r_vel r) - t) by (field; lra).
    rewrite !count1_moved by assumption. reflexivity. }
  set (m := moved r t) in *. assert (VM : r_vel m = r_vel r) by reflexivity. assert (VV : vdotn G k m < 0) by exact V. clearbody m. split.
  - rewrite <- C0. unfold count. cbn [with_p r_pos r_vel]. rewrite EP, EV. destruct k; cbn [vx vy vz on_mirror] in *; rewrite ?straight_width, ?straight_height in OM; unfold vdotn in VV; rewrite ?ww0, ?hh0 in VV.
    + assert (U : vx (r_vel m) < 0) by nra. rewrite count1_wall; [ring|exact wide|lra|]. unfold ahead. rewrite (proj2 (Rltb_t _ _) U). lra.
    + assert (U : 0 < vx (r_vel m)) by nra. rewrite count1_wall; [ring|exact wide|lra|]. unfold ahead. assert (F : Rltb (vx (r_vel m)) 0 = false) by (apply Rltb_f; lra). rewrite F. lra.
    + assert (U : vy (r_vel m) < 0) by nra. rewrite count1_wall; [ring|exact high|lra|]. unfold ahead. rewrite (proj2 (Rltb_t _ _) U). lra.
    + assert (U : 0 < vy (r_vel m)) by nra. rewrite count1_wall; [ring|exact high|lra|]. unfold ahead. assert (F : Rltb (vy (r_vel m)) 0 = false) by (apply Rltb_f; lra). rewrite F. lra.
  - unfold kept. rewrite EV, VM. destruct k; cbn [vx vy vz]; rewrite ?Rabs_Ropp; auto.
Qed.
Lemma count_nonneg r : inside G r -> vz (r_pos r) < g_l G -> 0 < vz (r_vel r) -> 0 <= count r.
Proof.
  intros [A B] Z P. rewrite straight_width in A. rewrite straight_height in B. assert (T : 0 <= (g_l G - vz (r_pos r)) / vz (r_vel r)) by (apply Rlt_le, Rdiv_lt_0_compat; lra).
  pose proof (count1_nonneg (g_w1 G) (vx (r_vel r)) (vx (r_pos r)) _ wide T A). pose proof (count1_nonneg (g_h1 G) (vy (r_vel r)) (vy (r_pos r)) _ high T B). unfold count. lra.
Qed.
Lemma straight_loop n : forall r, inside G r -> vz (r_pos r) < g_l G -> 0 < vz (r_vel r) -> count r < INR n -> exists r', guide_loop n None G r = Ok r' /\ kept r r'.
Proof.
  induction n as [|n IH]; intros r I Z P C; [pose proof (count_nonneg r I Z P); cbn in C; lra|]. cbn [guide_loop].
  destruct (first_hit G r) as [[t k]|] eqn:F; [|exists r; split; [reflexivity|repeat split]].
  destruct (reflect G k (vdotn G k r) (prop_dt t None r)) as [q r2] eqn:R. destruct (turn_spec G long r t k q r2 I Z F R) as (_ & _ & I2 & Z2).
  destruct (count_turn r t k q r2 1 I Z P F R) as [_ K]. destruct (reflectivity G q) as [f|]; [|exists (absorb r2); split; [reflexivity|exact K]].
  destruct (count_turn r t k q r2 f I Z P F R) as [CT _]. rewrite S_INR in C.
  assert (P2 : 0 < vz (r_vel (with_p r2 (r_p r2 * f)))) by (cbn; destruct K as (K & _); lra).
  destruct (IH (with_p r2 (r_p r2 * f)) I2 Z2 P2) as (r' & E & K'); [lra|]. exists r'. split; [exact E|].
  destruct K as (K1 & K2 & K3). destruct K' as (K1' & K2' & K3'). cbn in K1', K2', K3'. repeat split; congruence.
Qed.
Lemma straight_ends r : inside G r -> vz (r_pos r) < g_l G -> 0 < vz (r_vel r) -> exists n r', kept r r' /\ forall fuel, (n <= fuel)%nat -> guide_loop fuel None G r = Ok r'.
Proof.
  intros I Z P. destruct (archimed (count r)) as [A _]. set (n := Z.to_nat (up (count r))).
  assert (C : count r < INR n). { unfold n. pose proof (count_nonneg r I Z P). rewrite INR_IZR_INZ, Z2Nat.id; [exact A|]. apply le_IZR. lra. }
  destruct (straight_loop n r I Z P C) as (r' & E & K). exists n, r'. split; [exact K|]. intros fuel L. exact (loop_more G n fuel r r' L E).
Qed.
End Straight.

Lemma straight_trace G r : 0 < g_l G -> 0 < g_w1 G -> 0 < g_h1 G -> g_w2 G = g_w1 G -> g_h2 G = g_h1 G -> 0 < vz (r_vel r) ->
  exists n r', (forall fuel, (n <= fuel)%nat -> guide_trace fuel None G r = Ok r') /\
    vz (r_vel r') = vz (r_vel r) /\ Rabs (vx (r_vel r')) = Rabs (vx (r_vel r)) /\ Rabs (vy (r_vel r')) = Rabs (vy (r_vel r)).
Proof.
  intros L W H SW SH P. assert (N : vz (r_vel r) <> 0) by lra. destruct (entrance_free G r N L) as [IN OUT]. set (q := prop_z0 None r) in *.
  assert (V : r_vel q = r_vel r) by (unfold q; cbn; unfold prop_z0_nogravity; rewrite (proj2 (Reqb_f _ _) N); reflexivity).
  destruct (Rlt_le_dec (Rabs (vx (r_pos q))) (g_w1 G / 2)) as [A|A].
  - destruct (Rlt_le_dec (Rabs (vy (r_pos q))) (g_h1 G / 2)) as [B|B].
    + destruct (IN (conj A B)) as (I & Z & E). assert (ZL : vz (r_pos q) < g_l G) by lra. rewrite <- V in P.
      destruct (straight_ends G L W H SW SH q I ZL P) as (n & r' & (K1 & K2 & K3) & F). exists n, r'. split; [intros fuel LE; rewrite E; apply F, LE|]. rewrite V in *. auto.
    + exists 0%nat, (absorb q). split; [intros; apply OUT; right; exact B|]. unfold absorb; cbn [r_vel]; rewrite V; auto.
  - exists 0%nat, (absorb q). split; [intros; apply OUT; left; exact A|]. unfold absorb; cbn [r_vel]; rewrite V; auto.
Qed.
Lemma guide_journey G r fuel r' : 0 < g_l G -> vz (r_vel r) <> 0 -> guide_trace fuel None G r = Ok r' ->
  exists s q, flown weightless r s q /\ vz (r_pos q) = 0 /\ dot (r_vel r') (r_vel r') = dot (r_vel r) (r_vel r) /\
    (Rabs (vx (r_pos q)) < g_w1 G / 2 /\ Rabs (vy (r_pos q)) < g_h1 G / 2 -> journey G q r') /\
    (g_w1 G / 2 <= Rabs (vx (r_pos q)) \/ g_h1 G / 2 <= Rabs (vy (r_pos q)) -> lost q r').
Proof.
  intros L N H. destruct (z0_none r N) as [F Z]. destruct (entrance_free G r N L) as [IN OUT]. set (q := prop_z0 None r) in *.
  assert (V : r_vel q = r_vel r) by (unfold q; cbn; unfold prop_z0_nogravity; rewrite (proj2 (Reqb_f _ _) N); reflexivity). clearbody q.
  exists (- vz (r_pos r) / vz (r_vel r)), q. split; [exact F|]. split; [exact Z|].
  assert (J : Rabs (vx (r_pos q)) < g_w1 G / 2 /\ Rabs (vy (r_pos q)) < g_h1 G / 2 -> journey G q r').
  { intros A. destruct (IN A) as (I & _ & E). rewrite E in H. apply (loop_journey G L fuel q r' I); [lra|exact H]. }
  assert (K : g_w1 G / 2 <= Rabs (vx (r_pos q)) \/ g_h1 G / 2 <= Rabs (vy (r_pos q)) -> lost q r').
  { intros A. rewrite (OUT A fuel) in H. injection H as <-. apply absorb_lost. }
  split; [|split; assumption]. rewrite <- V.
  destruct (Rlt_le_dec (Rabs (vx (r_pos q))) (g_w1 G / 2)) as [A|A]; [destruct (Rlt_le_dec (Rabs (vy (r_pos q))) (g_h1 G / 2)) as [B|B]|].
  - exact (journey_speed G q r' (J (conj A B))).
  - destruct (K (or_intror B)) as (_ & _ & E & _). now rewrite E.
  - destruct (K (or_introl A)) as (_ & _ & E & _). now rewrite E.
Qed.

(* the reflectivity *)
Lemma tanh_bounds x : -1 < tanh x < 1.
Proof.
  unfold tanh, sinh, cosh. pose proof (exp_pos x) as A. pose proof (exp_pos (- x)) as B. split.
  - apply (Rmult_lt_reg_r ((exp x + exp (- x)) / 2)); [lra|]. unfold Rdiv at 2. rewrite Rmult_assoc, Rinv_l by lra. lra.
  - apply (Rmult_lt_reg_r ((exp x + exp (- x)) / 2)); [lra|]. unfold Rdiv at 1. rewrite Rmult_assoc, Rinv_l by lra. lra.
Qed.
Lemma reflectivity_bounds G q : g_table G = None -> guide_init G = Ok G -> 0 <= g_alpha G ->
  (g_m G = 0 -> reflectivity G q = None) /\
  (g_m G <> 0 -> q <= g_Qc G -> reflectivity G q = Some (g_R0 G)) /\
  (forall f, reflectivity G q = Some f -> g_Qc G < q -> q < g_m G * g_Qc G + 10 * g_W G /\ f <= g_R0 G /\ (g_alpha G * (q - g_Qc G) <= 1 -> 0 <= f)).
Proof.
  intros T I A. unfold guide_init in I. rewrite T in I. destruct (Rltb (g_W G) 0) eqn:W; [discriminate|]. destruct (Rltb (g_R0 G) 0) eqn:R0; [discriminate|].
  apply Rltb_f in W. apply Rltb_f in R0. unfold reflectivity. rewrite T. split; [|split].
  - intros E. rewrite (proj2 (Reqb_t _ _) E). reflexivity.
  - intros E L. rewrite (proj2 (Reqb_f _ _) E). apply Rltb_f in L. rewrite L. f_equal. ring.
  - intros f H L. destruct (Reqb (g_m G) 0); [discriminate|]. apply Rltb_t in L as L'. rewrite L' in H. destruct (Reqb (g_W G) 0) eqn:W0.
    + apply Reqb_t in W0. destruct (Rltb q (g_m G * g_Qc G)) eqn:Q; [|discriminate]. apply Rltb_t in Q. injection H as <-. split; [lra|].
      assert (0 <= g_alpha G * (q - g_Qc G)) by (apply Rmult_le_pos; lra). set (a := g_alpha G * (q - g_Qc G)) in *. split; [nra|intros; apply Rmult_le_pos; lra].
    + apply Reqb_f in W0. assert (WP : 0 < g_W G) by lra. destruct (Rltb ((q - g_m G * g_Qc G) / g_W G) 10) eqn:Q; [|discriminate]. apply Rltb_t in Q. injection H as <-. split.
      * apply (Rmult_lt_compat_r (g_W G)) in Q; [|exact WP]. unfold Rdiv in Q. rewrite Rmult_assoc, Rinv_l in Q by lra. lra.
      * set (t := tanh _). pose proof (tanh_bounds ((q - g_m G * g_Qc G) / g_W G)) as TB. fold t in TB. clearbody t.
        assert (0 <= g_alpha G * (q - g_Qc G)) by (apply Rmult_le_pos; lra). set (a := g_alpha G * (q - g_Qc G)) in *. clearbody a.
        assert (K : / 2 * (1 - t) * (1 - a) <= 1). { destruct (Rle_lt_dec a 1); nra. }
        split; [|intros; apply Rmult_le_pos; [apply Rmult_le_pos; lra|lra]].
        rewrite <- (Rmult_1_l (g_R0 G)) at 2. apply Rmult_le_compat_r; lra.
Qed.
(* the default parameters with a coating of m = 10 *)
Definition m10 : guide := mkG (5 / 100) (5 / 100) (5 / 100) (5 / 100) 1 (99 / 100) (219 / 10000) (607 / 100) 10 (3 / 1000) None.
Lemma negative_reflectivity : guide_init m10 = Ok m10 /\ exists f, reflectivity m10 (2 / 10) = Some f /\ f < 0.
Proof.
  split.
  - unfold guide_init. cbn [g_table m10 g_W g_R0 g_Qc g_m]. assert (E1 : Rltb (3 / 1000) 0 = false) by (apply Rltb_f; lra). assert (E2 : Rltb (99 / 100) 0 = false) by (apply Rltb_f; lra).
    assert (E3 : Rltb (219 / 10000) 0 = false) by (apply Rltb_f; lra). assert (E4 : Rltb 10 0 = false) by (apply Rltb_f; lra). rewrite E1, E2, E3, E4. reflexivity.
  - unfold reflectivity. cbn [g_table m10 g_W g_R0 g_Qc g_m g_alpha]. assert (E1 : Reqb 10 0 = false) by (apply Reqb_f; lra).
    assert (E2 : Rltb (219 / 10000) (2 / 10) = true) by (apply Rltb_t; lra). assert (E3 : Reqb (3 / 1000) 0 = false) by (apply Reqb_f; lra).
    assert (E4 : Rltb ((2 / 10 - 10 * (219 / 10000)) / (3 / 1000)) 10 = true) by (apply Rltb_t; lra). rewrite E1, E2, E3, E4. eexists. split; [reflexivity|].
    set (t := tanh _). assert (t < 1) by apply tanh_bounds. clearbody t. nra.
Qed.

(* a neutron along the entrance plane, between the mirrors: a loop without end *)
Definition box : guide := mkG 2 2 2 2 1 1 1 0 1 1 None.
Definition bouncing (r : ray) : Prop := exists p t, r = mkRay (mkV 1 0 0) (mkV (-1) 0 0) t 0 0 p \/ r = mkRay (mkV (-1) 0 0) (mkV 1 0 0) t 0 0 p.
Lemma box_reflects q : q <= 1 -> reflectivity box q = Some (1 * 1).
Proof.
  intros Q. unfold reflectivity. cbn [box g_table g_m g_Qc g_R0]. assert (E1 : Reqb 1 0 = false) by (apply Reqb_f; lra). assert (E2 : Rltb 1 q = false) by (apply Rltb_f; lra).
  rewrite E1, E2. reflexivity.
Qed.
Lemma left_dir p t x : first_hit box (mkRay (mkV x 0 0) (mkV (-1) 0 0) t 0 0 p) = Some (1 + x, MLeft).
Proof.
  unfold first_hit. cbn [r_vel r_pos vx vy vz box g_l]. rewrite (proj2 (Reqb_t 0 0) eq_refl). assert (Z : Rltb 0 1 = true) by (apply Rltb_t; lra). rewrite Z.
  cbn [fold_left]. unfold attempt, vdotn, cdotn, ww, hh, whalf, hhalf. cbn [box g_l g_w1 g_w2 g_h1 g_h2 r_vel r_pos vx vy vz fst].
  match goal with |- context [Rltb ?a 0] => assert (E1 : Rltb a 0 = true) by (apply Rltb_t; lra); rewrite E1; clear E1 end. cbn [below fst].
  repeat match goal with |- context [Rltb ?a 0] => let E := fresh in assert (E : Rltb a 0 = false) by (apply Rltb_f; lra); rewrite E; clear E end.
  cbn. f_equal. f_equal. field.
Qed.
Lemma right_dir p t x : first_hit box (mkRay (mkV x 0 0) (mkV 1 0 0) t 0 0 p) = Some (1 - x, MRight).
Proof.
  unfold first_hit. cbn [r_vel r_pos vx vy vz box g_l]. rewrite (proj2 (Reqb_t 0 0) eq_refl). assert (Z : Rltb 0 1 = true) by (apply Rltb_t; lra). rewrite Z.
  cbn [fold_left]. unfold attempt, vdotn, cdotn, ww, hh, whalf, hhalf. cbn [box g_l g_w1 g_w2 g_h1 g_h2 r_vel r_pos vx vy vz fst].
  match goal with |- context [Rltb ?a 0] => assert (E1 : Rltb a 0 = false) by (apply Rltb_f; lra); rewrite E1; clear E1 end.
  match goal with |- context [Rltb ?a 0] => assert (E1 : Rltb a 0 = true) by (apply Rltb_t; lra); rewrite E1; clear E1 end. cbn [below fst].
  repeat match goal with |- context [Rltb ?a 0] => let E := fresh in assert (E : Rltb a 0 = false) by (apply Rltb_f; lra); rewrite E; clear E end.
  cbn. f_equal. f_equal. field.
Qed.
Lemma box_turn fuel : (forall p t x, -1 <= x <= 1 -> exists p' t', guide_loop (S fuel) None box (mkRay (mkV x 0 0) (mkV (-1) 0 0) t 0 0 p) = guide_loop fuel None box (mkRay (mkV (-1) 0 0) (mkV 1 0 0) t' 0 0 p')) /\
  (forall p t x, -1 <= x <= 1 -> exists p' t', guide_loop (S fuel) None box (mkRay (mkV x 0 0) (mkV 1 0 0) t 0 0 p) = guide_loop fuel None box (mkRay (mkV 1 0 0) (mkV (-1) 0 0) t' 0 0 p')).
Proof.
  split; intros p t x X.
  - exists (p * (1 * 1)), (t + (1 + x)). cbn [guide_loop]. rewrite left_dir. rewrite dt_moved by lra.
    unfold reflect, vdotn, moved, prop_dt_nogravity, with_v, ww. cbn [box g_l g_w1 g_w2 r_vel r_pos r_t r_s1 r_s2 r_p vx vy vz].
    replace (1 * 1 + / 2 * (2 - 2) * (/ 2 * (2 - 2))) with 1 by field. rewrite sqrt_1. rewrite box_reflects; [|unfold V2Q; lra]. cbn [with_p r_pos r_vel r_t r_s1 r_s2 r_p].
    apply (f_equal (guide_loop fuel None box)). unfold with_p; cbn [r_pos r_vel r_t r_s1 r_s2]; f_equal; try reflexivity; f_equal; field.
  - exists (p * (1 * 1)), (t + (1 - x)). cbn [guide_loop]. rewrite right_dir. rewrite dt_moved by lra.
    unfold reflect, vdotn, moved, prop_dt_nogravity, with_v, ww. cbn [box g_l g_w1 g_w2 r_vel r_pos r_t r_s1 r_s2 r_p vx vy vz].
    replace (1 * 1 + / 2 * (2 - 2) * (/ 2 * (2 - 2))) with 1 by field. rewrite sqrt_1. rewrite box_reflects; [|unfold V2Q; lra]. cbn [with_p r_pos r_vel r_t r_s1 r_s2 r_p].
    apply (f_equal (guide_loop fuel None box)). unfold with_p; cbn [r_pos r_vel r_t r_s1 r_s2]; f_equal; try reflexivity; f_equal; field.
Qed.
Lemma box_forever fuel : (forall p t x, -1 <= x <= 1 -> guide_loop fuel None box (mkRay (mkV x 0 0) (mkV (-1) 0 0) t 0 0 p) = Err OutOfFuel) /\
  (forall p t x, -1 <= x <= 1 -> guide_loop fuel None box (mkRay (mkV x 0 0) (mkV 1 0 0) t 0 0 p) = Err OutOfFuel).
Proof.
  induction fuel as [|fuel [IH1 IH2]]; [split; reflexivity|]. destruct (box_turn fuel) as [T1 T2]. split; intros p t x X.
  - destruct (T1 p t x X) as (p' & t' & ->). apply IH2. lra.
  - destruct (T2 p t x X) as (p' & t' & ->). apply IH1. lra.
Qed.
Lemma hangs : guide_init box = Ok box /\ exists r, forall fuel, guide_trace fuel None box r = Err OutOfFuel.
Proof.
  split.
  - unfold guide_init. cbn [g_table box g_W g_R0 g_Qc g_m]. assert (E : Rltb 1 0 = false) by (apply Rltb_f; lra). rewrite E. reflexivity.
  - exists (mkRay (mkV 0 0 0) (mkV 1 0 0) 0 0 0 1). intros fuel. unfold guide_trace. cbn [prop_z0]. unfold prop_z0_nogravity. cbn [r_vel vz].
    rewrite (proj2 (Reqb_t 0 0) eq_refl). unfold absorb. cbn [r_pos r_vel r_t r_s1 r_s2 r_p vx vy vz]. unfold whalf, hhalf. cbn [box g_w1 g_h1].
    assert (E1 : Rleb 0 (- (/ 2 * 2)) = false) by (apply Rleb_false; lra). assert (E2 : Rleb (/ 2 * 2) 0 = false) by (apply Rleb_false; lra). rewrite E1, E2. cbn [orb].
    apply box_forever. lra.
Qed.
(* backward neutrons *)
Lemma backward_passes G r : 0 < g_l G -> vz (r_vel r) < 0 -> 
  let q := prop_z0 None r in Rabs (vx (r_pos q)) < g_w1 G / 2 -> Rabs (vy (r_pos q)) < g_h1 G / 2 -> forall fuel, guide_trace (S fuel) None G r = Ok q.
Proof.
  intros L P q A B fuel. assert (N : vz (r_vel r) <> 0) by lra. destruct (entrance_free G r N L) as [IN _]. fold q in IN. destruct (IN (conj A B)) as (I & Z & E). rewrite E.
  assert (V : r_vel q = r_vel r) by (unfold q; cbn; unfold prop_z0_nogravity; rewrite (proj2 (Reqb_f _ _) N); reflexivity).
  cbn [guide_loop]. destruct (first_hit G q) as [[t k]|] eqn:F; [|reflexivity]. destruct (hit_some G L q t k I ltac:(lra) F) as (X & _). rewrite V in X. lra.
Qed.
