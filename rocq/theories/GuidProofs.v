(** Proofs about the guide: one reflection and the whole way. *)
From Coq Require Import Reals List Lra Lia.
From Verif Require Import Base RotModel ChanModel ShapeModel ChanProofs GridProofs OptModel OptSpec OptProofs GuidModel GuidSpec.
Import ListNotations.
Open Scope R_scope.

Section Guide.
Variable G : guide.
Hypothesis long : 0 < g_l G.

(* times the length, the distance to a mirror in x or y *)
Definition room (k : mirror) (r : ray) : R := - cdotn G k r.
Definition moved (r : ray) (s : R) : ray := prop_dt_nogravity s r.
Lemma room_moved k r s : room k (moved r s) = room k r + s * vdotn G k r.
Proof. unfold room, cdotn, vdotn, moved, prop_dt_nogravity. destruct k; cbn [r_pos r_vel vx vy vz]; ring. Qed.
Lemma room_width r : 0 <= room MLeft r /\ 0 <= room MRight r <-> Rabs (vx (r_pos r)) <= half_width G (vz (r_pos r)).
Proof.
  assert (E1 : room MLeft r = g_l G * (half_width G (vz (r_pos r)) + vx (r_pos r))) by (unfold room, cdotn, half_width, whalf, ww; field; lra).
  assert (E2 : room MRight r = g_l G * (half_width G (vz (r_pos r)) - vx (r_pos r))) by (unfold room, cdotn, half_width, whalf, ww; field; lra).
  rewrite E1, E2. set (h := half_width G (vz (r_pos r))). set (x := vx (r_pos r)). clearbody h x. split.
  - intros [A B]. assert (0 <= h + x) by (apply (Rmult_le_reg_l (g_l G)); lra). assert (0 <= h - x) by (apply (Rmult_le_reg_l (g_l G)); lra).
    apply Rabs_le. lra.
  - intros H. assert (- h <= x <= h) by (revert H; unfold Rabs; destruct (Rcase_abs x); lra). split; apply Rmult_le_pos; lra.
Qed.
Lemma room_height r : 0 <= room MLower r /\ 0 <= room MUpper r <-> Rabs (vy (r_pos r)) <= half_height G (vz (r_pos r)).
Proof.
  assert (E1 : room MLower r = g_l G * (half_height G (vz (r_pos r)) + vy (r_pos r))) by (unfold room, cdotn, half_height, hhalf, hh; field; lra).
  assert (E2 : room MUpper r = g_l G * (half_height G (vz (r_pos r)) - vy (r_pos r))) by (unfold room, cdotn, half_height, hhalf, hh; field; lra).
  rewrite E1, E2. set (h := half_height G (vz (r_pos r))). set (x := vy (r_pos r)). clearbody h x. split.
  - intros [A B]. assert (0 <= h + x) by (apply (Rmult_le_reg_l (g_l G)); lra). assert (0 <= h - x) by (apply (Rmult_le_reg_l (g_l G)); lra).
    apply Rabs_le. lra.
  - intros H. assert (- h <= x <= h) by (revert H; unfold Rabs; destruct (Rcase_abs x); lra). split; apply Rmult_le_pos; lra.
Qed.
Definition inside (r : ray) : Prop := within G (vx (r_pos r)) (vy (r_pos r)) (vz (r_pos r)).
Lemma inside_room r : inside r <-> forall k, 0 <= room k r.
Proof.
  unfold inside, within. rewrite <- room_width, <- room_height. split; [intros [[A B] [C D]] []; assumption|intros H; repeat split; apply H].
Qed.
Lemma place_room r s : place_within G r s <-> forall k, 0 <= room k r + s * vdotn G k r.
Proof.
  transitivity (inside (moved r s)); [reflexivity|]. rewrite inside_room. split; intros H k; specialize (H k); rewrite room_moved in *; exact H.
Qed.
Lemma mirror_room k r : room k r = 0 -> on_mirror G k (vx (r_pos r)) (vy (r_pos r)) (vz (r_pos r)).
Proof.
  intros H. destruct k; cbn.
  - assert (E : room MLeft r = g_l G * (half_width G (vz (r_pos r)) + vx (r_pos r))) by (unfold room, cdotn, half_width, whalf, ww; field; lra).
    rewrite E in H. apply Rmult_integral in H. lra.
  - assert (E : room MRight r = g_l G * (half_width G (vz (r_pos r)) - vx (r_pos r))) by (unfold room, cdotn, half_width, whalf, ww; field; lra).
    rewrite E in H. apply Rmult_integral in H. lra.
  - assert (E : room MLower r = g_l G * (half_height G (vz (r_pos r)) + vy (r_pos r))) by (unfold room, cdotn, half_height, hhalf, hh; field; lra).
    rewrite E in H. apply Rmult_integral in H. lra.
  - assert (E : room MUpper r = g_l G * (half_height G (vz (r_pos r)) - vy (r_pos r))) by (unfold room, cdotn, half_height, hhalf, hh; field; lra).
    rewrite E in H. apply Rmult_integral in H. lra.
Qed.

(* the search *)
Definition time (k : mirror) (r : ray) : R := cdotn G k r / vdotn G k r.
Lemma search_spec r ks : forall t1 i t' i', fold_left (attempt G r) ks (t1, i) = (t', i') ->
  (forall k, In k ks -> vdotn G k r < 0 -> below (time k r) t' = false) /\
  (forall a, below a t' = true -> below a t1 = true) /\
  ((t' = t1 /\ i' = i) \/ exists k, i' = Some k /\ t' = Some (time k r) /\ vdotn G k r < 0 /\ below (time k r) t1 = true).
Proof.
  induction ks as [|k ks IH]; intros t1 i t' i' H; cbn [fold_left] in H.
  - injection H as <- <-. split; [contradiction|]. split; [auto|]. left. auto.
  - unfold attempt at 2 in H. fold (time k r) in H. cbn [fst] in H. destruct (Rltb (vdotn G k r) 0) eqn:V.
    + apply Rltb_t in V. cbv zeta in H. destruct (below (time k r) t1) eqn:B.
      * destruct (IH _ _ _ _ H) as (A1 & A2 & A3). split; [|split].
        -- intros j [<-|I] Vj; [|apply A1; assumption]. destruct (below (time k r) t') eqn:X; [|reflexivity]. apply A2 in X. cbn in X. apply Rltb_t in X. lra.
        -- intros a X. apply A2 in X. cbn in X. apply Rltb_t in X. destruct t1 as [u|]; [|reflexivity]. cbn in *. apply Rltb_t in B. apply Rltb_t. lra.
        -- right. destruct A3 as [[-> ->]|(j & -> & -> & Vj & Bj)]; [exists k; auto|]. exists j. repeat split; try assumption. cbn in Bj. apply Rltb_t in Bj.
           destruct t1 as [u|]; [|reflexivity]. cbn in *. apply Rltb_t in B. apply Rltb_t. lra.
      * destruct (IH _ _ _ _ H) as (A1 & A2 & A3). split; [|split; assumption].
        intros j [<-|I] Vj; [|apply A1; assumption]. destruct (below (time k r) t') eqn:X; [|reflexivity]. apply A2 in X. congruence.
    + apply Rltb_f in V. destruct (IH _ _ _ _ H) as (A1 & A2 & A3). split; [|split; assumption].
      intros j [<-|I] Vj; [lra|apply A1; assumption].
Qed.
Lemma all_mirrors k : In k [MLeft; MRight; MLower; MUpper]. Proof. destruct k; cbn; auto. Qed.

Lemma time_nonneg k r : inside r -> vdotn G k r < 0 -> 0 <= time k r.
Proof.
  intros I V. pose proof (proj1 (inside_room r) I k) as D. unfold room in D. unfold time. 
  replace (cdotn G k r / vdotn G k r) with ((- cdotn G k r) * / - vdotn G k r) by (field; lra). apply Rmult_le_pos; [lra|]. apply Rlt_le, Rinv_0_lt_compat. lra.
Qed.
(* up to the time of the first mirror the neutron is within *)
Lemma within_until r t : inside r -> (forall k, vdotn G k r < 0 -> t <= time k r) -> forall u, 0 <= u <= t -> place_within G r u.
Proof.
  intros I H u U. apply place_room. intros k. pose proof (proj1 (inside_room r) I k) as D. destruct (Rlt_le_dec (vdotn G k r) 0) as [V|V].
  - specialize (H k V). assert (E : room k r + time k r * vdotn G k r = 0) by (unfold room, time; field; lra). nra.
  - assert (0 <= u * vdotn G k r) by (apply Rmult_le_pos; lra). lra.
Qed.
Lemma hit_none r : inside r -> vz (r_pos r) < g_l G -> first_hit G r = None -> vz (r_vel r) < 0 \/ (0 <= vz (r_vel r) /\ free G r).
Proof.
  intros I Z H. unfold first_hit in H. destruct (Reqb (vz (r_vel r)) 0) eqn:E.
  - apply Reqb_t in E. apply Rltb_t in Z. rewrite Z in H. destruct (fold_left _ _ _) as [t' i'] eqn:F. destruct (search_spec r _ _ _ _ _ F) as (A1 & A2 & A3).
    destruct A3 as [[-> ->]|(k & -> & -> & _)]; [|discriminate]. right. split; [lra|]. intros u U _.
    apply (within_until r u I); [|lra]. intros k V. specialize (A1 k (all_mirrors k) V). discriminate.
  - apply Reqb_f in E. destruct (fold_left _ _ _) as [t' i'] eqn:F. destruct (search_spec r _ _ _ _ _ F) as (A1 & A2 & A3).
    destruct A3 as [[-> ->]|(k & -> & -> & _)]; [|discriminate]. destruct (Rlt_le_dec (vz (r_vel r)) 0) as [|P]; [left; assumption|]. right. split; [exact P|].
    assert (P' : 0 < vz (r_vel r)) by lra. intros u U L. apply (within_until r ((g_l G - vz (r_pos r)) / vz (r_vel r)) I).
    + intros k V. specialize (A1 k (all_mirrors k) V). cbn in A1. apply Rltb_f in A1. exact A1.
    + split; [exact U|]. apply (Rmult_le_reg_r (vz (r_vel r))); [exact P'|]. unfold Rdiv. rewrite Rmult_assoc, Rinv_l by lra. lra.
Qed.
Lemma hit_some r t k : inside r -> vz (r_pos r) < g_l G -> first_hit G r = Some (t, k) ->
  0 <= vz (r_vel r) /\ vdotn G k r < 0 /\ 0 <= t /\ t = time k r /\ vz (r_pos r) + vz (r_vel r) * t < g_l G /\ forall j, vdotn G j r < 0 -> t <= time j r.
Proof.
  intros I Z H. unfold first_hit in H. destruct (Reqb (vz (r_vel r)) 0) eqn:E.
  - apply Reqb_t in E. pose proof Z as Z0. apply Rltb_t in Z. rewrite Z in H. destruct (fold_left _ _ _) as [t' i'] eqn:F. destruct (search_spec r _ _ _ _ _ F) as (A1 & A2 & A3).
    destruct A3 as [[-> ->]|(k' & -> & -> & V & B)]; [discriminate|]. injection H as <- <-. split; [lra|]. split; [exact V|]. split; [apply time_nonneg; assumption|]. split; [reflexivity|].
    split; [rewrite E; lra|]. intros j Vj. specialize (A1 j (all_mirrors j) Vj). cbn in A1. apply Rltb_f in A1. exact A1.
  - apply Reqb_f in E. destruct (fold_left _ _ _) as [t' i'] eqn:F. destruct (search_spec r _ _ _ _ _ F) as (A1 & A2 & A3).
    destruct A3 as [[-> ->]|(k' & -> & -> & V & B)]; [discriminate|]. injection H as <- <-. pose proof (time_nonneg k' r I V) as T. cbn in B. apply Rltb_t in B.
    assert (P : 0 < vz (r_vel r)).
    { destruct (Rlt_le_dec (vz (r_vel r)) 0) as [N|]; [exfalso|lra]. assert (0 < (g_l G - vz (r_pos r)) * / - vz (r_vel r)) by (apply Rmult_lt_0_compat; [lra|apply Rinv_0_lt_compat; lra]).
      replace ((g_l G - vz (r_pos r)) / vz (r_vel r)) with (- ((g_l G - vz (r_pos r)) * / - vz (r_vel r))) in B by (field; lra). lra. }
    split; [lra|]. split; [exact V|]. split; [exact T|]. split; [reflexivity|]. split.
    + apply (Rmult_lt_compat_r (vz (r_vel r))) in B; [|exact P]. unfold Rdiv in B. rewrite Rmult_assoc, Rinv_l in B by lra. lra.
    + intros j Vj. specialize (A1 j (all_mirrors j) Vj). cbn in A1. apply Rltb_f in A1. exact A1.
Qed.

(* a reflection *)
Lemma sqrt_quot a n : 0 < n -> a < 0 -> sqrt ((2 * a / n) * (2 * a / n) * n) = -2 * a / sqrt n.
Proof.
  intros N A. pose proof (sqrt_lt_R0 n N) as S. assert (SS : sqrt n * sqrt n = n) by (apply sqrt_def; lra).
  replace ((2 * a / n) * (2 * a / n) * n) with ((-2 * a / sqrt n) * (-2 * a / sqrt n)).
  - apply sqrt_square. apply Rlt_le, Rmult_lt_0_compat; [lra|apply Rinv_0_lt_compat, S].
  - set (s := sqrt n) in *. clearbody s. subst n. field. lra.
Qed.
Lemma reflect_spec k r q r' : vdotn G k r < 0 -> reflect G k (vdotn G k r) r = (q, r') ->
  mirrored G k (r_vel r) (r_vel r') /\ vdotn G k r' = - vdotn G k r /\
  q = 158801 / 100000000 * sqrt (dot (change (r_vel r) (r_vel r')) (change (r_vel r) (r_vel r'))) /\
  r_pos r' = r_pos r /\ r_t r' = r_t r /\ r_s1 r' = r_s1 r /\ r_s2 r' = r_s2 r /\ r_p r' = r_p r.
Proof.
  intros V H. set (a := vdotn G k r) in *.
  assert (NW : 0 < g_l G * g_l G + ww G * ww G) by nra. assert (NH : 0 < g_l G * g_l G + hh G * hh G) by nra.
  destruct k; cbn [reflect] in H; injection H as <- <-; cbn [r_vel r_pos r_t r_s1 r_s2 r_p with_v].
  - set (n := g_l G * g_l G + ww G * ww G) in *. assert (EA : a = ww G * vz (r_vel r) + g_l G * vx (r_vel r)) by reflexivity. clearbody a.
    split; [|split; [|split; [|auto 10]]].
    + split; [|split; [|split]].
      * intros Q. apply (f_equal vx) in Q. cbn in Q. assert (2 * a / n * g_l G < 0); [|lra].
        assert (2 * a / n < 0) by (apply (Rmult_lt_reg_r n); [exact NW|]; unfold Rdiv; rewrite Rmult_assoc, Rinv_l by lra; lra). nra.
      * unfold dot, change, along. cbn. unfold ww. field. lra.
      * unfold dot, change, across. cbn. ring.
      * unfold dot. cbn [vx vy vz]. transitivity (dot (r_vel r) (r_vel r) + 4 * (a * a) / n - 4 * a / n * (ww G * vz (r_vel r) + g_l G * vx (r_vel r))); [|rewrite <- EA; unfold dot; field; lra].
        unfold dot, n. field. fold n. lra.
    + unfold vdotn. cbn [with_v r_vel vx vz]. transitivity (ww G * vz (r_vel r) + g_l G * vx (r_vel r) - 2 * a); [unfold n; field; fold n; lra|rewrite <- EA; ring].
    + unfold dot, change. cbn [vx vy vz]. rewrite <- (Rmult_1_r (_ / sqrt n)). unfold V2Q.
      match goal with |- _ = _ * sqrt ?u => replace u with ((2 * a / n) * (2 * a / n) * n) by (unfold n; field; fold n; lra) end. rewrite (sqrt_quot a n NW V). field. pose proof (sqrt_lt_R0 n NW). lra.
  - set (n := g_l G * g_l G + ww G * ww G) in *. assert (EA : a = ww G * vz (r_vel r) - g_l G * vx (r_vel r)) by reflexivity. clearbody a.
    split; [|split; [|split; [|auto 10]]].
    + split; [|split; [|split]].
      * intros Q. apply (f_equal vx) in Q. cbn in Q. assert (2 * a / n * g_l G < 0); [|lra].
        assert (2 * a / n < 0) by (apply (Rmult_lt_reg_r n); [exact NW|]; unfold Rdiv; rewrite Rmult_assoc, Rinv_l by lra; lra). nra.
      * unfold dot, change, along. cbn. unfold ww. field. lra.
      * unfold dot, change, across. cbn. ring.
      * unfold dot. cbn [vx vy vz]. transitivity (dot (r_vel r) (r_vel r) + 4 * (a * a) / n - 4 * a / n * (ww G * vz (r_vel r) - g_l G * vx (r_vel r))); [|rewrite <- EA; unfold dot; field; lra].
        unfold dot, n. field. fold n. lra.
    + unfold vdotn. cbn [with_v r_vel vx vz]. transitivity (ww G * vz (r_vel r) - g_l G * vx (r_vel r) - 2 * a); [unfold n; field; fold n; lra|rewrite <- EA; ring].
    + unfold dot, change. cbn [vx vy vz]. unfold V2Q.
      match goal with |- _ = _ * sqrt ?u => replace u with ((2 * a / n) * (2 * a / n) * n) by (unfold n; field; fold n; lra) end. rewrite (sqrt_quot a n NW V). field. pose proof (sqrt_lt_R0 n NW). lra.
  - set (n := g_l G * g_l G + hh G * hh G) in *. assert (EA : a = hh G * vz (r_vel r) + g_l G * vy (r_vel r)) by reflexivity. clearbody a.
    split; [|split; [|split; [|auto 10]]].
    + split; [|split; [|split]].
      * intros Q. apply (f_equal vy) in Q. cbn in Q. assert (2 * a / n * g_l G < 0); [|lra].
        assert (2 * a / n < 0) by (apply (Rmult_lt_reg_r n); [exact NH|]; unfold Rdiv; rewrite Rmult_assoc, Rinv_l by lra; lra). nra.
      * unfold dot, change, along. cbn. unfold hh. field. lra.
      * unfold dot, change, across. cbn. ring.
      * unfold dot. cbn [vx vy vz]. transitivity (dot (r_vel r) (r_vel r) + 4 * (a * a) / n - 4 * a / n * (hh G * vz (r_vel r) + g_l G * vy (r_vel r))); [|rewrite <- EA; unfold dot; field; lra].
        unfold dot, n. field. fold n. lra.
    + unfold vdotn. cbn [with_v r_vel vy vz]. transitivity (hh G * vz (r_vel r) + g_l G * vy (r_vel r) - 2 * a); [unfold n; field; fold n; lra|rewrite <- EA; ring].
    + unfold dot, change. cbn [vx vy vz]. unfold V2Q.
      match goal with |- _ = _ * sqrt ?u => replace u with ((2 * a / n) * (2 * a / n) * n) by (unfold n; field; fold n; lra) end. rewrite (sqrt_quot a n NH V). field. pose proof (sqrt_lt_R0 n NH). lra.
  - set (n := g_l G * g_l G + hh G * hh G) in *. assert (EA : a = hh G * vz (r_vel r) - g_l G * vy (r_vel r)) by reflexivity. clearbody a.
    split; [|split; [|split; [|auto 10]]].
    + split; [|split; [|split]].
      * intros Q. apply (f_equal vy) in Q. cbn in Q. assert (2 * a / n * g_l G < 0); [|lra].
        assert (2 * a / n < 0) by (apply (Rmult_lt_reg_r n); [exact NH|]; unfold Rdiv; rewrite Rmult_assoc, Rinv_l by lra; lra). nra.
      * unfold dot, change, along. cbn. unfold hh. field. lra.
      * unfold dot, change, across. cbn. ring.
      * unfold dot. cbn [vx vy vz]. transitivity (dot (r_vel r) (r_vel r) + 4 * (a * a) / n - 4 * a / n * (hh G * vz (r_vel r) - g_l G * vy (r_vel r))); [|rewrite <- EA; unfold dot; field; lra].
        unfold dot, n. field. fold n. lra.
    + unfold vdotn. cbn [with_v r_vel vy vz]. transitivity (hh G * vz (r_vel r) - g_l G * vy (r_vel r) - 2 * a); [unfold n; field; fold n; lra|rewrite <- EA; ring].
    + unfold dot, change. cbn [vx vy vz]. unfold V2Q.
      match goal with |- _ = _ * sqrt ?u => replace u with ((2 * a / n) * (2 * a / n) * n) by (unfold n; field; fold n; lra) end. rewrite (sqrt_quot a n NH V). field. pose proof (sqrt_lt_R0 n NH). lra.
Qed.

(* one turn of the loop *)
Lemma dt_moved t r : 0 <= t -> prop_dt t None r = moved r t.
Proof.
  intros T. unfold prop_dt. assert (X : - / 10 ^ 15 <= t). { assert (0 < / 10 ^ 15) by (apply Rinv_0_lt_compat, pow_lt; lra). lra. }
  apply Rltb_f in X. rewrite X. reflexivity.
Qed.
Lemma turn_spec r t k q r2 : inside r -> vz (r_pos r) < g_l G -> first_hit G r = Some (t, k) -> reflect G k (vdotn G k r) (prop_dt t None r) = (q, r2) ->
  0 <= vz (r_vel r) /\ bounce G r q r2 /\ inside r2 /\ vz (r_pos r2) < g_l G.
Proof.
  intros I Z H R. destruct (hit_some r t k I Z H) as (P & V & T & ET & ZL & M). rewrite (dt_moved t r T) in R.
  change (vdotn G k r) with (vdotn G k (moved r t)) in R, V. destruct (reflect_spec k (moved r t) q r2 V R) as (MI & _ & Q & EP & E1 & E2 & E3 & E4).
  assert (W := within_until r t I M). split; [exact P|]. split; [|split].
  - exists t, k, (moved r t). split; [exact T|]. split; [exact ZL|]. split; [exact W|]. split; [apply dt_flown|]. split; [|auto 10].
    apply mirror_room. rewrite room_moved. change (vdotn G k (moved r t)) with (vdotn G k r) in V. rewrite ET. unfold room, time. field. lra.
  - unfold inside. rewrite EP. apply (W t). lra.
  - rewrite EP. exact ZL.
Qed.
Lemma loop_journey fuel : forall r r', inside r -> vz (r_pos r) < g_l G -> guide_loop fuel None G r = Ok r' -> journey G r r'.
Proof.
  induction fuel as [|fuel IH]; intros r r' I Z H; cbn [guide_loop] in H; [discriminate|]. destruct (first_hit G r) as [[t k]|] eqn:F.
  - destruct (reflect G k (vdotn G k r) (prop_dt t None r)) as [q r2] eqn:R. destruct (turn_spec r t k q r2 I Z F R) as (P & B & I2 & Z2).
    destruct (reflectivity G q) as [f|] eqn:W.
    + eapply j_bounce; [exact P|exact B|exact W|]. apply IH; [exact I2|exact Z2|exact H].
    + injection H as <-. eapply j_lost; eassumption.
  - injection H as <-. destruct (hit_none r I Z F) as [N|[P Fr]]; [apply j_back, N|apply j_free; assumption].
Qed.
Lemma loop_more fuel : forall fuel' r r', (fuel <= fuel')%nat -> guide_loop fuel None G r = Ok r' -> guide_loop fuel' None G r = Ok r'.
Proof.
  induction fuel as [|fuel IH]; intros fuel' r r' L H; [discriminate|]. destruct fuel' as [|fuel']; [lia|]. cbn [guide_loop] in *.
  destruct (first_hit G r) as [[t k]|]; [|exact H]. destruct (reflect _ _ _ _) as [q r2]. destruct (reflectivity G q); [|exact H]. apply IH; [lia|exact H].
Qed.
Lemma bounce_speed r q r2 : bounce G r q r2 -> dot (r_vel r2) (r_vel r2) = dot (r_vel r) (r_vel r).
Proof.
  intros (s & k & r1 & _ & _ & _ & F & _ & (_ & _ & _ & E) & _). rewrite E. destruct F as (_ & _ & _ & E1 & E2 & E3 & _). unfold dot. rewrite E1, E2, E3. cbn. ring.
Qed.
Lemma journey_speed r r' : journey G r r' -> dot (r_vel r') (r_vel r') = dot (r_vel r) (r_vel r).
Proof. induction 1; [reflexivity|reflexivity|cbn [r_vel]; eapply bounce_speed; eassumption|]. cbn [r_vel] in IHjourney. rewrite IHjourney. eapply bounce_speed; eassumption. Qed.
End Guide.
