From Coq Require Import Reals List ZArith Lia Lra Bool Psatz.
From Verif Require Import Base RotModel ShapeModel ShapeProofs ShapeProofs2 ChanModel ChanProofs TabModel TabSpec TabProofs TabProofs2.
Import ListNotations.
Local Open Scope R_scope.

Lemma one_minus_tanh x : 1 - tanh x = 2 / (exp x * exp x + 1).
Proof.
  unfold tanh, sinh, cosh. rewrite exp_Ropp. pose proof (exp_pos x). field. split; nra.
Qed.
Lemma tanh_pos x : 0 < 1 - tanh x.
Proof. rewrite one_minus_tanh. pose proof (exp_pos x). apply Rdiv_lt_0_compat; nra. Qed.
Lemma tanh_le2 x : 1 - tanh x <= 2.
Proof.
  rewrite one_minus_tanh. pose proof (exp_pos x). apply Rmult_le_reg_r with (exp x * exp x + 1); [nra|].
  unfold Rdiv. rewrite Rmult_assoc, Rinv_l by nra. nra.
Qed.
Lemma tanh_mono x y : x <= y -> 1 - tanh y <= 1 - tanh x.
Proof.
  intros H. rewrite !one_minus_tanh. pose proof (exp_pos x). pose proof (exp_pos y).
  assert (exp x <= exp y) by (destruct H as [H|H]; [left; now apply exp_increasing|rewrite H; lra]).
  unfold Rdiv. apply Rmult_le_compat_l; [lra|]. apply Rinv_le_contravar; nra.
Qed.
Lemma tanh_0' : tanh 0 = 0.
Proof. unfold tanh. rewrite sinh_0. field. rewrite cosh_0. lra. Qed.

Lemma le_f a b : b < a -> Rleb a b = false.
Proof. intros H. destruct (Rleb a b) eqn:E; auto. apply Rleb_true in E. lra. Qed.
Lemma le_t a b : a <= b -> Rleb a b = true.
Proof. apply Rleb_true. Qed.

Lemma crit_if p : 0 < m_value p -> (if Rltb (m_value p) 1 then Qc p * m_value p else Qc p) = critical p.
Proof.
  intros H. unfold critical. destruct (Rltb (m_value p) 1) eqn:E; [apply Rltb_t in E|apply Rltb_f in E].
  - now rewrite Rmin_right by lra.
  - rewrite Rmin_left by lra. ring.
Qed.

Lemma plain p : W p <> 0 \/ alpha p <> 0 -> Reqb (W p) 0 && Reqb (alpha p) 0 = false.
Proof. intros [H|H]; [rewrite (eq_f (W p))|rewrite (eq_f (alpha p)), andb_false_r]; auto. Qed.

Lemma std_cases p q : reflecting p ->
  (Rabs q <= critical p -> StdReflecFunc q p = R0 p)
  /\ (critical p < Rabs q <= cutoff p ->
      StdReflecFunc q p = R0 p * (1 / 2) * (1 - tanh ((Rabs q - m_value p * Qc p) / W p)) * (1 - alpha p * (Rabs q - critical p)))
  /\ (cutoff p < Rabs q -> StdReflecFunc q p = 0).
Proof.
  intros (H0 & H1 & H2 & H3). unfold StdReflecFunc. cbv zeta. rewrite plain by (left; lra).
  rewrite (proj2 (Rltb_t 0 (W p)) H3). rewrite (le_f (m_value p)), (le_f (Qc p)), (le_f (R0 p)) by assumption.
  rewrite !orb_false_r. rewrite crit_if by assumption.
  assert (A : forall b, b <= cutoff p -> (b - m_value p * Qc p) / W p <= 10).
  { intros b Hb. unfold cutoff in Hb. apply Rmult_le_reg_r with (W p); [assumption|]. unfold Rdiv. rewrite Rmult_assoc, Rinv_l by lra. lra. }
  assert (B : critical p <= cutoff p).
  { unfold critical, cutoff. pose proof (Rmin_r 1 (m_value p)). nra. }
  split; [|split]; intros Hq.
  - rewrite (proj2 (Rltb_f 10 _)) by (apply A; lra). now rewrite le_t.
  - rewrite (proj2 (Rltb_f 10 _)) by (apply A; lra). rewrite le_f by lra. ring.
  - rewrite (proj2 (Rltb_t 10 _)); [reflexivity|].
    apply Rmult_lt_reg_r with (W p); [assumption|]. unfold Rdiv. rewrite Rmult_assoc, Rinv_l by lra. unfold cutoff in Hq. lra.
Qed.

Lemma std_even p q : StdReflecFunc (- q) p = StdReflecFunc q p.
Proof. unfold StdReflecFunc. now rewrite Rabs_Ropp. Qed.

Lemma prod_le a b c d : 0 <= a <= b -> 0 <= c <= d -> a * c <= b * d.
Proof. intros. apply Rmult_le_compat; lra. Qed.

Lemma std_range p q : reflecting p -> 0 <= alpha p -> alpha p * (cutoff p - critical p) <= 1 -> 0 <= StdReflecFunc q p <= R0 p.
Proof.
  intros P Ha Hc. destruct (std_cases p q P) as (A & B & C). destruct P as (H0 & H1 & H2 & H3).
  destruct (Rle_dec (Rabs q) (critical p)) as [L|L]; [rewrite A by assumption; lra|].
  destruct (Rle_dec (Rabs q) (cutoff p)) as [M|M]; [|rewrite C by lra; lra].
  rewrite B by lra. set (x := (Rabs q - _) / _). pose proof (tanh_pos x). pose proof (tanh_le2 x).
  set (e := 1 - tanh x) in *. set (f := 1 - alpha p * (Rabs q - critical p)).
  assert (0 <= f <= 1) by (unfold f; split; nra). clearbody e f.
  pose proof (Rmult_le_pos _ _ (Rmult_le_pos (R0 p) e ltac:(lra) ltac:(lra)) (proj1 H5)).
  split; [lra|]. assert (e * f <= 2) by nra. nra.
Qed.

Lemma std_mono p q1 q2 : reflecting p -> 0 <= alpha p -> alpha p * (cutoff p - critical p) <= 1 ->
  Rabs q1 <= Rabs q2 -> StdReflecFunc q2 p <= StdReflecFunc q1 p.
Proof.
  intros P Ha Hc Hq. pose proof (std_range p q1 P Ha Hc) as R1. pose proof (std_range p q2 P Ha Hc) as R2.
  destruct (std_cases p q1 P) as (A & B & C). destruct (std_cases p q2 P) as (A' & B' & C').
  destruct (Rle_dec (Rabs q1) (critical p)) as [L|L]; [rewrite (A L); lra|].
  destruct (Rle_dec (Rabs q2) (cutoff p)) as [M|M]; [|rewrite (C' ltac:(lra)); lra].
  rewrite B, B' by lra. destruct P as (H0 & H1 & H2 & H3).
  apply prod_le.
  - split.
    + apply Rmult_le_pos; [lra|]. left. apply tanh_pos.
    + apply Rmult_le_compat_l; [lra|]. apply tanh_mono. unfold Rdiv. apply Rmult_le_compat_r; [left; now apply Rinv_0_lt_compat|lra].
  - split; nra.
Qed.

Lemma std_negative p q : reflecting p -> 0 < alpha p -> critical p + 1 / alpha p < Rabs q <= cutoff p -> StdReflecFunc q p < 0.
Proof.
  intros P Ha [H1 H2]. destruct (std_cases p q P) as (_ & B & _).
  assert (I : 0 < 1 / alpha p) by (apply Rdiv_lt_0_compat; lra).
  rewrite B by lra. destruct P as (P0 & _). pose proof (tanh_pos ((Rabs q - m_value p * Qc p) / W p)).
  assert (1 - alpha p * (Rabs q - critical p) < 0).
  { assert (alpha p * (1 / alpha p) = 1) by (field; lra). nra. }
  assert (0 < R0 p * (1 / 2) * (1 - tanh ((Rabs q - m_value p * Qc p) / W p))) by (apply Rmult_lt_0_compat; lra). nra.
Qed.

Lemma std_half p : reflecting p -> 1 < m_value p ->
  StdReflecFunc (m_value p * Qc p) p = R0 p / 2 * (1 - alpha p * (m_value p - 1) * Qc p).
Proof.
  intros P Hm. destruct (std_cases p (m_value p * Qc p) P) as (_ & B & _). destruct P as (H0 & H1 & H2 & H3).
  assert (E : critical p = Qc p) by (unfold critical; rewrite Rmin_left by lra; ring).
  rewrite E in B. rewrite B; rewrite Rabs_right by nra.
  - replace ((m_value p * Qc p - m_value p * Qc p) / W p) with 0 by (field; lra). rewrite tanh_0'. field.
  - unfold cutoff. split; nra.
Qed.

Lemma std_absorbing p q : W p <> 0 \/ alpha p <> 0 -> m_value p <= 0 \/ Qc p <= 0 \/ R0 p <= 0 \/ W p <= 0 -> StdReflecFunc q p = 0.
Proof.
  intros H K. unfold StdReflecFunc. cbv zeta. rewrite (plain p H).
  destruct K as [K|[K|[K|K]]].
  - rewrite (le_t (m_value p)) by assumption. now rewrite orb_true_r.
  - rewrite (le_t (Qc p)) by assumption. now rewrite orb_true_r.
  - rewrite (le_t (R0 p)) by assumption. now rewrite orb_true_r.
  - rewrite (proj2 (Rltb_f 0 (W p))) by assumption. rewrite (proj2 (Rltb_t 10 11)) by lra. reflexivity.
Qed.

(* ---- estimated coefficients ---- *)
Lemma est_unfold p q : W p = 0 -> alpha p = 0 -> let m := est_m (m_value p) in
  StdReflecFunc q p =
  (let arg := if Rltb 0 (est_W m) then (Rabs q - m * Qc p) / est_W m else 11 in
   if Rltb 10 arg || Rleb m 0 || Rleb (Qc p) 0 || Rleb (R0 p) 0 then 0
   else let qc := if Rltb m 1 then Qc p * m else Qc p in
     if Rleb (Rabs q) qc then R0 p
     else R0 p * (1 / 2) * (1 - tanh arg)
          * (1 - (if Rleb m 3 then m else est_alpha m) * (Rabs q - qc)
             + (if Rleb m 3 then 0 else est_beta m) * (Rabs q - qc) * (Rabs q - qc))).
Proof.
  intros HW Ha m. unfold StdReflecFunc. cbv zeta. rewrite HW, Ha, eq_t. cbn [andb].
  replace (m_value p * (9853 / 10000) + 1978 / 10000) with m by (unfold m, est_m; lra).
  replace (- (2 / 10000) * m + 22 / 10000) with (est_W m) by (unfold est_W; lra).
  replace (2304 / 10000 * m + 50944 / 10000) with (est_alpha m) by (unfold est_alpha; lra).
  now replace (- (76251 / 10000) * m + 681137 / 10000) with (est_beta m) by (unfold est_beta; lra).
Qed.

Lemma est_low p q : W p = 0 -> alpha p = 0 -> let m := est_m (m_value p) in 0 < m <= 3 ->
  StdReflecFunc q p = StdReflecFunc q (mkMir (R0 p) (Qc p) m m (est_W m)).
Proof.
  intros HW Ha m Hm. rewrite (est_unfold p q HW Ha). fold m. unfold StdReflecFunc at 1. cbv zeta. cbn [R0 Qc alpha m_value W].
  rewrite (eq_f m 0), andb_false_r by lra. rewrite !(le_t m 3) by lra. reflexivity.
Qed.

Lemma est_high p q : W p = 0 -> alpha p = 0 -> 0 < R0 p -> 0 < Qc p -> let m := est_m (m_value p) in 3 < m < 11 ->
  Qc p < Rabs q <= m * Qc p + 10 * est_W m ->
  StdReflecFunc q p = R0 p * (1 / 2) * (1 - tanh ((Rabs q - m * Qc p) / est_W m))
    * (1 - est_alpha m * (Rabs q - Qc p) + est_beta m * (Rabs q - Qc p) * (Rabs q - Qc p)).
Proof.
  intros HW Ha H0 H1 m Hm Hq. rewrite (est_unfold p q HW Ha). fold m. cbv zeta.
  assert (PW : 0 < est_W m) by (unfold est_W; lra).
  rewrite (proj2 (Rltb_t 0 (est_W m)) PW). rewrite (proj2 (Rltb_f 10 _)).
  2:{ apply Rmult_le_reg_r with (est_W m); [assumption|]. unfold Rdiv. rewrite Rmult_assoc, Rinv_l by lra. lra. }
  rewrite (le_f m 0), (le_f (Qc p)), (le_f (R0 p)) by lra. cbn [orb]. rewrite (proj2 (Rltb_f m 1)) by lra.
  rewrite le_f by lra. now rewrite (le_f m 3) by lra.
Qed.

Lemma est_outer p q : W p = 0 -> alpha p = 0 -> 0 < R0 p -> 0 < Qc p -> let m := est_m (m_value p) in 3 < m < 11 ->
  (Rabs q <= Qc p -> StdReflecFunc q p = R0 p) /\ (m * Qc p + 10 * est_W m < Rabs q -> StdReflecFunc q p = 0).
Proof.
  intros HW Ha H0 H1 m Hm. rewrite (est_unfold p q HW Ha). fold m. cbv zeta.
  assert (PW : 0 < est_W m) by (unfold est_W; lra).
  rewrite (proj2 (Rltb_t 0 (est_W m)) PW). split; intros Hq.
  - rewrite (proj2 (Rltb_f 10 _)).
    2:{ apply Rmult_le_reg_r with (est_W m); [assumption|]. unfold Rdiv. rewrite Rmult_assoc, Rinv_l by lra. nra. }
    rewrite (le_f m 0), (le_f (Qc p)), (le_f (R0 p)) by lra. cbn [orb]. rewrite (proj2 (Rltb_f m 1)) by lra.
    now rewrite le_t by lra.
  - rewrite (proj2 (Rltb_t 10 _)); [reflexivity|].
    apply Rmult_lt_reg_r with (est_W m); [assumption|]. unfold Rdiv. rewrite Rmult_assoc, Rinv_l by lra. lra.
Qed.

Lemma est_factor m d : 3 < m <= 7 -> 0 <= d <= (m - 1) * (3 / 100) + 10 * est_W m ->
  0 <= 1 - est_alpha m * d + est_beta m * d * d <= 1.
Proof.
  unfold est_alpha, est_beta, est_W. intros Hm [D0 D1]. split.
  - set (a := 5.0944 + 0.2304 * m). set (b := 68.1137 - 7.6251 * m).
    assert (B : 14 < b) by (unfold b; lra). assert (A : a * a <= 4 * b) by (unfold a, b; nra).
    assert (0 <= (2 * b * d - a) * (2 * b * d - a)) by apply Rle_0_sqr. nra.
  - assert (E : (68.1137 - 7.6251 * m) * d <= 5.0944 + 0.2304 * m).
    { assert (0 <= 68.1137 - 7.6251 * m) by lra.
      assert ((68.1137 - 7.6251 * m) * d <= (68.1137 - 7.6251 * m) * ((m - 1) * (3 / 100) + 10 * (0.0022 - 0.0002 * m)))
        by (apply Rmult_le_compat_l; lra).
      nra. }
    nra.
Qed.

Lemma est_range p q : W p = 0 -> alpha p = 0 -> 0 < R0 p -> 0 < Qc p <= 3 / 100 -> m_value p <= 69 / 10 ->
  0 <= StdReflecFunc q p <= R0 p.
Proof.
  intros HW Ha H0 [H1 H2] Hm. set (m := est_m (m_value p)).
  assert (M7 : m <= 7) by (unfold m, est_m; lra).
  destruct (Rle_dec m 0) as [N|N].
  - rewrite (est_unfold p q HW Ha). fold m. cbv zeta. rewrite (le_t m 0 N). rewrite orb_true_r. cbn [orb]. lra.
  - destruct (Rle_dec m 3) as [L|L].
    + rewrite (est_low p q HW Ha) by (fold m; lra). fold m.
      apply (std_range (mkMir (R0 p) (Qc p) m m (est_W m))); cbn [R0 Qc alpha m_value W].
      * unfold reflecting, est_W. cbn. lra.
      * lra.
      * unfold cutoff, critical, est_W. cbn.
        destruct (Rle_dec 1 m); [rewrite Rmin_left by lra|rewrite Rmin_right by lra].
        -- assert (m * (m - 1) <= 3 * 2) by nra.
           assert (m * (m - 1) * Qc p <= 3 * 2 * (3 / 100)) by (apply Rmult_le_compat; nra). nra.
        -- nra.
    + destruct (Rle_dec (Rabs q) (Qc p)) as [A|A].
      * rewrite (proj1 (est_outer p q HW Ha H0 H1 ltac:(fold m; lra))) by assumption. lra.
      * destruct (Rle_dec (Rabs q) (m * Qc p + 10 * est_W m)) as [B|B].
        -- rewrite (est_high p q HW Ha H0 H1) by (fold m; lra). fold m.
           pose proof (tanh_pos ((Rabs q - m * Qc p) / est_W m)) as T1. pose proof (tanh_le2 ((Rabs q - m * Qc p) / est_W m)) as T2.
           set (e := 1 - tanh _) in *.
           pose proof (est_factor m (Rabs q - Qc p) ltac:(lra)) as F. cbv zeta in F.
           assert (D : 0 <= Rabs q - Qc p <= (m - 1) * (3 / 100) + 10 * est_W m) by (split; nra). specialize (F D).
           set (f := 1 - _ + _) in *. clearbody e f.
           pose proof (Rmult_le_pos _ _ (Rmult_le_pos (R0 p) e ltac:(lra) ltac:(lra)) (proj1 F)).
           split; [lra|]. assert (e * f <= 2) by nra. nra.
        -- rewrite (proj2 (est_outer p q HW Ha H0 H1 ltac:(fold m; lra))) by (fold m; lra). lra.
Qed.

Lemma est_zero p q : W p = 0 -> alpha p = 0 -> m_value p = 0 -> 0 < R0 p -> 0 < Qc p -> Rabs q <= 0.1978 * Qc p ->
  StdReflecFunc q p = R0 p.
Proof.
  intros HW Ha Hm H0 H1 Hq. assert (E : est_m (m_value p) = 0.1978) by (unfold est_m; rewrite Hm; lra).
  rewrite (est_low p q HW Ha) by (rewrite E; lra).
  destruct (std_cases (mkMir (R0 p) (Qc p) (est_m (m_value p)) (est_m (m_value p)) (est_W (est_m (m_value p)))) q) as (A & _).
  - unfold reflecting, est_W. cbn. rewrite E. lra.
  - cbn in A. apply A. unfold critical. cbn. rewrite E. rewrite Rmin_right by lra. lra.
Qed.

(* ---- reflectivity from a table ---- *)
Lemma chord_between x1 y1 x2 y2 x y : x1 < x2 -> x1 <= x <= x2 -> 0 <= y1 <= 1 -> 0 <= y2 <= 1 ->
  on_chord x1 y1 x2 y2 x y -> 0 <= y <= 1.
Proof.
  unfold on_chord. intros H Hx H1 H2 C.
  pose proof (Rmult_le_pos y1 (x2 - x) ltac:(lra) ltac:(lra)). pose proof (Rmult_le_pos y2 (x - x1) ltac:(lra) ltac:(lra)).
  pose proof (Rmult_le_pos (1 - y1) (x2 - x) ltac:(lra) ltac:(lra)). pose proof (Rmult_le_pos (1 - y2) (x - x1) ltac:(lra) ltac:(lra)).
  split; apply Rmult_le_reg_r with (x2 - x1); nra.
Qed.

Lemma table_below t q k : shaped t -> described t -> constantstep t = false -> tmethod t = Linear -> (2 <= columns t)%Z ->
  (0 <= k)%Z -> (k + 1 < rows t - 1)%Z -> el t k 0 <= q < el t (k + 1) 0 -> 0 <= el t k 1 <= 1 -> 0 <= el t (k + 1) 1 <= 1 ->
  exists r, TableReflecFunc q t = Ok r /\ on_chord (el t k 0) (el t k 1) (el t (k + 1) 0) (el t (k + 1) 1) q r.
Proof.
  intros S D C M HC Hk Hk' Hq H1 H2. unfold TableReflecFunc.
  rewrite (value_step t q k 1 S D C Hk Hk') by (try lia; assumption). rewrite M. cbn [bind].
  pose proof (interp_chord q (el t k 0) (el t k 1) (el t (k + 1) 0) (el t (k + 1) 1) ltac:(lra)) as I.
  assert (X1 : el t k 0 < el t (k + 1) 0) by lra. assert (X2 : el t k 0 <= q <= el t (k + 1) 0) by lra.
  pose proof (chord_between _ _ _ _ _ _ X1 X2 H1 H2 I) as B.
  rewrite (proj2 (Rltb_f 1 _)) by lra. eauto.
Qed.
