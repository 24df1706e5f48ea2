From Coq Require Import Reals Lra Psatz.
From Coquelicot Require Import Coquelicot.
From Verif Require Import Base RotModel RotSpec DetModel ChanModel ShapeModel ShapeSpec ScatModel UnitModel UnitSpec KinModel KinSpec GridModel PhonModel GridSpec PhonSpec ChanProofs GridProofs GridProofs4 KinProofs KinProofs3 PhonProofs PhonProofs2 PhonProofs3.
Open Scope R_scope.

Lemma bose_phonons E T : 0 < E -> 0 <= T -> exists n, BoseEinsteinDistribution E T = Some n /\ phonons E T n /\ 0 <= n.
Proof.
  intros P T0. destruct (Req_dec T 0) as [->|N].
  - exists 0. unfold BoseEinsteinDistribution. rewrite (proj2 (Rltb_f _ _)) by lra. rewrite (proj2 (Reqb_t 0 0)) by reflexivity. rewrite (proj2 (Reqb_f _ _)) by lra.
    split; [reflexivity|]. split; [right; split; reflexivity|lra].
  - destruct (bose_some E T P ltac:(lra)) as (n & A & B & C). exists n. split; [exact A|]. split; [left; split; [lra|exact B]|lra].
Qed.
Lemma phonons_unique E T n m : phonons E T n -> phonons E T m -> n = m.
Proof. intros [[A B]|[A B]] [[C D]|[C D]]; subst; try lra. eapply occupation_unique; eassumption. Qed.

Lemma find_skip (P : nat -> bool) m n : (forall i, (i < m)%nat -> P i = false) -> P m = true -> (m < n)%nat -> find P (seq 0 n) = Some m.
Proof.
  intros A B L. assert (G : forall j a, (a <= m)%nat -> (m < a + j)%nat -> find P (seq a j) = Some m).
  { induction j as [|j IH]; intros a L1 L2; [lia|]. cbn. destruct (Nat.eq_dec a m) as [->|N]; [now rewrite B|]. rewrite A by lia. apply IH; lia. }
  apply G; lia.
Qed.
Lemma find_none (P : nat -> bool) n : (forall i, (i < n)%nat -> P i = false) -> find P (seq 0 n) = None.
Proof.
  intros A. assert (G : forall j a, (a + j <= n)%nat -> find P (seq a j) = None).
  { induction j as [|j IH]; intros a L1; [reflexivity|]. cbn. rewrite A by lia. apply IH; lia. }
  apply G; lia.
Qed.
Lemma trapezoids_sum h F n : trapezoids h F n = h * (loop_sum F n + F n / 2 - F 0%nat / 2).
Proof. induction n as [|n IH]; [cbn; field|]. cbn [trapezoids loop_sum]. rewrite IH. field. Qed.
Lemma loop_skip f n : loop_sum f (S n) = f 0%nat + loop_sum (fun i => f (S i)) n.
Proof. induction n as [|n IH]; [cbn; ring|]. cbn [loop_sum] in *. rewrite IH. ring. Qed.

Lemma pred_n n : (1 <= n)%nat -> pred_unsigned n = INR (n - 1).
Proof. intros L. destruct n as [|m]; [lia|]. rewrite pred_S. f_equal. lia. Qed.
Section Core.
Variables (Z : R -> R) (wmin wmax mass T : R) (n : nat).
Let h := (wmax - wmin) / (INR (n - 1) + 1 / 10 ^ 8).
Let w i := wmin + INR i * h.
Hypothesis range : 0 <= wmin < wmax.
Hypothesis T_ok : 0 <= T.
Hypothesis mass_ok : mass <> 0.
Hypothesis n_ok : (1 <= n)%nat.
Lemma h_pos : 0 < h.
Proof. unfold h. pose proof (pos_INR (n - 1)). apply Rdiv_lt_0_compat; lra. Qed.
Definition dw_f (E : R) : R := match BoseEinsteinDistribution E T with Some m => (2 * m + 1) / E * Z E | None => 0 end.
Lemma dw_f_spec E : 0 < E -> fluctuation Z T E (dw_f E).
Proof. intros P. destruct (bose_phonons E T P T_ok) as (m & A & B & _). exists m. split; [exact B|]. unfold dw_f. rewrite A. unfold Rdiv. ring. Qed.
Lemma fluctuation_f E F : 0 < E -> fluctuation Z T E F -> F = dw_f E.
Proof. intros P (m & A & ->). destruct (dw_f_spec E P) as (m' & B & ->). rewrite (phonons_unique _ _ _ _ A B). reflexivity. Qed.
(** with a first sample that is not skipped *)
Lemma core_first first : (S first < n)%nat ->
  (forall i, (i < first)%nat -> w i < wmax / INR n / 100) -> wmax / INR n / 100 <= w first ->
  calc_DW_core Z wmin wmax n mass T =
  Ok (dw_unit mass * (h * (loop_sum (fun i => if Nat.ltb i first then 0 else dw_f (w i)) n - dw_f (w (n - 1)) / 2 + (dw_f (w first) - w first * (dw_f (w (S first)) - dw_f (w first)) / h) / 2))).
Proof.
  intros L A B. pose proof h_pos as HP. unfold calc_DW_core. rewrite (pred_n n n_ok). fold h.
  assert (W : forall i, h * INR i + wmin = w i) by (intros; unfold w; ring).
  assert (SK : forall i, Rltb (h * INR i + wmin) (wmax / INR n / 100) = Nat.ltb i first).
  { intros i. rewrite W. destruct (Nat.ltb i first) eqn:LT.
    - apply Nat.ltb_lt in LT. apply Rltb_t. now apply A.
    - apply Nat.ltb_ge in LT. apply Rltb_f. apply le_INR in LT. unfold w in *. nra. }
  cbv zeta. rewrite (find_skip _ first).
  2:{ intros i I. rewrite SK. rewrite (proj2 (Nat.ltb_lt _ _) I). reflexivity. }
  2:{ rewrite SK. rewrite Nat.ltb_irrefl. reflexivity. }
  2:{ lia. }
  rewrite (proj2 (Nat.leb_gt _ _) L). rewrite div_ok by exact mass_ok. cbn [bind]. f_equal.
  rewrite !W.
  rewrite (sum_ext _ (fun i => if Nat.ltb i first then 0 else dw_f (w i) * (if Nat.eqb i (n - 1) then 1 / 2 else 1))) by (intros i _; rewrite SK, W; reflexivity).
  replace (loop_sum (fun i => if Nat.ltb i first then 0 else dw_f (w i) * (if Nat.eqb i (n - 1) then 1 / 2 else 1)) n)
    with (loop_sum (fun i => if Nat.ltb i first then 0 else dw_f (w i)) n - dw_f (w (n - 1)) / 2).
  2:{ destruct n as [|m]; [lia|]. cbn [loop_sum]. replace (S m - 1)%nat with m by lia. rewrite (proj2 (Nat.ltb_ge _ _)) by lia. rewrite Nat.eqb_refl.
      rewrite (sum_ext (fun i => if Nat.ltb i first then 0 else dw_f (w i) * (if Nat.eqb i m then 1 / 2 else 1)) (fun i => if Nat.ltb i first then 0 else dw_f (w i))); [lra|].
      intros i I. rewrite (proj2 (Nat.eqb_neq _ _)) by lia. destruct (Nat.ltb i first); ring. }
  fold (dw_f (w first)). fold (dw_f (w (S first))).
  unfold dw_unit, physics_hbar, physics_atomic_mass, physics_e. field. split; [lra|exact mass_ok].
Qed.
End Core.
Lemma n_big n : (2 <= n)%nat -> 2 <= INR n /\ INR (n - 1) = INR n - 1.
Proof. intros L. split; [apply (le_INR 2); lia|]. rewrite minus_INR by lia. reflexivity. Qed.
Section Zero.
Variables (Z : R -> R) (wmax mass T : R) (n : nat).
Let h := wmax / (INR (n - 1) + 1 / 10 ^ 8).
Hypothesis range : 0 < wmax.
Hypothesis T_ok : 0 <= T.
Lemma zero_first : (2 <= n)%nat -> 0 < wmax / INR n / 100 <= h.
Proof.
  intros L. destruct (n_big n L) as [A B]. unfold h. rewrite B. assert (0 < wmax / INR n) by (apply Rdiv_lt_0_compat; lra). split; [lra|].
  assert (wmax / INR n <= wmax / (INR n - 1 + 1 / 10 ^ 8)); [|lra]. unfold Rdiv. apply Rmult_le_compat_l; [lra|]. apply Rinv_le_contravar; lra.
Qed.
Theorem core_zero : mass <> 0 -> (3 <= n)%nat -> forall F : nat -> R, (forall i, (1 <= i < n)%nat -> fluctuation Z T (INR i * h) (F i)) -> F 0%nat = 2 * F 1%nat - F 2%nat ->
  calc_DW_core Z 0 wmax n mass T = Ok (dw_unit mass * trapezoids h F (n - 1)).
Proof.
  intros M L F HF F0. pose proof (zero_first ltac:(lia)) as [A B]. assert (HP : 0 < h) by lra.
  assert (HE : h = (wmax - 0) / (INR (n - 1) + 1 / 10 ^ 8)) by (unfold h; f_equal; ring).
  rewrite (core_first Z 0 wmax mass T n ltac:(lra) M ltac:(lia) 1); [|lia| |].
  2:{ intros i I. replace i with 0%nat by lia. cbn [INR]. lra. }
  2:{ rewrite <- HE. cbn [INR]. lra. }
  rewrite <- HE. do 2 f_equal. rewrite trapezoids_sum. f_equal.
  assert (FE : forall i, (1 <= i < n)%nat -> dw_f Z T (0 + INR i * h) = F i).
  { intros i I. symmetry. apply fluctuation_f; [exact T_ok| |].
    - assert (1 <= INR i) by (apply (le_INR 1); lia). nra.
    - rewrite Rplus_0_l. now apply HF. }
  rewrite !FE by lia. destruct n as [|m]; [lia|]. replace (S m - 1)%nat with m in * by lia.
  rewrite (sum_ext _ (fun i => if Nat.ltb i 1 then 0 else F i)).
  2:{ intros i I. destruct (Nat.ltb i 1) eqn:LT; [reflexivity|]. apply Nat.ltb_ge in LT. apply FE. lia. }
  destruct m as [|m]; [lia|]. cbn [loop_sum]. rewrite (proj2 (Nat.ltb_ge (S m) 1)) by lia.
  assert (X : forall q, loop_sum F (S q) = F 0%nat + loop_sum (fun i => if Nat.ltb i 1 then 0 else F i) (S q)).
  { intros q. rewrite !loop_skip. cbn [Nat.ltb Nat.leb]. rewrite Rplus_0_l. reflexivity. }
  pose proof (X m) as XM. cbn [loop_sum] in XM. rewrite XM. cbn [INR]. rewrite F0. field. lra.
Qed.
(** few samples *)
Theorem core_few : (n = 2%nat -> calc_DW_core Z 0 wmax n mass T = Err UndefinedBehaviour) /\ ((n < 2)%nat -> calc_DW_core Z 0 wmax n mass T = Err Terminated).
Proof.
  split; intros N.
  - assert (N2 : (2 <= n)%nat) by lia. pose proof (zero_first N2) as [A B]. assert (HE : (wmax - 0) / (pred_unsigned n + 1 / 10 ^ 8) = h) by (unfold h; rewrite (pred_n n) by lia; f_equal; ring).
    unfold calc_DW_core. cbv zeta. rewrite HE. rewrite (find_skip _ 1).
    + subst n. reflexivity.
    + intros i I. replace i with 0%nat by lia. cbn [INR]. rewrite (proj2 (Rltb_t _ _)) by lra. reflexivity.
    + cbn [INR]. rewrite (proj2 (Rltb_f _ _)) by lra. reflexivity.
    + lia.
  - unfold calc_DW_core. cbv zeta. rewrite find_none; [reflexivity|]. intros i I. destruct n as [|[|]]; [lia| |lia]. replace i with 0%nat by lia. cbn [INR].
    rewrite (proj2 (Rltb_t _ _)) by lra. reflexivity.
Qed.
End Zero.
(** a density of states that starts above zero *)
Theorem core_gap : forall Z wmin wmax mass T n, let h := (wmax - wmin) / (INR (n - 1) + 1 / 10 ^ 8) in
  0 < wmin < wmax -> 0 <= T -> mass <> 0 -> (2 <= n)%nat -> wmax / INR n / 100 <= wmin ->
  forall F : nat -> R, (forall i, (i < n)%nat -> fluctuation Z T (wmin + INR i * h) (F i)) ->
  calc_DW_core Z wmin wmax n mass T = Ok (dw_unit mass * (trapezoids h F (n - 1) + h * (F 0%nat + (F 0%nat - wmin * (F 1%nat - F 0%nat) / h)) / 2)).
Proof.
  intros Z wmin wmax mass T n h RG TP M L W F HF.
  assert (HP : 0 < h) by (apply h_pos; lra).
  rewrite (core_first Z wmin wmax mass T n ltac:(lra) M ltac:(lia) 0); [|lia|intros; lia|cbn [INR]; lra]. fold h. do 2 f_equal.
  assert (FE : forall i, (i < n)%nat -> dw_f Z T (wmin + INR i * h) = F i).
  { intros i I. symmetry. apply fluctuation_f; [exact TP| |now apply HF]. pose proof (pos_INR i). nra. }
  rewrite !FE by lia. rewrite (sum_ext _ F) by (intros i I; cbn [Nat.ltb Nat.leb]; now apply FE).
  rewrite trapezoids_sum. replace n with (S (n - 1)) at 1 by lia. cbn [loop_sum INR]. field. lra.
Qed.

(** ** Divergence *)
Lemma ln_le x : 0 < x -> ln (1 + x) <= x.
Proof. intros P. rewrite <- (ln_exp x) at 2. left. apply ln_increasing; [lra|]. apply exp_ineq1. lra. Qed.
Lemma harmonic n : ln (INR (S n)) <= loop_sum (fun i => / INR (S i)) n.
Proof.
  induction n as [|n IH]; [cbn; rewrite ln_1; lra|]. cbn [loop_sum]. 
  assert (P : 0 < INR (S n)) by (apply lt_0_INR; lia). pose proof (Rinv_0_lt_compat _ P) as PI'.
  replace (INR (S (S n))) with (INR (S n) * (1 + / INR (S n))) by (rewrite (S_INR (S n)); field; lra).
  rewrite ln_mult by lra. pose proof (ln_le (/ INR (S n)) PI'). lra.
Qed.
Lemma harmonic_above M : exists N, M < loop_sum (fun i => / INR (S i)) N.
Proof.
  destruct (INR_above (exp M)) as [N HN]. exists N. eapply Rlt_le_trans; [|apply harmonic].
  rewrite <- (ln_exp M). apply ln_increasing; [apply exp_pos|]. rewrite S_INR. lra.
Qed.
(** the number of phonons at low energy *)
Lemma phonons_low E T n x0 : 0 < E -> 0 < T -> occupation E T n -> E * (11605 / 1000) / T <= x0 -> exp (- x0) * T / (11605 / 1000) / E <= n.
Proof.
  intros P Q O B. unfold occupation in O. set (x := E * (11605 / 1000) / T) in *. assert (XP : 0 < x) by (apply arg_pos; assumption).
  assert (A : exp x - 1 <= x * exp x).
  { assert (1 - x <= exp (- x)).
    { destruct (Req_dec x 0) as [->|]; [lra|]. pose proof (exp_ineq1_le (- x)). lra. }
    assert (exp (- x) * exp x = 1) by (rewrite <- exp_plus; replace (- x + x) with 0 by ring; apply exp_0). pose proof (exp_pos x). nra. }
  pose proof (exp_gt1 x XP) as G. assert (NP : 0 < n) by (apply Rmult_lt_reg_r with (exp x - 1); lra).
  assert (C : 1 <= n * (x * exp x)) by nra.
  assert (D : exp (- x0) * exp x <= 1) by (rewrite <- exp_plus, <- exp_0; destruct B as [B|B]; [left; apply exp_increasing; lra|right; f_equal; lra]).
  replace (exp (- x0) * T / (11605 / 1000) / E) with (exp (- x0) / x) by (unfold x; field; lra).
  apply Rmult_le_reg_r with x; [exact XP|]. replace (exp (- x0) / x * x) with (exp (- x0)) by (field; lra).
  pose proof (exp_pos (- x0)). assert (exp (- x0) * 1 <= exp (- x0) * (n * (x * exp x))) by (apply Rmult_le_compat_l; lra).
  replace (exp (- x0) * (n * (x * exp x))) with (n * x * (exp (- x0) * exp x)) in H0 by ring.
  assert (n * x * (exp (- x0) * exp x) <= n * x * 1) by (apply Rmult_le_compat_l; [apply Rmult_le_pos; lra|exact D]). lra.
Qed.
Lemma sum_part f g n m : (m <= n)%nat -> (forall i, (i < m)%nat -> g i <= f i) -> (forall i, (i < n)%nat -> 0 <= f i) -> loop_sum g m <= loop_sum f n.
Proof.
  intros L A B. induction L as [|n L IH].
  - clear B. induction m as [|m IH]; [cbn; lra|]. cbn. assert (loop_sum g m <= loop_sum f m) by (apply IH; intros; apply A; lia). assert (g m <= f m) by (apply A; lia). lra.
  - cbn. assert (loop_sum g m <= loop_sum f n) by (apply IH; intros; apply B; lia). assert (0 <= f n) by (apply B; lia). lra.
Qed.
Lemma dw_unit_pos m : 0 < m -> 0 < dw_unit m.
Proof.
  intros P. unfold dw_unit. assert (0 < 10 ^ 20) by (apply pow_lt; lra). assert (0 < 10 ^ 42) by (apply pow_lt; lra). assert (0 < 10 ^ 35) by (apply pow_lt; lra). assert (0 < 10 ^ 30) by (apply pow_lt; lra).
  apply Rmult_lt_0_compat; [|assumption]. apply Rdiv_lt_0_compat; [apply Rdiv_lt_0_compat|apply Rdiv_lt_0_compat; lra].
  - apply pow_lt. apply Rdiv_lt_0_compat; lra.
  - apply Rmult_lt_0_compat; [|exact P]. apply Rmult_lt_0_compat; [lra|]. apply Rdiv_lt_0_compat; lra.
Qed.
Theorem core_diverges : forall Z a de wmax mass T,
  0 < a -> 0 < de -> 0 < wmax -> 0 < mass -> 0 < T -> (forall E, 0 < E < de -> Z E = a * E) -> (forall E, 0 < E < wmax -> 0 <= Z E) ->
  forall M, exists N, forall n, (N <= n)%nat -> exists c, calc_DW_core Z 0 wmax n mass T = Ok c /\ M < c.
Proof.
  intros Z a de wmax mass T AP DP WP MP TP ZL ZP M. set (x0 := de * (11605 / 1000) / T). set (C := 2 * a * (exp (- x0) * T / (11605 / 1000))).
  assert (CP : 0 < C) by (unfold C; pose proof (exp_pos (- x0)); apply Rmult_lt_0_compat; [lra|]; apply Rdiv_lt_0_compat; [nra|lra]).
  pose proof (dw_unit_pos mass MP) as UP.
  destruct (harmonic_above (M / (dw_unit mass * (C / 2)))) as [K HK]. destruct (INR_above (INR (K + 1) * wmax / de)) as [N0 HN].
  exists (N0 + K + 5)%nat. intros n L.
  set (h := wmax / (INR (n - 1) + 1 / 10 ^ 8)).
  assert (NP : INR N0 + 1 <= INR (n - 1)) by (rewrite <- S_INR; apply le_INR; lia). pose proof (pos_INR N0) as N0P.
  assert (HP : 0 < h) by (apply Rdiv_lt_0_compat; lra).
  assert (KH : INR (K + 1) * h < de).
  { apply Rmult_lt_reg_r with (INR (n - 1) + 1 / 10 ^ 8); [lra|]. unfold h. replace (INR (K + 1) * (wmax / (INR (n - 1) + 1 / 10 ^ 8)) * (INR (n - 1) + 1 / 10 ^ 8)) with (INR (K + 1) * wmax) by (field; lra).
    apply (Rmult_lt_compat_r de) in HN; [|exact DP]. replace (INR (K + 1) * wmax / de * de) with (INR (K + 1) * wmax) in HN by (field; lra). nra. }
  assert (INSIDE : forall i, (i < n - 1)%nat -> 0 < INR (S i) * h < wmax).
  { intros i I. split; [apply Rmult_lt_0_compat; [apply lt_0_INR; lia|exact HP]|]. unfold h.
    apply Rmult_lt_reg_r with (INR (n - 1) + 1 / 10 ^ 8); [lra|]. replace (INR (S i) * (wmax / (INR (n - 1) + 1 / 10 ^ 8)) * (INR (n - 1) + 1 / 10 ^ 8)) with (INR (S i) * wmax) by (field; lra).
    assert (INR (S i) <= INR (n - 1)) by (apply le_INR; lia). nra. }
  set (F := fun i : nat => match i with O => 2 * dw_f Z T (INR 1 * h) - dw_f Z T (INR 2 * h) | S _ => dw_f Z T (INR i * h) end).
  exists (dw_unit mass * trapezoids h F (n - 1)). split.
  - apply core_zero; [exact WP|lra|lra|lia| |reflexivity]. intros i I. fold h. destruct i as [|i]; [lia|]. apply dw_f_spec; [lra|]. apply INSIDE. lia.
  - assert (FP : forall i, (i < n - 1)%nat -> 0 <= F (S i)).
    { intros i I. unfold F. destruct (INSIDE i I) as [A B]. unfold dw_f. destruct (bose_phonons (INR (S i) * h) T A ltac:(lra)) as (m & -> & _ & P).
      apply Rmult_le_pos; [|now apply ZP]. apply Rmult_le_pos; [lra|]. left. now apply Rinv_0_lt_compat. }
    assert (FB : forall i, (i < K)%nat -> C * / INR (S i) <= h * F (S i)).
    { intros i I. destruct (INSIDE i ltac:(lia)) as [A B]. unfold F, dw_f. destruct (bose_some (INR (S i) * h) T A TP) as (m & -> & O & P).
      assert (SI : 0 < INR (S i)) by (apply lt_0_INR; lia). assert (SK : INR (S i) <= INR (K + 1)) by (apply le_INR; lia).
      assert (IN : INR (S i) * h < de) by nra. rewrite ZL by lra.
      assert (XB : INR (S i) * h * (11605 / 1000) / T <= x0). { unfold x0, Rdiv. apply Rmult_le_compat_r; [left; now apply Rinv_0_lt_compat|]. nra. }
      pose proof (phonons_low _ T m x0 A TP O XB) as LB.
      replace (h * ((2 * m + 1) / (INR (S i) * h) * (a * (INR (S i) * h)))) with (a * h * (2 * m + 1)) by (field; lra).
      replace (C * / INR (S i)) with (a * h * (2 * (exp (- x0) * T / (11605 / 1000) / (INR (S i) * h)))) by (unfold C; field; lra).
      apply Rmult_le_compat_l; [nra|lra]. }
    rewrite trapezoids_sum. destruct n as [|[|m]]; [lia|lia|]. replace (S (S m) - 1)%nat with (S m) in * by lia. rewrite loop_skip.
    assert (F0 : F 0%nat = 2 * F 1%nat - F 2%nat) by reflexivity.
    assert (S0 : loop_sum (fun i => C * / INR (S i)) K <= loop_sum (fun i => h * F (S i)) m).
    { apply sum_part; [lia|exact FB|]. intros i I. apply Rmult_le_pos; [lra|]. apply FP. lia. }
    rewrite !sum_scale in S0. pose proof (FP m ltac:(lia)) as FM.
    assert (F12 : F 2%nat <= loop_sum (fun i => F (S i)) m).
    { destruct m as [|[|m]]; [lia|lia|]. rewrite !loop_skip. pose proof (FP 0%nat ltac:(lia)). assert (0 <= loop_sum (fun i => F (S (S (S i)))) m) by (apply sum_nonneg; intros i I; apply FP; lia). lra. }
    pose proof (FP 0%nat ltac:(lia)) as FP1.
    apply (Rmult_lt_compat_l (dw_unit mass * (C / 2))) in HK; [|nra]. replace (dw_unit mass * (C / 2) * (M / (dw_unit mass * (C / 2)))) with M in HK by (field; split; lra).
    eapply Rlt_le_trans; [exact HK|]. rewrite Rmult_assoc. apply Rmult_le_compat_l; [lra|].
    replace (C / 2 * loop_sum (fun i => / INR (S i)) K) with (C * loop_sum (fun i => / INR (S i)) K / 2) by field.
    apply Rle_trans with (h * (loop_sum (fun i => F (S i)) m / 2)); [lra|]. apply Rmult_le_compat_l; [lra|]. cbn [loop_sum]. rewrite F0. lra.
Qed.
