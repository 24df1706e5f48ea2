From Coq Require Import Reals List ZArith Lia Lra Bool Psatz.
From Verif Require Import Base RotModel ShapeModel ShapeProofs ShapeProofs2 ChanModel ChanProofs TabModel TabSpec TabProofs.
Import ListNotations.
Local Open Scope R_scope.

Lemma shaped_pos t : shaped t -> (0 < rows t)%Z /\ (0 < columns t)%Z.
Proof. intros (d & _ & A & B & _). auto. Qed.

Lemma entry_in t i : shaped t -> (0 <= i < rows t)%Z -> Table_Index t i 0 = Ok (el t i 0).
Proof. intros S H. apply index_in; [assumption|]. split; [assumption|]. destruct (shaped_pos t S). lia. Qed.

Lemma extrema_S t row n i mn mx : extrema t row (S n) i mn mx =
  bind (entry t row i) (fun X => extrema t row n (i + 1)%Z (if Rltb X mn then X else mn) (if Rltb mx X then X else mx)).
Proof. reflexivity. Qed.
Lemma least_S t row n i step mono : least_step t row (S n) i step mono =
  bind (entry t row i) (fun X => bind (Table_Index t (i + 1) 0) (fun Xn =>
    least_step t row n (i + 1)%Z (if Rltb (Rabs (Xn - X)) (Rabs step) then Xn - X else step)
      (if Rltb ((max_x t - min_x t) * (Xn - X)) 0 && mono then false else mono))).
Proof. reflexivity. Qed.
Lemma same_S t row n i step : same_steps t row (S n) i step =
  bind (entry t row i) (fun X => bind (Table_Index t (i + 1) 0) (fun Xn =>
    if Rltb (Rabs step * (1 - 2 / 100)) (Rabs (Xn - X)) && Rltb (Rabs (Xn - X)) (Rabs step * (1 + 2 / 100))
    then same_steps t row n (i + 1)%Z step else Ok false)).
Proof. reflexivity. Qed.

Lemma extrema_rising t : shaped t -> rising t -> forall n i, (1 <= i)%Z -> Z.of_nat n = (rows t - i)%Z ->
  extrema t true n i (el t 0 0) (el t (i - 1) 0) = Ok (el t 0 0, el t (rows t - 1) 0).
Proof.
  intros S HR. induction n as [|n IH]; intros i Hi Hn.
  - cbn. do 3 f_equal. lia.
  - rewrite extrema_S. cbn [entry]. rewrite (entry_in t i S) by lia. cbn [bind].
    rewrite (proj2 (Rltb_f (el t i 0) (el t 0 0))) by (apply rising_le; (assumption || lia)).
    rewrite (proj2 (Rltb_t (el t (i - 1) 0) (el t i 0))).
    + replace i with (i + 1 - 1)%Z at 2 by lia. apply IH; lia.
    + replace i with (i - 1 + 1)%Z at 2 by lia. apply HR. lia.
Qed.

Lemma extrema_all t : shaped t -> rising t -> bounded t ->
  extrema t true (Z.to_nat (rows t)) 0 FLT_MAX (- FLT_MAX) = Ok (el t 0 0, el t (rows t - 1) 0).
Proof.
  intros S HR HB. destruct (shaped_pos t S) as [P _].
  replace (Z.to_nat (rows t)) with (Datatypes.S (Z.to_nat (rows t - 1))) by lia.
  rewrite extrema_S. cbn [entry]. rewrite (entry_in t 0 S) by lia. cbn [bind].
  pose proof (HB 0%Z ltac:(lia)) as B. assert (B1 := Rle_abs (el t 0 0)). assert (B2 := Rle_abs (- el t 0 0)). rewrite Rabs_Ropp in B2.
  replace (if Rltb (el t 0 0) FLT_MAX then el t 0 0 else FLT_MAX) with (el t 0 0).
  2:{ destruct (Rltb (el t 0 0) FLT_MAX) eqn:E; [reflexivity|]. apply Rltb_f in E. lra. }
  replace (if Rltb (- FLT_MAX) (el t 0 0) then el t 0 0 else - FLT_MAX) with (el t 0 0).
  2:{ destruct (Rltb (- FLT_MAX) (el t 0 0)) eqn:E; [reflexivity|]. apply Rltb_f in E. lra. }
  apply (extrema_rising t S HR _ 1%Z); lia.
Qed.

Lemma step_pos t k : rising t -> (0 <= k < rows t - 1)%Z -> 0 < step_at t k.
Proof. intros HR H. unfold step_at. specialize (HR k H). lra. Qed.

Lemma least_rising t : shaped t -> rising t -> min_x t <= max_x t ->
  forall n i step, (0 <= i)%Z -> (i + Z.of_nat n <= rows t - 1)%Z -> 0 < step ->
  exists s, least_step t true n i step true = Ok (s, true) /\ 0 < s <= step
    /\ (forall k, (i <= k < i + Z.of_nat n)%Z -> s <= step_at t k)
    /\ (s = step \/ exists k, (i <= k < i + Z.of_nat n)%Z /\ s = step_at t k).
Proof.
  intros S HR HM. induction n as [|n IH]; intros i step Hi Hn Hs.
  - exists step. split; [reflexivity|]. split; [lra|]. split; [intros; lia|now left].
  - rewrite least_S. cbn [entry]. rewrite !(entry_in t _ S) by lia. cbn [bind].
    pose proof (step_pos t i HR ltac:(lia)) as P. fold (step_at t i).
    rewrite (proj2 (Rltb_f ((max_x t - min_x t) * step_at t i) 0)) by nra. cbn [andb].
    rewrite (Rabs_right (step_at t i)), (Rabs_right step) by lra.
    destruct (Rltb (step_at t i) step) eqn:E; [apply Rltb_t in E|apply Rltb_f in E].
    + destruct (IH (i + 1)%Z (step_at t i)) as (s & A & B & C & D); [lia..|assumption|].
      exists s. split; [assumption|]. split; [lra|]. split.
      * intros k Hk. destruct (Z.eq_dec k i) as [->|N]; [lra|]. apply C. lia.
      * right. destruct D as [D|(k & Hk & D)]; [exists i; split; [lia|assumption]|exists k; split; [lia|assumption]].
    + destruct (IH (i + 1)%Z step) as (s & A & B & C & D); [lia..|assumption|].
      exists s. split; [assumption|]. split; [lra|]. split.
      * intros k Hk. destruct (Z.eq_dec k i) as [->|N]; [lra|]. apply C. lia.
      * destruct D as [D|(k & Hk & D)]; [now left|right; exists k; split; [lia|assumption]].
Qed.

Lemma same_rising t s : shaped t -> rising t -> 0 < s ->
  forall n i, (0 <= i)%Z -> (i + Z.of_nat n <= rows t - 1)%Z ->
  exists b, same_steps t true n i s = Ok b
    /\ (b = true <-> forall k, (i <= k < i + Z.of_nat n)%Z -> s * (98 / 100) < step_at t k < s * (102 / 100)).
Proof.
  intros S HR Hs. induction n as [|n IH]; intros i Hi Hn.
  - exists true. split; [reflexivity|]. split; [intros; lia|reflexivity].
  - rewrite same_S. cbn [entry]. rewrite !(entry_in t _ S) by lia. cbn [bind].
    pose proof (step_pos t i HR ltac:(lia)) as P. fold (step_at t i). rewrite (Rabs_right (step_at t i)), (Rabs_right s) by lra.
    destruct (Rltb (s * (1 - 2 / 100)) (step_at t i)) eqn:E1; [apply Rltb_t in E1|apply Rltb_f in E1];
      [destruct (Rltb (step_at t i) (s * (1 + 2 / 100))) eqn:E2; [apply Rltb_t in E2|apply Rltb_f in E2]|]; cbn [andb].
    + destruct (IH (i + 1)%Z) as (b & A & B); [lia..|]. exists b. split; [assumption|]. rewrite B. split; intros H k Hk.
      * destruct (Z.eq_dec k i) as [->|N]; [lra|]. apply H. lia.
      * apply H. lia.
    + exists false. split; [reflexivity|]. split; [discriminate|]. intros H. specialize (H i ltac:(lia)). lra.
    + exists false. split; [reflexivity|]. split; [discriminate|]. intros H. specialize (H i ltac:(lia)). lra.
Qed.

(* All steps at least s: rows are at least that far apart. *)
Lemma apart t s : (forall k, (0 <= k < rows t - 1)%Z -> s <= step_at t k) ->
  forall n i, (0 <= i)%Z -> (i + Z.of_nat n <= rows t - 1)%Z -> IZR (Z.of_nat n) * s <= el t (i + Z.of_nat n) 0 - el t i 0.
Proof.
  intros H. induction n; intros i Hi Hn.
  - rewrite Z.add_0_r. cbn. lra.
  - specialize (IHn i Hi ltac:(lia)). specialize (H (i + Z.of_nat n)%Z ltac:(lia)). unfold step_at in H.
    replace (i + Z.of_nat (S n))%Z with (i + Z.of_nat n + 1)%Z by lia.
    replace (Z.of_nat (S n)) with (Z.of_nat n + 1)%Z by lia. rewrite plus_IZR. lra.
Qed.

Lemma same_el t t' : same_content t t' -> forall i j, el t' i j = el t i j.
Proof. intros (A & B & C & D) i j. unfold el. now rewrite A, C. Qed.
Lemma same_shaped t t' : same_content t t' -> shaped t -> shaped t'.
Proof. intros (A & B & C & D) (d & E). exists d. rewrite A, B, C. exact E. Qed.
Lemma same_rising_t t t' : same_content t t' -> rising t -> rising t'.
Proof. intros H R i Hi. rewrite !(same_el t t' H). apply R. destruct H as (_ & E & _). now rewrite <- E. Qed.

Lemma stat_rising t : shaped t -> (2 <= rows t)%Z -> rising t -> bounded t -> min_x t <= max_x t ->
  exists t', Table_Stat t = Ok t' /\ same_content t t' /\ described t' /\ monotonic t' = true
    /\ (forall k, (0 <= k < rows t - 1)%Z -> step_x t' <= step_at t k)
    /\ (exists k, (0 <= k < rows t - 1)%Z /\ step_x t' = step_at t k)
    /\ (constantstep t' = true <-> forall k, (0 <= k < rows t - 1)%Z -> step_at t k < step_x t' * (102 / 100)).
Proof.
  intros S H2 HR HB HM. destruct (shaped_pos t S) as [P Q]. unfold Table_Stat.
  rewrite (proj2 (Z.eqb_neq (rows t) 0)), (proj2 (Z.eqb_neq (columns t) 0)), (proj2 (Z.eqb_neq (rows t) 1)) by lia.
  cbn [orb negb]. rewrite (extrema_all t S HR HB). cbn [bind].
  rewrite (proj2 (Z.ltb_lt 1 (rows t))) by lia.
  pose proof (IZR_le 2 (rows t) H2) as R2.
  assert (HN : 0 < IZR (rows t - 1)) by (rewrite minus_IZR; lra).
  assert (PM : 0 < (el t (rows t - 1) 0 - el t 0 0) / IZR (rows t - 1)).
  { apply Rdiv_lt_0_compat; [|assumption].
    pose proof (rising_le t 1 (rows t - 1) HR ltac:(lia) ltac:(lia)). pose proof (HR 0%Z ltac:(lia)) as H0. cbn in H0. lra. }
  set (mean := (el t (rows t - 1) 0 - el t 0 0) / IZR (rows t - 1)) in *.
  destruct (least_rising t S HR HM (Z.to_nat (rows t - 1)) 0%Z mean) as (s & A & B & C & D); [lia..|assumption|].
  rewrite A. cbn [bind].
  destruct (same_rising t s S HR ltac:(lra) (Z.to_nat (rows t - 1)) 0%Z) as (b & E & F); [lia..|].
  rewrite E. cbn [bind]. eexists. split; [reflexivity|].
  assert (C' : forall k, (0 <= k < rows t - 1)%Z -> s <= step_at t k) by (intros k Hk; apply C; lia).
  assert (D' : exists k, (0 <= k < rows t - 1)%Z /\ s = step_at t k).
  { destruct D as [D|(k & Hk & D)]; [|exists k; split; [lia|assumption]].
    exists 0%Z. split; [lia|]. apply Rle_antisym; [apply C'; lia|].
    pose proof (apart t s C' (Z.to_nat (rows t - 2)) 1%Z ltac:(lia) ltac:(lia)) as G.
    replace (1 + Z.of_nat (Z.to_nat (rows t - 2)))%Z with (rows t - 1)%Z in G by lia.
    replace (Z.of_nat (Z.to_nat (rows t - 2))) with (rows t - 1 - 1)%Z in G by lia. rewrite minus_IZR in G.
    unfold step_at. cbn [Z.add]. change (0 + 1)%Z with 1%Z.
    assert (el t (rows t - 1) 0 - el t 0 0 = IZR (rows t - 1) * s) by (rewrite D; unfold mean; field; lra). nra. }
  split; [split; [reflexivity|auto]|]. split.
  { split; [|split; reflexivity]. intros k Hk. apply (HR k Hk). }
  cbn. split; [reflexivity|]. split; [assumption|]. split; [assumption|]. rewrite F. split; intros G k Hk.
  - apply G. lia.
  - split; [|apply G; lia]. specialize (C' k ltac:(lia)). lra.
Qed.

Lemma same_entry t b1 b2 i j : Table_Index (mkT (data t) (rows t) (columns t) b1 b2 (step_x t) (monotonic t) (constantstep t) (tmethod t)) i j = Table_Index t i j.
Proof. reflexivity. Qed.

(* ---- monotonic ---- *)
Lemma least_mono t : max_x t = min_x t -> forall row n i step s b, least_step t row n i step true = Ok (s, b) -> b = true.
Proof.
  intros E row. induction n as [|n IH]; intros i step s b H.
  - cbn in H. congruence.
  - rewrite least_S in H. destruct (entry t row i) as [X|]; cbn [bind] in H; [|discriminate].
    destruct (Table_Index t (i + 1) 0) as [Xn|]; cbn [bind] in H; [|discriminate].
    rewrite (proj2 (Rltb_f ((max_x t - min_x t) * (Xn - X)) 0)) in H by (rewrite E; nra). cbn [andb] in H.
    eapply IH; exact H.
Qed.

Lemma stat_mono t t' : max_x t = min_x t -> rows t <> 0%Z -> columns t <> 0%Z ->
  Table_Stat t = Ok t' -> monotonic t' = true.
Proof.
  intros E HR HC. unfold Table_Stat. rewrite (proj2 (Z.eqb_neq (rows t) 0)), (proj2 (Z.eqb_neq (columns t) 0)) by assumption.
  cbn [orb]. destruct (extrema _ _ _ _ _ _) as [[mn mx]|]; cbn [bind]; [|discriminate].
  set (n := if negb _ then _ else _).
  destruct (1 <? n)%Z.
  - destruct (least_step _ _ _ _ _ _) as [[s b]|] eqn:L; cbn [bind]; [|discriminate].
    apply (least_mono t E) in L. subst b. destruct (same_steps _ _ _ _ _); cbn [bind]; [|discriminate].
    intros H. injection H as <-. reflexivity.
  - intros H. injection H as <-. reflexivity.
Qed.

(* ---- even first column ---- *)
Lemma even_step t x0 h k : even t x0 h -> (0 <= k < rows t - 1)%Z -> step_at t k = h.
Proof. intros E H. unfold step_at. rewrite !E by lia. rewrite plus_IZR. ring. Qed.
Lemma even_rising t x0 h : even t x0 h -> 0 < h -> rising t.
Proof. intros E H k Hk. pose proof (even_step t x0 h k E Hk). unfold step_at in H0. lra. Qed.

Lemma least_even t x0 h : shaped t -> even t x0 h -> forall n i mono, (0 <= i)%Z -> (i + Z.of_nat n <= rows t - 1)%Z ->
  exists b, least_step t true n i h mono = Ok (h, b).
Proof.
  intros S E. induction n as [|n IH]; intros i mono Hi Hn.
  - exists mono. reflexivity.
  - rewrite least_S. cbn [entry]. rewrite !(entry_in t _ S) by lia. cbn [bind].
    fold (step_at t i). rewrite (even_step t x0 h i E) by lia.
    replace (if Rltb (Rabs h) (Rabs h) then h else h) with h by now destruct (Rltb _ _).
    apply IH; lia.
Qed.

Lemma stat_even t x0 h : shaped t -> (2 <= rows t)%Z -> bounded t -> even t x0 h -> 0 < h ->
  exists t', Table_Stat t = Ok t' /\ same_content t t' /\ described t' /\ constantstep t' = true.
Proof.
  intros S H2 HB HE Hh. pose proof (even_rising t x0 h HE Hh) as HR. destruct (shaped_pos t S) as [P Q]. unfold Table_Stat.
  rewrite (proj2 (Z.eqb_neq (rows t) 0)), (proj2 (Z.eqb_neq (columns t) 0)), (proj2 (Z.eqb_neq (rows t) 1)) by lia.
  cbn [orb negb]. rewrite (extrema_all t S HR HB). cbn [bind].
  rewrite (proj2 (Z.ltb_lt 1 (rows t))) by lia.
  pose proof (IZR_le 2 (rows t) H2) as R2.
  replace ((el t (rows t - 1) 0 - el t 0 0) / IZR (rows t - 1)) with h.
  2:{ rewrite !HE by lia. rewrite minus_IZR. field. lra. }
  destruct (least_even t x0 h S HE (Z.to_nat (rows t - 1)) 0%Z true) as [b A]; [lia..|]. rewrite A. cbn [bind].
  destruct (same_rising t h S HR Hh (Z.to_nat (rows t - 1)) 0%Z) as (c & E & F); [lia..|].
  assert (c = true).
  { apply F. intros k Hk. rewrite (even_step t x0 h k HE) by lia. lra. }
  subst c. replace (if b then same_steps t true (Z.to_nat (rows t - 1)) 0 h else Ok true) with (@Ok bool true) by (destruct b; now rewrite ?E).
  cbn [bind]. eexists. split; [reflexivity|]. split; [split; [reflexivity|auto]|]. split; [|reflexivity].
  split; [|split; reflexivity]. intros k Hk. apply (HR k Hk).
Qed.

Lemma value_even t x0 h k j : shaped t -> even t x0 h -> 0 < h -> described t -> constantstep t = true ->
  tmethod t <> OtherMethod -> (0 < k < rows t - 1)%Z -> (0 <= j < columns t)%Z ->
  Table_Value t (el t k 0) j = Ok (el t (k - 1) j).
Proof.
  intros S HE Hh (HR & Hm & HX) HC HM Hk Hj. unfold Table_Value. rewrite Hm, HX, HC.
  rewrite (proj2 (Rltb_f (el t (rows t - 1) 0) (el t k 0))) by (apply rising_le; (assumption || lia)).
  rewrite (proj2 (Rltb_f (el t k 0) (el t 0 0))) by (apply rising_le; (assumption || lia)). cbn [negb].
  pose proof (IZR_lt 0 k ltac:(lia)) as K0. pose proof (IZR_lt k (rows t - 1) ltac:(lia)) as K1. rewrite minus_IZR in K1.
  rewrite eq_f by (rewrite !HE by lia; rewrite minus_IZR; nra). cbv zeta.
  replace (floorZ _) with k.
  2:{ symmetry. rewrite !HE by lia. rewrite minus_IZR.
      replace ((x0 + IZR k * h - (x0 + 0 * h)) / (x0 + (IZR (rows t) - 1) * h - (x0 + 0 * h)) * IZR (rows t))
        with (IZR k + IZR k / (IZR (rows t) - 1)) by (field; split; nra).
      apply floor_between. split.
      - apply Rlt_le, Rdiv_lt_0_compat; lra.
      - apply Rmult_lt_reg_r with (IZR (rows t) - 1); [lra|]. unfold Rdiv. rewrite Rmult_assoc, Rinv_l by lra. lra. }
  rewrite !(index_rows t _ 0 S) by lia. cbn [bind]. rewrite !(index_rows t _ j S) by lia. rewrite !clamp_id by lia. cbn [bind].
  assert (D : el t k 0 < el t (k + 1) 0) by (apply HR; lia).
  destruct (tmethod t); [| |congruence]; f_equal.
  - unfold Table_Interp1d. rewrite eq_f by lra. destruct (Reqb _ _); [reflexivity|].
    replace (el t k 0 - el t k 0) with 0 by ring. ring.
  - unfold Table_Interp1d_nearest. rewrite (proj2 (Rltb_t _ _)); [reflexivity|].
    replace (el t k 0 - el t k 0) with 0 by ring. rewrite Rabs_R0, Rabs_left by lra. lra.
Qed.

(* ---- Table_Rebin ---- *)
Lemma bracket t X : rising t -> (2 <= rows t)%Z -> el t 0 0 <= X < el t (rows t - 1) 0 ->
  exists k, (0 <= k < rows t - 1)%Z /\ el t k 0 <= X < el t (k + 1) 0.
Proof.
  intros HR H2 [A B].
  assert (G : forall n, (Z.of_nat n <= rows t - 1)%Z -> X < el t (Z.of_nat n) 0 ->
    exists k, (0 <= k < Z.of_nat n)%Z /\ el t k 0 <= X < el t (k + 1) 0).
  { induction n; intros Hn HX.
    - cbn in HX. lra.
    - destruct (Rle_dec (el t (Z.of_nat n) 0) X) as [L|L].
      + exists (Z.of_nat n). split; [lia|]. split; [assumption|]. now replace (Z.of_nat n + 1)%Z with (Z.of_nat (S n)) by lia.
      + destruct IHn as (k & Hk & K); [lia|lra|]. exists k. split; [lia|assumption]. }
  destruct (G (Z.to_nat (rows t - 1))) as (k & Hk & K); [lia|now rewrite Z2Nat.id by lia|].
  exists k. split; [lia|assumption].
Qed.

Lemma value_total t X j : shaped t -> described t -> constantstep t = false -> tmethod t = Linear ->
  (3 <= rows t)%Z -> (0 <= j < columns t)%Z -> el t 0 0 <= X < el t (rows t - 1) 0 ->
  exists y, Table_Value t X j = Ok y.
Proof.
  intros S D C M H3 Hj HX. destruct (bracket t X (proj1 D) ltac:(lia) HX) as (k & Hk & K).
  destruct (Z.eq_dec k (rows t - 2)) as [->|N].
  - eexists. apply (value_last t X j S D C M H3 Hj). lra.
  - rewrite (value_step t X k j S D C) by (try lia; assumption). rewrite M. eauto.
Qed.

Lemma row_ok s X : forall n j, (forall i, (j <= i < j + Z.of_nat n)%Z -> exists y, Table_Value s X i = Ok y) ->
  exists l, rebin_row s X n j = Ok l /\ List.length l = n
    /\ forall i, (i < n)%nat -> Table_Value s X (j + Z.of_nat i) = Ok (nth i l 0).
Proof.
  induction n as [|n IH]; intros j H.
  - exists []. cbn. repeat split. intros; lia.
  - destruct (H j ltac:(lia)) as [y Hy]. destruct (IH (j + 1)%Z) as (l & A & B & C); [intros i Hi; apply H; lia|].
    exists (y :: l). cbn [rebin_row]. rewrite Hy. cbn [bind]. rewrite A. cbn [bind]. split; [reflexivity|].
    split; [cbn; now rewrite B|]. intros [|i] Hi.
    + cbn [Z.of_nat nth]. now rewrite Z.add_0_r.
    + cbn [nth]. rewrite <- (C i) by lia. f_equal. lia.
Qed.

Lemma rows_ok s step (c : nat) : columns s = Z.of_nat (S c) ->
  forall n i, (forall k j, (i <= k < i + Z.of_nat n)%Z -> (1 <= j < columns s)%Z -> exists y, Table_Value s (min_x s + IZR k * step) j = Ok y) ->
  exists l, rebin_rows s step n i = Ok l /\ List.length l = (n * S c)%nat
    /\ forall k, (k < n)%nat -> nth (k * S c) l 0 = min_x s + IZR (i + Z.of_nat k) * step
       /\ forall j, (1 <= j <= c)%nat -> Table_Value s (min_x s + IZR (i + Z.of_nat k) * step) (Z.of_nat j) = Ok (nth (k * S c + j) l 0).
Proof.
  intros HC. induction n as [|n IH]; intros i H.
  - exists []. cbn. repeat split; intros; lia.
  - cbn [rebin_rows]. cbv zeta. rewrite HC. replace (Z.to_nat (Z.of_nat (S c) - 1)) with c by lia.
    destruct (row_ok s (min_x s + IZR i * step) c 1) as (r & A & B & C).
    { intros j Hj. apply H; lia. }
    destruct (IH (i + 1)%Z) as (l & D & E & F). { intros k j Hk Hj. apply H; lia. }
    rewrite A. cbn [bind]. rewrite D. cbn [bind]. eexists. split; [reflexivity|].
    assert (LR : List.length ((min_x s + IZR i * step) :: r) = S c) by (cbn; now rewrite B).
    split. { rewrite app_length, LR, E. lia. }
    intros [|k] Hk.
    + cbn [Z.of_nat Nat.mul Nat.add]. rewrite Z.add_0_r. split; [reflexivity|]. intros j Hj.
      destruct j as [|j]; [lia|]. rewrite app_nth1 by (rewrite LR; lia). cbn [nth].
      rewrite <- (C j) by lia. f_equal. lia.
    + destruct (F k ltac:(lia)) as [F1 F2]. replace (i + Z.of_nat (S k))%Z with (i + 1 + Z.of_nat k)%Z by lia. split.
      * rewrite app_nth2 by (rewrite LR; lia). rewrite LR. rewrite <- F1. f_equal. lia.
      * intros j Hj. rewrite app_nth2 by (rewrite LR; lia). rewrite LR. rewrite (F2 j Hj). do 2 f_equal. lia.
Qed.

Lemma ceil_spec x : IZR (ceilZ x) - 1 < x <= IZR (ceilZ x).
Proof. unfold ceilZ. rewrite opp_IZR. pose proof (floor_spec (- x)). lra. Qed.

Lemma rebin_rising t s : shaped t -> (2 <= rows t)%Z -> rising t -> bounded t -> min_x t <= max_x t -> step_x t <> 0 ->
  tmethod t = Linear -> Table_Stat t = Ok s -> constantstep s = false ->
  exists t', Table_Rebin t = Ok ((rows t' * columns t')%Z, t') /\ shaped t' /\ columns t' = columns t
    /\ (forall i, (0 <= i < rows t')%Z -> el t' i 0 = el t 0 0 + IZR i * step_x s /\ el t' i 0 < el t (rows t - 1) 0)
    /\ el t (rows t - 1) 0 <= el t 0 0 + IZR (rows t') * step_x s
    /\ (forall i j, (0 <= i < rows t')%Z -> (1 <= j < columns t)%Z -> Table_Value s (el t' i 0) j = Ok (el t' i j))
    /\ constantstep t' = false /\ max_x t' = el t (rows t - 1) 0.
Proof.
  intros S H2 HR HB HM Hs HL HS HC.
  destruct (stat_rising t S H2 HR HB HM) as (s' & A & SC & D & _ & F & (k0 & Hk0 & G) & CS).
  rewrite A in HS. injection HS as ->.
  destruct (shaped_pos t S) as [P Q].
  assert (H3 : (3 <= rows t)%Z).
  { destruct (Z.eq_dec (rows t) 2) as [E|]; [|lia]. exfalso.
    assert (constantstep s = true); [|congruence]. apply CS. intros k Hk. assert (k = k0) by lia. subst k.
    pose proof (step_pos t k0 HR Hk0). lra. }
  assert (PS : 0 < step_x s) by (rewrite G; apply step_pos; assumption).
  pose proof (same_shaped t s SC S) as S'. pose proof (same_el t s SC) as EL. destruct SC as (SD & SR & SCc & SM).
  destruct D as (DR & Dm & DX). rewrite EL in Dm, DX. rewrite SR in DX.
  assert (PR : el t 0 0 < el t (rows t - 1) 0).
  { pose proof (rising_lt t HR (Z.to_nat (rows t - 2)) 0 ltac:(lia) ltac:(lia)) as K.
    now replace (0 + Z.of_nat (Datatypes.S (Z.to_nat (rows t - 2))))%Z with (rows t - 1)%Z in K by lia. }
  unfold Table_Rebin. destruct S as (d & ED & _ & _ & LD). rewrite ED.
  rewrite (proj2 (Z.eqb_neq (rows t * columns t) 0)) by nia. rewrite eq_f by assumption. cbn [orb]. rewrite A. cbn [bind].
  rewrite HC. rewrite eq_f by lra. cbv zeta.
  set (L := ceilZ _). pose proof (ceil_spec (Rabs (max_x s - min_x s) / step_x s)) as C. fold L in C.
  rewrite DX, Dm in C. rewrite Rabs_right in C by lra.
  set (w := (el t (rows t - 1) 0 - el t 0 0) / step_x s) in *.
  assert (W : w * step_x s = el t (rows t - 1) 0 - el t 0 0) by (unfold w; field; lra).
  assert (WP : 0 < w) by (unfold w; apply Rdiv_lt_0_compat; lra).
  assert (LP : (0 < L)%Z) by (apply lt_IZR; lra).
  rewrite (proj2 (Z.leb_gt L 0)) by lia.
  assert (HX : forall i, (0 <= i < L)%Z -> el t 0 0 <= el t 0 0 + IZR i * step_x s < el t (rows t - 1) 0).
  { intros i Hi. pose proof (IZR_le 0 i ltac:(lia)). pose proof (IZR_le i (L - 1) ltac:(lia)) as U. rewrite minus_IZR in U. split; nra. }
  destruct (rows_ok s (step_x s) (Z.to_nat (columns t - 1))) with (n := Z.to_nat L) (i := 0%Z) as (l & R1 & R2 & R3).
  { rewrite SCc. lia. }
  { intros k j Hk Hj. apply (value_total s); try assumption.
    - split; [exact DR|]. rewrite !EL, SR. auto.
    - now rewrite SM.
    - now rewrite SR.
    - rewrite SCc in *. lia.
    - rewrite !EL, SR, Dm. apply HX. lia. }
  rewrite R1. cbn [bind]. rewrite SCc.
  exists (mkT (Some l) L (columns t) (max_x s) (min_x s) (step_x s) (monotonic s) false (tmethod s)). split; [reflexivity|].
  rewrite Dm in R3.
  replace (Datatypes.S (Z.to_nat (columns t - 1))) with (Z.to_nat (columns t)) in * by lia.
  assert (E0 : forall i, (0 <= i < L)%Z -> nth (Z.to_nat (i * columns t + 0)) l 0 = el t 0 0 + IZR i * step_x s).
  { intros i Hi. destruct (R3 (Z.to_nat i) ltac:(lia)) as [R3' _].
    replace (0 + Z.of_nat (Z.to_nat i))%Z with i in R3' by lia. rewrite <- R3'. f_equal. nia. }
  split.
  { exists l. cbn. split; [reflexivity|]. split; [assumption|]. split; [assumption|]. rewrite R2. nia. }
  split; [reflexivity|]. cbn [rows columns max_x constantstep]. split.
  { intros i Hi. unfold el at 1 3. cbn [data columns]. rewrite E0 by assumption. split; [reflexivity|]. apply HX. assumption. }
  split; [nra|]. split; [|split; [reflexivity|assumption]].
  intros i j Hi Hj. unfold el. cbn [data columns]. rewrite E0 by assumption.
  destruct (R3 (Z.to_nat i) ltac:(lia)) as [_ R4]. replace (0 + Z.of_nat (Z.to_nat i))%Z with i in R4 by lia.
  specialize (R4 (Z.to_nat j) ltac:(lia)). replace (Z.of_nat (Z.to_nat j)) with j in R4 by lia.
  rewrite R4. do 2 f_equal. nia.
Qed.

(* ---- falling first column ---- *)
Lemma extrema_some t : shaped t -> forall n i mn mx, (0 <= i)%Z -> (i + Z.of_nat n <= rows t)%Z ->
  exists r, extrema t true n i mn mx = Ok r.
Proof.
  intros S. induction n as [|n IH]; intros i mn mx Hi Hn; [eexists; reflexivity|].
  rewrite extrema_S. cbn [entry]. rewrite (entry_in t i S) by lia. cbn [bind]. apply IH; lia.
Qed.
Lemma least_false t : shaped t -> falling t -> min_x t < max_x t -> forall n i step mono, (0 <= i)%Z -> (i + Z.of_nat n <= rows t - 1)%Z ->
  (mono = false \/ (0 < n)%nat) -> exists s, least_step t true n i step mono = Ok (s, false).
Proof.
  intros S HF HM. induction n as [|n IH]; intros i step mono Hi Hn H.
  - destruct H as [->|H]; [eexists; reflexivity|lia].
  - rewrite least_S. cbn [entry]. rewrite !(entry_in t _ S) by lia. cbn [bind].
    specialize (HF i ltac:(lia)). rewrite (proj2 (Rltb_t ((max_x t - min_x t) * (el t (i + 1) 0 - el t i 0)) 0)) by nra. cbn [andb].
    replace (if mono then false else mono) with false by now destruct mono. apply IH; [lia..|now left].
Qed.

Lemma rebin_falling t : shaped t -> (2 <= rows t)%Z -> falling t -> min_x t < max_x t -> step_x t <> 0 ->
  exists t', Table_Rebin t = Ok ((rows t * columns t)%Z, t') /\ same_content t t' /\ constantstep t' = true.
Proof.
  intros S H2 HF HM Hs. destruct (shaped_pos t S) as [P Q].
  assert (G : exists t', Table_Stat t = Ok t' /\ same_content t t' /\ constantstep t' = true).
  { unfold Table_Stat.
    rewrite (proj2 (Z.eqb_neq (rows t) 0)), (proj2 (Z.eqb_neq (columns t) 0)), (proj2 (Z.eqb_neq (rows t) 1)) by lia.
    cbn [orb negb]. destruct (extrema_some t S (Z.to_nat (rows t)) 0%Z FLT_MAX (- FLT_MAX)) as [[mn mx] E]; [lia..|].
    rewrite E. cbn [bind]. rewrite (proj2 (Z.ltb_lt 1 (rows t))) by lia.
    destruct (least_false t S HF HM (Z.to_nat (rows t - 1)) 0%Z ((mx - mn) / IZR (rows t - 1)) true) as [s L]; [lia..|right; lia|].
    rewrite L. cbn [bind]. eexists. split; [reflexivity|]. split; [split; [reflexivity|auto]|reflexivity]. }
  destruct G as (t' & A & B & C). exists t'. split; [|auto].
  unfold Table_Rebin. destruct S as (d & ED & _). rewrite ED.
  rewrite (proj2 (Z.eqb_neq (rows t * columns t) 0)) by nia. rewrite eq_f by assumption. cbn [orb]. rewrite A. cbn [bind].
  rewrite C. destruct B as (_ & -> & -> & _). reflexivity.
Qed.

Lemma least_some t : shaped t -> forall n i step mono, (0 <= i)%Z -> (i + Z.of_nat n <= rows t - 1)%Z ->
  exists r, least_step t true n i step mono = Ok r.
Proof.
  intros S. induction n as [|n IH]; intros i step mono Hi Hn; [eexists; reflexivity|].
  rewrite least_S. cbn [entry]. rewrite !(entry_in t _ S) by lia. cbn [bind]. apply IH; lia.
Qed.
Lemma same_some t : shaped t -> forall n i step, (0 <= i)%Z -> (i + Z.of_nat n <= rows t - 1)%Z ->
  exists r, same_steps t true n i step = Ok r.
Proof.
  intros S. induction n as [|n IH]; intros i step Hi Hn; [eexists; reflexivity|].
  rewrite same_S. cbn [entry]. rewrite !(entry_in t _ S) by lia. cbn [bind].
  destruct (_ && _); [apply IH; lia|eexists; reflexivity].
Qed.
Lemma stat_some t : shaped t -> (2 <= rows t)%Z -> exists t', Table_Stat t = Ok t'.
Proof.
  intros S H2. destruct (shaped_pos t S) as [P Q]. unfold Table_Stat.
  rewrite (proj2 (Z.eqb_neq (rows t) 0)), (proj2 (Z.eqb_neq (columns t) 0)), (proj2 (Z.eqb_neq (rows t) 1)) by lia.
  cbn [orb negb]. destruct (extrema_some t S (Z.to_nat (rows t)) 0%Z FLT_MAX (- FLT_MAX)) as [[mn mx] E]; [lia..|].
  rewrite E. cbn [bind]. rewrite (proj2 (Z.ltb_lt 1 (rows t))) by lia.
  destruct (least_some t S (Z.to_nat (rows t - 1)) 0%Z ((mx - mn) / IZR (rows t - 1)) true) as [[s b] L]; [lia..|].
  rewrite L. cbn [bind]. destruct b; [|eexists; reflexivity].
  destruct (same_some t S (Z.to_nat (rows t - 1)) 0%Z s) as [c C]; [lia..|]. rewrite C. eexists. reflexivity.
Qed.
