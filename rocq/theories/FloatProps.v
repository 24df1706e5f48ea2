(** The integer decisions that the code makes through double arithmetic are exact below 2^53 (supports C10 and C12).
    Doubles are modelled by Flocq's rounding to nearest even in the FLT format of binary64. *)
From Coq Require Import ZArith Reals Lra Lia Psatz.
From Flocq Require Import Core.
From Verif Require Import Base RunModel RunSpec.
Open Scope R_scope.

(* one IEEE binary64 operation: the exact result, rounded to nearest even *)
Definition binary64 : R -> R := round radix2 (FLT_exp (-1074) 53) ZnearestE.

Local Instance prec53 : Prec_gt_0 53. Proof. reflexivity. Qed.
Local Notation format := (generic_format radix2 (FLT_exp (-1074) 53)).

Lemma format_int (k : Z) : (Z.abs k <= 2 ^ 53)%Z -> format (IZR k).
Proof.
  intro H. destruct (Z.eq_dec (Z.abs k) (2 ^ 53)) as [E|E].
  - assert (Hp : format (IZR (2 ^ 53))).
    { change (IZR (2 ^ 53)) with (IZR (Zpower radix2 53)). rewrite IZR_Zpower by lia.
      apply generic_format_bpow. unfold FLT_exp. lia. }
    assert (Hk : (k = 2 ^ 53 \/ k = - (2 ^ 53))%Z) by lia.
    destruct Hk as [->| ->]; [exact Hp|]. rewrite opp_IZR. apply generic_format_opp. exact Hp.
  - apply generic_format_FLT. exists (Float radix2 k 0).
    + unfold F2R. cbn [Fnum Fexp bpow]. ring.
    + cbn [Fnum]. change (radix2 ^ 53)%Z with (2 ^ 53)%Z. lia.
    + cbn. lia.
Qed.

Lemma ulp_half_int (j : Z) : (1 <= j)%Z -> / 2 * ulp radix2 (FLT_exp (-1074) 53) (IZR j) <= IZR j * / IZR (2 ^ 53).
Proof.
  intro Hj. assert (H : ulp radix2 (FLT_exp (-1074) 53) (IZR j) <= Rabs (IZR j) * bpow radix2 (1 - 53)).
  { apply ulp_FLT_le. rewrite Rabs_pos_eq by (apply IZR_le; lia).
    apply Rle_trans with 1; [|apply IZR_le; lia]. change 1 with (bpow radix2 0). apply bpow_le. lia. }
  rewrite Rabs_pos_eq in H by (apply IZR_le; lia).
  replace (bpow radix2 (1 - 53)) with (2 * / IZR (2 ^ 53)) in H.
  - lra.
  - change (1 - 53)%Z with (- (52))%Z. rewrite bpow_opp. rewrite <- IZR_Zpower by lia.
    change (Zpower radix2 52) with (2 ^ 52)%Z. replace (2 ^ 53)%Z with (2 * 2 ^ 52)%Z by reflexivity.
    rewrite mult_IZR. field. apply IZR_neq. lia.
Qed.

Lemma round_above (j r n : Z) : (0 <= j)%Z -> (1 <= n)%Z -> (r < 2 ^ 53)%Z -> (j * n < r)%Z -> (n <= 2 ^ 53)%Z ->
  IZR j < binary64 (IZR r / IZR n).
Proof.
  intros Hj Hn Hr Hjr Hn2.
  assert (Hn0 : 0 < IZR n) by (apply IZR_lt; lia).
  assert (Hx : IZR j + / IZR n <= IZR r / IZR n).
  { apply Rmult_le_reg_r with (IZR n); [assumption|].
    replace ((IZR j + / IZR n) * IZR n) with (IZR j * IZR n + 1) by (field; lra).
    replace (IZR r / IZR n * IZR n) with (IZR r) by (field; lra).
    rewrite <- mult_IZR, <- plus_IZR. apply IZR_le. lia. }
  assert (Hin : 0 < / IZR n) by (apply Rinv_0_lt_compat; assumption).
  destruct (Z.eq_dec j 0) as [->|Hj0].
  - apply Rlt_le_trans with (bpow radix2 (-53)); [apply bpow_gt_0|].
    unfold binary64. apply round_ge_generic; try typeclasses eauto.
    + apply generic_format_bpow. unfold FLT_exp. lia.
    + apply Rle_trans with (/ IZR n).
      * change (-53)%Z with (- (53))%Z. rewrite bpow_opp. apply Rinv_le; [assumption|].
        rewrite <- IZR_Zpower by lia. apply IZR_le. exact Hn2.
      * lra.
  - destruct (Rlt_or_le (IZR j) (binary64 (IZR r / IZR n))) as [|Hle]; [assumption|exfalso].
    assert (Hge : IZR j <= binary64 (IZR r / IZR n)).
    { apply round_ge_generic; try typeclasses eauto; [|lra]. apply format_int. nia. }
    assert (E : binary64 (IZR r / IZR n) = IZR j) by lra.
    pose proof (error_le_half_ulp_round radix2 (FLT_exp (-1074) 53) (fun z => negb (Z.even z)) (IZR r / IZR n)) as Herr.
    change (round radix2 (FLT_exp (-1074) 53) (Znearest (fun z => negb (Z.even z))) (IZR r / IZR n))
      with (binary64 (IZR r / IZR n)) in Herr. rewrite E in Herr.
    pose proof (ulp_half_int j ltac:(lia)) as Hu.
    assert (Hab : IZR r / IZR n - IZR j <= Rabs (IZR j - IZR r / IZR n)) by (rewrite Rabs_minus_sym; apply Rle_abs).
    assert (Hc : / IZR n <= IZR j * / IZR (2 ^ 53)) by lra.
    assert (Hp : 0 < IZR (2 ^ 53)) by (apply IZR_lt; lia).
    assert (Hc2 : IZR (2 ^ 53) <= IZR (j * n)).
    { rewrite mult_IZR. apply Rmult_le_reg_r with (/ IZR n * / IZR (2 ^ 53)).
      - apply Rmult_lt_0_compat; [assumption|apply Rinv_0_lt_compat; assumption].
      - replace (IZR (2 ^ 53) * (/ IZR n * / IZR (2 ^ 53))) with (/ IZR n) by (field; split; lra).
        replace (IZR j * IZR n * (/ IZR n * / IZR (2 ^ 53))) with (IZR j * / IZR (2 ^ 53)) by (field; split; lra). assumption. }
    apply le_IZR in Hc2. lia.
Qed.

Lemma round_below (k r n : Z) : (1 <= k)%Z -> (1 <= n)%Z -> (k * n < 2 ^ 53)%Z -> (r < k * n)%Z -> (0 <= r)%Z ->
  binary64 (IZR r / IZR n) < IZR k.
Proof.
  intros Hk Hn Hkn Hr Hr0.
  assert (Hn0 : 0 < IZR n) by (apply IZR_lt; lia).
  assert (Hin : 0 < / IZR n) by (apply Rinv_0_lt_compat; assumption).
  assert (Hx : IZR r / IZR n + / IZR n <= IZR k).
  { apply Rmult_le_reg_r with (IZR n); [assumption|].
    replace ((IZR r / IZR n + / IZR n) * IZR n) with (IZR r + 1) by (field; lra).
    rewrite <- mult_IZR, <- plus_IZR. apply IZR_le. lia. }
  destruct (Rlt_or_le (binary64 (IZR r / IZR n)) (IZR k)) as [|Hge]; [assumption|exfalso].
  assert (Hle : binary64 (IZR r / IZR n) <= IZR k).
  { apply round_le_generic; try typeclasses eauto; [|lra]. apply format_int. nia. }
  assert (E : binary64 (IZR r / IZR n) = IZR k) by lra.
  pose proof (error_le_half_ulp_round radix2 (FLT_exp (-1074) 53) (fun z => negb (Z.even z)) (IZR r / IZR n)) as Herr.
  change (round radix2 (FLT_exp (-1074) 53) (Znearest (fun z => negb (Z.even z))) (IZR r / IZR n))
    with (binary64 (IZR r / IZR n)) in Herr. rewrite E in Herr.
  pose proof (ulp_half_int k ltac:(lia)) as Hu.
  pose proof (Rle_abs (IZR k - IZR r / IZR n)) as Hab.
  assert (Hc : / IZR n <= IZR k * / IZR (2 ^ 53)) by lra.
  assert (Hp : 0 < IZR (2 ^ 53)) by (apply IZR_lt; lia).
  assert (Hc2 : IZR (2 ^ 53) <= IZR (k * n)).
  { rewrite mult_IZR. apply Rmult_le_reg_r with (/ IZR n * / IZR (2 ^ 53)).
    - apply Rmult_lt_0_compat; [assumption|apply Rinv_0_lt_compat; assumption].
    - replace (IZR (2 ^ 53) * (/ IZR n * / IZR (2 ^ 53))) with (/ IZR n) by (field; split; lra).
      replace (IZR k * IZR n * (/ IZR n * / IZR (2 ^ 53))) with (IZR k * / IZR (2 ^ 53)) by (field; split; lra). assumption. }
  apply le_IZR in Hc2. lia.
Qed.

(** int(ceil(residual*1./nbins)) in double arithmetic is the exact ceiling of the quotient. *)
Theorem C10_float_ceil_exact :
  forall residual nbins : Z, (0 <= residual < 2 ^ 53)%Z -> (1 <= nbins <= 2 ^ 53)%Z ->
  Zceil (binary64 (IZR residual / IZR nbins)) = ceil_div residual nbins.
Proof.
  intros r n Hr Hn. set (k := ceil_div r n).
  assert (Hk : ((k - 1) * n < r <= k * n)%Z).
  { unfold k, ceil_div. pose proof (Z.div_mod (- r) n ltac:(lia)) as D.
    pose proof (Z.mod_pos_bound (- r) n ltac:(lia)) as B. nia. }
  assert (Hn0 : 0 < IZR n) by (apply IZR_lt; lia).
  assert (Hup : binary64 (IZR r / IZR n) <= IZR k).
  { apply round_le_generic; try typeclasses eauto.
    - apply format_int. nia.
    - apply Rmult_le_reg_r with (IZR n); [assumption|]. replace (IZR r / IZR n * IZR n) with (IZR r) by (field; lra).
      rewrite <- mult_IZR. apply IZR_le. lia. }
  apply Zceil_imp. split; [|assumption].
  destruct (Z.le_gt_cases 1 k) as [H1|H1].
  - apply round_above; lia.
  - assert (r = 0 /\ k = 0)%Z as [E1 E2] by nia. rewrite E1, E2.
    unfold Rdiv. rewrite Rmult_0_l. unfold binary64. rewrite round_0 by typeclasses eauto. apply IZR_lt. lia.
Qed.
Print Assumptions C10_float_ceil_exact.

(** int(ncount / buffer_size) in double arithmetic is the exact floor of the quotient. *)
Theorem C12_float_floor_exact :
  forall ncount b : Z, (0 <= ncount)%Z -> (1 <= b)%Z -> (ncount + b < 2 ^ 53)%Z ->
  Zfloor (binary64 (IZR ncount / IZR b)) = (ncount / b)%Z.
Proof.
  intros r n Hr Hn Hs. set (k := (r / n)%Z).
  assert (Hk : (k * n <= r < (k + 1) * n)%Z).
  { unfold k. pose proof (Z.div_mod r n ltac:(lia)) as D. pose proof (Z.mod_pos_bound r n ltac:(lia)) as B. nia. }
  assert (Hn0 : 0 < IZR n) by (apply IZR_lt; lia).
  assert (Hk0 : (0 <= k)%Z) by (apply Z.div_pos; lia).
  apply Zfloor_imp. split.
  - apply round_ge_generic; try typeclasses eauto.
    + apply format_int. nia.
    + apply Rmult_le_reg_r with (IZR n); [assumption|]. replace (IZR r / IZR n * IZR n) with (IZR r) by (field; lra).
      rewrite <- mult_IZR. apply IZR_le. lia.
  - apply round_below; lia.
Qed.
Print Assumptions C12_float_floor_exact.

(* beyond 2^53 the double quotient can lose the remainder: the bounds are not idle *)
Example C10_float_example : ceil_div 10 4 = 3%Z /\ (0 <= 10 < 2 ^ 53)%Z /\ (1 <= 4 <= 2 ^ 53)%Z.
Proof. repeat split; lia. Qed.
Example C12_float_example : (23 / 5 = 4)%Z /\ (23 + 5 < 2 ^ 53)%Z.
Proof. split; [reflexivity|lia]. Qed.
