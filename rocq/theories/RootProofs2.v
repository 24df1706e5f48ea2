(** Proofs for C65: equal steps, and three things that do not hold. *)
From Coq Require Import Reals Lra.
From Verif Require Import Base RotModel ShapeModel ChanModel RootModel RootSpec RootProofs.
Open Scope R_scope.

Lemma UNUSED_eq : UNUSED = -111 * 10 ^ 28. Proof. unfold UNUSED. ring. Qed.
Lemma grid_eq a b n i : (0 < n)%nat -> a + (b - a) / INR n * INR i = grid a b n i.
Proof. intros N. unfold grid. field. apply not_0_INR. lia. Qed.
Lemma grid_within a b n i : (i <= n)%nat -> (0 < n)%nat -> within a b (grid a b n i).
Proof.
  intros I N. unfold grid. assert (P : 0 < INR n) by (apply lt_0_INR; lia). assert (0 <= INR i / INR n <= 1).
  { split; [apply Rmult_le_pos; [apply pos_INR|apply Rlt_le, Rinv_0_lt_compat, P]|]. apply (Rmult_le_reg_r (INR n)); [exact P|]. unfold Rdiv. rewrite Rmult_assoc, Rinv_l by lra. apply le_INR in I. lra. }
  replace ((b - a) * INR i / INR n) with ((b - a) * (INR i / INR n)) by (unfold Rdiv; ring). set (t := INR i / INR n) in *. clearbody t. unfold within, Rmin, Rmax. destruct (Rle_dec a b); nra.
Qed.
Lemma grid_step a b n i : (0 < n)%nat -> grid a b n (i + 1) - grid a b n i = (b - a) / INR n.
Proof. intros N. unfold grid. rewrite plus_INR. cbn [INR]. field. apply not_0_INR. lia. Qed.
Lemma root_of_step_spec f xacc x1 x2 n i : (i < n)%nat -> 0 < xacc -> UNUSED + xacc < Rmin x1 x2 -> Rabs (x2 - x1) <= INR n * (2 ^ 59 * xacc) ->
  let r := root_of_step (ZRidd_solve xacc) f x1 ((x2 - x1) / INR n) i in
  (changes_sign f (grid x1 x2 n i) (grid x1 x2 n (i + 1)) -> exists x, r = [x] /\ within (grid x1 x2 n i) (grid x1 x2 n (i + 1)) x /\ answer f xacc (grid x1 x2 n i) (grid x1 x2 n (i + 1)) x) /\
  (~ changes_sign f (grid x1 x2 n i) (grid x1 x2 n (i + 1)) -> r = []).
Proof.
  intros I X U W r. assert (N : (0 < n)%nat) by lia. unfold r, root_of_step. rewrite !grid_eq by exact N. unfold ZRidd_solve. split; intros H.
  - apply sign_cases in H. destruct (zridd_finds f (grid x1 x2 n i) (grid x1 x2 n (i + 1)) xacc H) as (x & E).
    + pose proof (grid_within x1 x2 n i ltac:(lia) N) as [A _]. pose proof (grid_within x1 x2 n (i + 1) ltac:(lia) N) as [B _]. unfold Rmin at 1. destruct (Rle_dec (grid x1 x2 n i) (grid x1 x2 n (i + 1))); lra.
    + exact X.
    + rewrite grid_step by exact N. assert (P : 0 < INR n) by (apply lt_0_INR; lia). unfold Rdiv. rewrite Rabs_mult, (Rabs_right (/ INR n)) by (left; now apply Rinv_0_lt_compat).
      apply (Rmult_le_reg_r (INR n)); [exact P|]. rewrite Rmult_assoc, Rinv_l by lra. lra.
    + rewrite E. exists x. split; [reflexivity|]. apply zridd_found in E. tauto.
  - rewrite zridd_failed; [reflexivity|]. apply Rnot_le_lt. intros K. now apply H, sign_cases.
Qed.
Lemma changes_dec f a b : {changes_sign f a b} + {~ changes_sign f a b}.
Proof. destruct (Rle_dec (f a * f b) 0) as [H|H]; [left; now apply sign_cases|right; intros K; now apply H, sign_cases]. Qed.

(** A function for which the answer is not near a root. *)
Definition spike (x : R) : R := -970 + (971 / 2) * x + (311 / 8) * Rabs (x - 1) - (6995 / 8) * Rabs (x - 9 / 5) + 1320 * Rabs (x - 19 / 10).
Ltac abs_val := repeat match goal with |- context [Rabs ?a] => first [rewrite (Rabs_right a) by lra | rewrite (Rabs_left a) by lra] end.
Lemma spike_0 : spike 0 = 3. Proof. unfold spike. abs_val. lra. Qed.
Lemma spike_1 : spike 1 = 4. Proof. unfold spike. abs_val. lra. Qed.
Lemma spike_2 : spike 2 = -3. Proof. unfold spike. abs_val. lra. Qed.
Lemma spike_a : spike (9 / 5) = 67. Proof. unfold spike. abs_val. lra. Qed.
Lemma spike_b : spike (19 / 10) = -100. Proof. unfold spike. abs_val. lra. Qed.
Lemma spike_continuous x : continuity_pt spike x.
Proof.
  assert (K : forall c k, continuity_pt (fun y => k * Rabs (y - c)) x).
  { intros c k. apply (continuity_pt_mult (fun _ => k) (fun y => Rabs (y - c))); [apply derivable_continuous_pt, derivable_pt_const|].
    apply (continuity_pt_comp (fun y => y - c) Rabs); [|apply Rcontinuity_abs]. apply (continuity_pt_minus (fun y => y) (fun _ => c)); apply derivable_continuous_pt; [apply derivable_pt_id|apply derivable_pt_const]. }
  unfold spike.
  apply (continuity_pt_plus (fun x => -970 + (971 / 2) * x + (311 / 8) * Rabs (x - 1) - (6995 / 8) * Rabs (x - 9 / 5)) (fun x => 1320 * Rabs (x - 19 / 10))); [|apply K].
  apply (continuity_pt_minus (fun x => -970 + (971 / 2) * x + (311 / 8) * Rabs (x - 1)) (fun x => (6995 / 8) * Rabs (x - 9 / 5))); [|apply K].
  apply (continuity_pt_plus (fun x => -970 + (971 / 2) * x) (fun x => (311 / 8) * Rabs (x - 1))); [|apply K].
  apply derivable_continuous_pt. reg.
Qed.
Lemma spike_far x : spike x = 0 -> 1 / 40 < Rabs (x - 9 / 5).
Proof. unfold spike, Rabs. destruct (Rcase_abs (x - 1)), (Rcase_abs (x - 9 / 5)), (Rcase_abs (x - 19 / 10)); lra. Qed.
Lemma sqrt_is a b : 0 <= b -> a = b * b -> sqrt a = b. Proof. intros B ->. now apply sqrt_square. Qed.
Lemma spike_answer : zridd spike 0 2 (1 / 1000) = Found (9 / 5).
Proof.
  assert (UN : UNUSED < - 100) by (rewrite UNUSED_eq; lra).
  rewrite zridd_loop by (rewrite spike_0, spike_2; lra). rewrite spike_0, spike_2. change 59%nat with (S (S 57)). cbn [ridder_loop].
  assert (S1 : ridder_step spike (1 / 1000) (mkB 0 3 2 (-3) UNUSED) = inr (mkB (9 / 5) 67 2 (-3) (9 / 5))).
  { unfold ridder_step. cbn [b_xl b_xh b_ans b_fl b_fh]. replace (1 / 2 * (0 + 2)) with 1 by lra. rewrite spike_1. unfold next_x. cbn [b_xl b_xh b_ans b_fl b_fh].
    rewrite (proj2 (Rleb_iff 0 _)) by lra. rewrite (sqrt_is _ 5) by lra. rewrite (proj2 (Reqb_not 5 0)) by lra. rewrite (proj2 (Rleb_iff (-3) 3)) by lra.
    replace (1 + (1 - 0) * (1 * 4 / 5)) with (9 / 5) by lra. rewrite (proj2 (Rleb_not _ (1 / 1000))) by (abs_val; lra). rewrite spike_a. rewrite (proj2 (Reqb_not 67 0)) by lra.
    unfold sign. rewrite (proj2 (Rleb_iff 0 67)) by lra. abs_val. rewrite (proj2 (Reqb_iff 4 4)) by lra. rewrite (proj2 (Reqb_iff 3 3)) by lra. rewrite (proj2 (Reqb_not _ (-3))) by lra. cbn [negb b_xl b_xh].
    rewrite (proj2 (Rleb_not _ (1 / 1000))) by (abs_val; lra). reflexivity. }
  rewrite S1.
  assert (S2 : ridder_step spike (1 / 1000) (mkB (9 / 5) 67 2 (-3) (9 / 5)) = inl (Found (9 / 5))).
  { unfold ridder_step. cbn [b_xl b_xh b_ans b_fl b_fh]. replace (1 / 2 * (9 / 5 + 2)) with (19 / 10) by lra. rewrite spike_b. unfold next_x. cbn [b_xl b_xh b_ans b_fl b_fh].
    rewrite (proj2 (Rleb_iff 0 _)) by lra. rewrite (sqrt_is _ 101) by lra. rewrite (proj2 (Reqb_not 101 0)) by lra. rewrite (proj2 (Rleb_iff (-3) 67)) by lra.
    rewrite (proj2 (Rleb_iff _ (1 / 1000))) by (abs_val; lra). unfold check_answer. rewrite (proj2 (Reqb_not _ UNUSED)) by lra. reflexivity. }
  rewrite S2. reflexivity.
Qed.
