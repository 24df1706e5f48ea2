(** Proofs for C67: the integral of the form factor of a sphere. *)
From Coq Require Import Reals Lra Lia.
From Coquelicot Require Import Coquelicot.
Open Scope R_scope.

Definition phi1 (x : R) : R := sin x - x * cos x.
Definition ff (x : R) : R := 3 * phi1 x / (x * x * x).
Definition ff2 (x : R) : R := if Req_EM_T x 0 then 1 else ff x * ff x.
Definition caught1 (x : R) : R := 1 - (sin x / x) ^ 2 - (phi1 x / x ^ 2) ^ 2.

Lemma grows (g dg : R -> R) : (forall x, is_derive g x (dg x)) -> g 0 = 0 -> (forall x, 0 <= x -> 0 <= dg x) -> forall x, 0 <= x -> 0 <= g x.
Proof.
  intros D G0 P x X. destruct (MVT_gen g 0 x dg) as (c & C & E).
  - intros y _. apply D.
  - intros y _. apply continuity_pt_filterlim. apply (ex_derive_continuous g y). now exists (dg y).
  - rewrite Rmin_left, Rmax_right in C by lra. rewrite G0 in E. assert (0 <= dg c) by (apply P; lra). nra.
Qed.
Lemma sin_le x : 0 <= x -> sin x <= x.
Proof. intros [H|<-]; [left; now apply sin_lt_x|rewrite sin_0; lra]. Qed.
Lemma cos_ge x : 0 <= x -> 1 - x ^ 2 / 2 <= cos x.
Proof.
  intros H. assert (0 <= cos x - 1 + x ^ 2 / 2); [|lra]. revert x H. apply (grows _ (fun x => - sin x + x)).
  - intros x. auto_derive; [trivial|]. field.
  - rewrite cos_0. field.
  - intros x X. pose proof (sin_le x X). lra.
Qed.
Lemma sin_ge x : 0 <= x -> x - x ^ 3 / 6 <= sin x.
Proof.
  intros H. assert (0 <= sin x - x + x ^ 3 / 6); [|lra]. revert x H. apply (grows _ (fun x => cos x - 1 + x ^ 2 / 2)).
  - intros x. auto_derive; [trivial|]. field.
  - rewrite sin_0. field.
  - intros x X. pose proof (cos_ge x X). lra.
Qed.
Lemma phi_le x : 0 <= x -> phi1 x <= x ^ 3 / 3.
Proof.
  intros H. assert (0 <= x ^ 3 / 3 - phi1 x); [|lra]. revert x H. apply (grows _ (fun x => x ^ 2 - x * sin x)).
  - intros x. unfold phi1. auto_derive; [trivial|]. field.
  - unfold phi1. rewrite sin_0. field.
  - intros x X. pose proof (sin_le x X). nra.
Qed.
Lemma phi_ge x : 0 <= x -> x ^ 3 / 3 - x ^ 5 / 30 <= phi1 x.
Proof.
  intros H. assert (0 <= phi1 x - x ^ 3 / 3 + x ^ 5 / 30); [|lra]. revert x H. apply (grows _ (fun x => x * (sin x - x + x ^ 3 / 6))).
  - intros x. unfold phi1. auto_derive; [trivial|]. field.
  - unfold phi1. rewrite sin_0. field.
  - intros x X. pose proof (sin_ge x X). apply Rmult_le_pos; lra.
Qed.
Lemma ff_near x : 0 < x -> 1 - x ^ 2 / 10 <= ff x <= 1.
Proof.
  intros X. unfold ff. assert (P : 0 < x * x * x) by (repeat apply Rmult_lt_0_compat; assumption). pose proof (phi_le x ltac:(lra)). pose proof (phi_ge x ltac:(lra)).
  split; apply (Rmult_le_reg_r (x * x * x)); try exact P; replace (3 * phi1 x / (x * x * x) * (x * x * x)) with (3 * phi1 x) by (field; lra); lra.
Qed.
Lemma ff_even x : ff (- x) = ff x.
Proof. unfold ff, phi1. rewrite sin_neg, cos_neg. destruct (Req_dec x 0) as [->|N]; [rewrite Ropp_0, sin_0; unfold Rdiv; ring|]. field. exact N. Qed.
Lemma ff2_even x : ff2 (- x) = ff2 x.
Proof. unfold ff2. destruct (Req_EM_T (- x) 0), (Req_EM_T x 0); try lra. rewrite ff_even. reflexivity. Qed.
Lemma ff2_near x : Rabs x <= 1 -> Rabs (ff2 x - 1) <= x ^ 2 / 5.
Proof.
  assert (G : forall x, 0 < x <= 1 -> Rabs (ff2 x - 1) <= x ^ 2 / 5).
  { intros y Y. unfold ff2. destruct (Req_EM_T y 0) as [E|_]; [lra|]. pose proof (ff_near y ltac:(lra)) as F. assert (0 <= y ^ 2 <= 1) by (cbn [pow]; nra). apply Rabs_le. split; nra. }
  intros H. destruct (Rtotal_order x 0) as [L|[->|L]].
  - rewrite <- ff2_even. replace (x ^ 2) with ((- x) ^ 2) by ring. apply G. rewrite Rabs_left in H by lra. lra.
  - unfold ff2. destruct (Req_EM_T 0 0); [|lra]. rewrite Rminus_diag_eq, Rabs_R0 by reflexivity. lra.
  - apply G. rewrite Rabs_right in H by lra. lra.
Qed.
Lemma ff2_cont x : continuous ff2 x.
Proof.
  destruct (Req_dec x 0) as [->|N].
  - apply continuity_pt_filterlim. intros eps E. exists (Rmin 1 eps). split; [apply Rmin_glb_lt; lra|]. intros y [_ D]. unfold dist, R_met, R_dist in *. cbn in *. unfold R_dist in *. rewrite Rminus_0_r in D.
    assert (D1 : Rabs y < 1) by (eapply Rlt_le_trans; [exact D|apply Rmin_l]). assert (D2 : Rabs y < eps) by (eapply Rlt_le_trans; [exact D|apply Rmin_r]).
    replace (ff2 0) with 1 by (unfold ff2; destruct (Req_EM_T 0 0); [reflexivity|lra]). pose proof (ff2_near y ltac:(lra)) as F. pose proof (Rabs_pos y). assert (Y2 : y ^ 2 = Rabs y * Rabs y) by (rewrite <- Rabs_mult, Rabs_right; [ring|nra]). rewrite Y2 in F. nra.
  - apply (continuous_ext_loc _ (fun x => ff x * ff x)).
    + assert (P : 0 < Rabs x) by now apply Rabs_pos_lt. exists (mkposreal _ P). intros y B. unfold ff2. destruct (Req_EM_T y 0) as [->|]; [|reflexivity]. exfalso.
      change (Rabs (0 - x) < Rabs x) in B. rewrite Rabs_minus_sym, Rminus_0_r in B. lra.
    + apply (ex_derive_continuous (fun x => ff x * ff x)). unfold ff, phi1. auto_derive. repeat split; try exact N; repeat apply Rmult_integral_contrapositive_currified; exact N.
Qed.
Lemma caught_derive x : 0 < x -> is_derive caught1 x (4 / 9 * (x * ff2 x)).
Proof.
  intros X. unfold caught1, phi1. auto_derive; [repeat split; try lra; nra|]. unfold ff2. destruct (Req_EM_T x 0) as [|_]; [lra|]. unfold ff, phi1. field. lra.
Qed.
Lemma caught_small x : 0 < x <= 1 -> Rabs (caught1 x) <= x.
Proof.
  intros X. unfold caught1. assert (A : 1 - x ^ 2 / 6 <= sin x / x <= 1).
  { pose proof (sin_le x ltac:(lra)). pose proof (sin_ge x ltac:(lra)). split; apply (Rmult_le_reg_r x); try lra; replace (sin x / x * x) with (sin x) by (field; lra); cbn [pow] in *; lra. }
  assert (B : phi1 x / x ^ 2 = x / 3 * ff x) by (unfold ff; field; lra). pose proof (ff_near x ltac:(lra)) as F. rewrite B. set (s := sin x / x) in *. set (f := ff x) in *. clearbody s f. clear B.
  assert (X2 : x ^ 2 <= x) by (cbn [pow]; nra). assert (X0 : 0 <= x ^ 2) by (cbn [pow]; nra). assert (S2 : 1 - x ^ 2 / 3 <= s ^ 2 <= 1) by (cbn [pow]; nra). assert (F2 : 0 <= (x / 3 * f) ^ 2 <= x ^ 2 / 9).
  { replace ((x / 3 * f) ^ 2) with (x ^ 2 / 9 * (f * f)) by field. assert (0 <= f * f <= 1) by nra. split; nra. }
  apply Rabs_le. split; lra.
Qed.
Lemma xff_cont x : continuous (fun x => x * ff2 x) x.
Proof. apply (continuous_mult (fun x => x) ff2); [apply continuous_id|apply ff2_cont]. Qed.
Lemma xff_int X : 0 < X -> is_RInt (fun x => x * ff2 x) 0 X (9 / 4 * caught1 X).
Proof.
  intros P. assert (EX : forall a b, ex_RInt (fun x => x * ff2 x) a b) by (intros a b; apply (@ex_RInt_continuous R_CompleteNormedModule); intros z _; apply xff_cont).
  assert (PIECE : forall e, 0 < e <= X -> RInt (fun x => x * ff2 x) e X = 9 / 4 * caught1 X - 9 / 4 * caught1 e).
  { intros e E. apply is_RInt_unique. apply (is_RInt_derive (fun x => 9 / 4 * caught1 x) (fun x => x * ff2 x)).
    - intros x Hx. rewrite Rmin_left, Rmax_right in Hx by lra. replace (x * ff2 x) with (9 / 4 * (4 / 9 * (x * ff2 x))) by field. apply is_derive_scal. apply caught_derive. lra.
    - intros x _. apply xff_cont. }
  assert (SMALL : forall e, 0 < e <= 1 -> Rabs (RInt (fun x => x * ff2 x) 0 e) <= 2 * e).
  { intros e E. replace (2 * e) with ((e - 0) * 2) by ring. apply (norm_RInt_le_const (fun x => x * ff2 x) 0 e); [lra| |apply (@RInt_correct R_CompleteNormedModule), EX].
    intros x Hx. change (Rabs (x * ff2 x) <= 2). pose proof (ff2_near x ltac:(rewrite Rabs_right; lra)) as F. assert (0 <= x ^ 2 <= 1) by (cbn [pow]; nra). apply Rabs_le_between in F. apply Rabs_le. nra. }
  assert (ALL : RInt (fun x => x * ff2 x) 0 X = 9 / 4 * caught1 X).
  { set (d := RInt (fun x => x * ff2 x) 0 X - 9 / 4 * caught1 X). assert (K : forall e, 0 < e <= Rmin 1 X -> Rabs d <= 5 * e).
    { intros e E. assert (e <= 1) by (eapply Rle_trans; [apply E|apply Rmin_l]). assert (e <= X) by (eapply Rle_trans; [apply E|apply Rmin_r]).
      assert (CH : RInt (fun x => x * ff2 x) 0 X = RInt (fun x => x * ff2 x) 0 e + RInt (fun x => x * ff2 x) e X) by (symmetry; apply (RInt_Chasles (fun x => x * ff2 x)); apply EX).
      unfold d. rewrite CH, PIECE by lra. replace (RInt (fun x => x * ff2 x) 0 e + (9 / 4 * caught1 X - 9 / 4 * caught1 e) - 9 / 4 * caught1 X) with (RInt (fun x => x * ff2 x) 0 e - 9 / 4 * caught1 e) by ring.
      pose proof (SMALL e ltac:(lra)) as S. pose proof (caught_small e ltac:(lra)) as C. apply Rabs_le_between in S. apply Rabs_le_between in C. apply Rabs_le. lra. }
    destruct (Req_dec d 0) as [Z|Z]; [unfold d in Z; lra|]. exfalso. pose proof (Rabs_pos_lt d Z) as PD. assert (M : 0 < Rmin 1 X) by (apply Rmin_glb_lt; lra). set (e := Rmin (Rmin 1 X) (Rabs d / 10)).
    assert (E : 0 < e <= Rmin 1 X) by (split; [apply Rmin_glb_lt; lra|apply Rmin_l]). specialize (K e E). assert (e <= Rabs d / 10) by apply Rmin_r. lra. }
  rewrite <- ALL. apply (@RInt_correct R_CompleteNormedModule), EX.
Qed.
(** The same as a function of the cosine. *)
Lemma ff2_sqrt_cont A c : continuous (fun c => ff2 (A * sqrt (2 * (1 - c)))) c.
Proof.
  apply (continuous_comp (fun c => A * sqrt (2 * (1 - c))) ff2); [|apply ff2_cont]. apply (continuous_mult (fun _ => A) (fun c => sqrt (2 * (1 - c)))); [apply continuous_const|].
  apply (continuous_comp (fun c => 2 * (1 - c)) sqrt); [|apply continuous_sqrt]. apply (ex_derive_continuous (fun c => 2 * (1 - c))). auto_derive. trivial.
Qed.
Lemma cap_int A h : 0 < A -> h < 1 -> is_RInt (fun c => ff2 (A * sqrt (2 * (1 - c)))) h 1 (9 / 4 * caught1 (A * sqrt (2 * (1 - h))) / (A * A)).
Proof.
  intros PA H. set (X := A * sqrt (2 * (1 - h))). assert (PX : 0 < X) by (apply Rmult_lt_0_compat; [exact PA|apply sqrt_lt_R0; lra]). set (G := fun c => ff2 (A * sqrt (2 * (1 - c)))).
  assert (C : is_RInt (fun y => scal (- y / (A * A)) (G (1 - y * y / (2 * (A * A))))) X 0 (RInt G (1 - X * X / (2 * (A * A))) (1 - 0 * 0 / (2 * (A * A))))).
  { apply (is_RInt_comp G (fun y => 1 - y * y / (2 * (A * A))) (fun y => - y / (A * A))).
    - intros y _. apply ff2_sqrt_cont.
    - intros y _. split; [auto_derive; [trivial|field; lra]|]. apply (ex_derive_continuous (fun y => - y / (A * A))). auto_derive. trivial. }
  assert (XX : X * X = A * A * (2 * (1 - h))). { unfold X. replace (A * sqrt (2 * (1 - h)) * (A * sqrt (2 * (1 - h)))) with (A * A * (sqrt (2 * (1 - h)) * sqrt (2 * (1 - h)))) by ring. rewrite sqrt_sqrt by lra. reflexivity. }
  replace (1 - X * X / (2 * (A * A))) with h in C by (rewrite XX; field; lra). replace (1 - 0 * 0 / (2 * (A * A))) with 1 in C by (field; lra).
  assert (E : is_RInt (fun y => scal (- y / (A * A)) (G (1 - y * y / (2 * (A * A))))) X 0 (9 / 4 * caught1 X / (A * A))).
  { apply (is_RInt_ext (fun y => scal (- / (A * A)) (y * ff2 y))).
    - intros y Y. rewrite Rmin_right, Rmax_left in Y by lra. unfold G. replace (A * sqrt (2 * (1 - (1 - y * y / (2 * (A * A)))))) with y; [change (- / (A * A) * (y * ff2 y) = - y / (A * A) * ff2 y); field; lra|].
      replace (2 * (1 - (1 - y * y / (2 * (A * A))))) with ((y / A) * (y / A)) by (field; lra). rewrite sqrt_square by (apply Rmult_le_pos; [lra|left; now apply Rinv_0_lt_compat]). field. lra.
    - replace (9 / 4 * caught1 X / (A * A)) with (scal (- / (A * A)) (opp (9 / 4 * caught1 X))) by (change (- / (A * A) * - (9 / 4 * caught1 X) = 9 / 4 * caught1 X / (A * A)); field; lra).
      apply (@is_RInt_scal R_NormedModule). apply (@is_RInt_swap R_NormedModule). now apply xff_int. }
  pose proof (is_RInt_unique _ _ _ _ C) as U1. pose proof (is_RInt_unique _ _ _ _ E) as U2. rewrite U1 in U2. rewrite <- U2. apply (@RInt_correct R_CompleteNormedModule). apply (@ex_RInt_continuous R_CompleteNormedModule). intros z _. apply ff2_sqrt_cont.
Qed.
