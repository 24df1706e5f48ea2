(* Proofs about the search for zeros and the probabilities of the SNS source. *)
From Coq Require Import Reals List ZArith Lia Lra Bool.
From Coquelicot Require Import Coquelicot.
From Verif Require Import Base RotModel ShapeModel ChanModel ShapeProofs ShapeProofs2 ChanProofs SnsModel SnsSpec SnsProofs.
Import ListNotations.
Local Open Scope R_scope.

(* Bisection. *)
Lemma bisection_ends : forall func y g tol d, 0 < tol -> 0 < d ->
  forall lo hi, (forall x, lo <= x <= hi -> func x y = Ok (g x)) ->
  (forall u v, lo <= u <= hi -> lo <= v <= hi -> Rabs (v - u) < d -> Rabs (g v - g u) < tol) ->
  forall n rtb dx, lo <= rtb -> rtb + dx <= hi -> 0 < dx -> g rtb < 0 -> 0 <= g (rtb + dx) -> dx / 2 ^ n < d ->
  exists r, (forall k, bisection func y tol (S n + k) rtb dx = Ok r) /\ lo <= r <= hi /\ Rabs (g r) <= tol /\ g r < 0.
Proof.
  intros func y g tol d T D lo hi F U n. induction n as [|n IH]; intros rtb dx L H P G1 G2 Q.
  - assert (A := U rtb (rtb + dx) ltac:(lra) ltac:(lra)).
    assert (B : Rabs (g rtb) <= tol).
    { cbn in Q. assert (A' := A ltac:(rewrite Rabs_right; lra)). rewrite Rabs_right in A' by lra. rewrite Rabs_left by exact G1. lra. }
    exists rtb. split; [|repeat split; lra]. intro k. cbn [Nat.add bisection]. rewrite F by lra. cbn [bind].
    rewrite (proj2 (Rltb_f _ _)) by lra. reflexivity.
  - destruct (Rlt_dec tol (Rabs (g rtb))) as [B|B].
    + assert (Q' : dx * (1 / 2) / 2 ^ n < d).
      { replace (dx * (1 / 2) / 2 ^ n) with (dx / 2 ^ S n); [exact Q|]. cbn [pow]. field. apply pow_nonzero. lra. }
      destruct (Rlt_dec (g (rtb + dx * (1 / 2))) 0) as [N|N].
      * destruct (IH (rtb + dx * (1 / 2)) (dx * (1 / 2))) as (r & R1 & R2); try lra.
        { replace (rtb + dx * (1 / 2) + dx * (1 / 2)) with (rtb + dx) by field. exact G2. }
        exists r. split; [|exact R2]. intro k. change (S (S n) + k)%nat with (S (S n + k)).
        cbn [bisection]. rewrite F by lra. cbn [bind]. rewrite (proj2 (Rltb_t _ _)) by lra. cbv zeta.
        rewrite F by lra. cbn [bind]. rewrite (proj2 (Rltb_t _ _)) by lra. apply R1.
      * destruct (IH rtb (dx * (1 / 2))) as (r & R1 & R2); try lra.
        exists r. split; [|exact R2]. intro k. change (S (S n) + k)%nat with (S (S n + k)).
        cbn [bisection]. rewrite F by lra. cbn [bind]. rewrite (proj2 (Rltb_t _ _)) by lra. cbv zeta.
        rewrite F by lra. cbn [bind]. rewrite (proj2 (Rltb_f _ _)) by lra. apply R1.
    + exists rtb. split; [|repeat split; lra]. intro k. cbn [Nat.add bisection]. rewrite F by lra. cbn [bind].
      rewrite (proj2 (Rltb_f _ _)) by lra. reflexivity.
Qed.

Lemma enlarge_ends : forall func y g xl X, g xl < 0 -> (forall x, xl <= x -> func x y = Ok (g x)) ->
  (forall x, X <= x -> 0 < g x) ->
  forall n xh, xl < xh -> X <= xl + 3 ^ n * (xh - xl) ->
  exists h, (forall k, enlarge func y xl (g xl) (S n + k) xh (g xh) = Ok h) /\ xh <= h /\ 0 < g h.
Proof.
  intros func y g xl X G F P n. induction n as [|n IH]; intros xh L B.
  - cbn in B. assert (Q := P xh ltac:(lra)). exists xh. split; [|split; [lra|exact Q]].
    intro k. cbn [Nat.add enlarge]. rewrite (proj2 (Rleb_false _ _)) by nra. reflexivity.
  - destruct (Rlt_dec 0 (g xh)) as [Q|Q].
    + exists xh. split; [|split; [lra|exact Q]].
      intro k. cbn [Nat.add enlarge]. rewrite (proj2 (Rleb_false _ _)) by nra. reflexivity.
    + destruct (IH (xh + (xh - xl) * 2)) as (h & H1 & H2); [lra| |].
      { cbn [pow] in B. replace (xh + (xh - xl) * 2 - xl) with (3 * (xh - xl)) by ring. lra. }
      exists h. split; [|split; [lra|apply H2]]. intro k. change (S (S n) + k)%nat with (S (S n + k)).
      cbn [enlarge]. rewrite (proj2 (Rleb_true _ _)) by nra. cbv zeta. rewrite F by lra. cbn [bind]. apply H1.
Qed.

Lemma pow_big : forall q c B, 1 < q -> 0 < c -> exists n, B <= q ^ n * c.
Proof.
  intros q c B Q C. destruct (Pow_x_infinity q ltac:(rewrite Rabs_right; lra) (B / c)) as (n & N). exists n.
  specialize (N n (le_n n)). rewrite Rabs_right in N by (apply Rle_ge; left; apply pow_lt; lra).
  apply Rmult_le_reg_r with (/ c); [apply Rinv_0_lt_compat; exact C|].
  replace (q ^ n * c * / c) with (q ^ n) by (field; lra). unfold Rdiv in N. lra.
Qed.

Lemma zero_find_ends : forall func y g xmin xmax tol X,
  0 < xmin -> xmin < xmax -> 0 < y -> 0 < tol ->
  (forall x, xmin <= x -> func x y = Ok (g x)) -> (forall x, xmin <= x -> continuous g x) ->
  g xmin < 0 -> (forall x, X <= x -> 0 < g x) ->
  exists r N, (forall fuel, (N <= fuel)%nat -> zero_find func y xmin xmax tol fuel = Ok r)
    /\ xmin <= r /\ Rabs (g r) <= tol.
Proof.
  intros func y g xmin xmax tol X P0 P1 Y T F C G Q.
  set (xh := exp (ln xmin + y * (ln xmax - ln xmin))).
  assert (H : xmin < xh).
  { unfold xh. rewrite <- (exp_ln xmin P0) at 1. apply exp_increasing.
    assert (ln xmin < ln xmax) by (apply ln_increasing; assumption). nra. }
  destruct (pow_big 3 (xh - xmin) (X - xmin)) as (n & N); [lra|lra|].
  destruct (enlarge_ends func y g xmin X G F Q n xh H ltac:(lra)) as (h & H1 & H2 & H3).
  destruct (unifcont_1d g xmin h) with (eps := mkposreal tol T) as (d & D).
  { intros x Hx. apply C. lra. }
  destruct (pow_big 2 (d / 2) (h - xmin)) as (m & M); [lra|destruct d; cbn; lra|].
  destruct (bisection_ends func y g tol d T (cond_pos d) xmin h) with (n := m) (rtb := xmin) (dx := h - xmin) as (r & R1 & R2 & R3 & _).
  - intros x Hx. apply F. lra.
  - intros u v Hu Hv E. assert (B := D u v Hu Hv).
    assert (B' : ball u d v) by exact E. specialize (B B').
    destruct (Rlt_dec (Rabs (g v - g u)) tol) as [?|K]; [assumption|]. exfalso. apply B. intro W. apply K. exact W.
  - lra.
  - lra.
  - lra.
  - exact G.
  - replace (xmin + (h - xmin)) with h by ring. lra.
  - assert (W : 0 < 2 ^ m) by (apply pow_lt; lra). apply Rmult_lt_reg_r with (2 ^ m); [exact W|].
    replace ((h - xmin) / 2 ^ m * 2 ^ m) with (h - xmin) by (field; lra).
    assert (0 < d) by apply cond_pos. nra.
  - exists r, (S n + S m)%nat. split; [|split; [lra|exact R3]].
    intros fuel L. unfold zero_find. rewrite !(proj2 (Rleb_false _ _)) by lra. cbn [orb]. cbv zeta. fold xh.
    rewrite !F by lra. cbn [bind].
    replace fuel with (S n + (fuel - S n))%nat at 1 by lia. rewrite H1. cbn [bind].
    replace fuel with (S m + (fuel - S m))%nat by lia. apply R1.
Qed.

Lemma enlarge_never : forall func y g xl, 0 <= g xl -> (forall x, xl <= x -> func x y = Ok (g x)) ->
  (forall x, xl <= x -> 0 <= g x) -> forall n xh, xl <= xh -> enlarge func y xl (g xl) n xh (g xh) = Err OutOfFuel.
Proof.
  intros func y g xl G F P n. induction n as [|n IH]; intros xh L; [reflexivity|]. cbn [enlarge].
  rewrite (proj2 (Rleb_true _ _)) by (apply Rmult_le_pos; auto). cbv zeta. rewrite F by lra. cbn [bind]. apply IH. lra.
Qed.
Lemma zero_find_never : forall func y g xmin xmax tol fuel,
  0 < xmin -> xmin <= xmax -> 0 <= y -> (forall x, xmin <= x -> func x y = Ok (g x)) ->
  (forall x, xmin <= x -> 0 <= g x) ->
  zero_find func y xmin xmax tol fuel = Err OutOfFuel.
Proof.
  intros func y g xmin xmax tol fuel P0 P1 Y F G. unfold zero_find.
  rewrite !(proj2 (Rleb_false _ _)) by lra. cbn [orb]. cbv zeta. set (xh := exp _).
  assert (H : xmin <= xh).
  { unfold xh. rewrite <- (exp_ln xmin P0) at 1.
    assert (ln xmin <= ln xmax) by (destruct (Rle_lt_or_eq_dec _ _ P1) as [E|E]; [left; apply ln_increasing; assumption | rewrite E; lra]).
    assert (0 <= y * (ln xmax - ln xmin)) by (apply Rmult_le_pos; lra).
    destruct (Rle_lt_or_eq_dec 0 (y * (ln xmax - ln xmin))) as [E|E]; [assumption|left; apply exp_increasing; lra|rewrite <- E, Rplus_0_r; lra]. }
  rewrite !F by lra. cbn [bind]. rewrite (enlarge_never func y g); auto. apply G. lra.
Qed.
(* With y = 0 the interval is empty and stays so. *)
Lemma enlarge_stuck : forall func y v xl n, func xl y = Ok v -> enlarge func y xl v n xl v = Err OutOfFuel.
Proof.
  intros func y v xl n F. induction n as [|n IH]; [reflexivity|]. cbn [enlarge].
  rewrite (proj2 (Rleb_true _ _)) by nra. cbv zeta.
  replace (xl + (xl - xl) * 2) with xl by ring. rewrite F. cbn [bind]. exact IH.
Qed.
Lemma zero_find_zero : forall func v xmin xmax tol fuel,
  0 < xmin -> 0 < xmax -> func xmin 0 = Ok v -> zero_find func 0 xmin xmax tol fuel = Err OutOfFuel.
Proof.
  intros func v xmin xmax tol fuel P0 P1 F. unfold zero_find.
  rewrite !(proj2 (Rleb_false _ _)) by lra. cbn [orb]. cbv zeta.
  replace (ln xmin + 0 * (ln xmax - ln xmin)) with (ln xmin) by ring. rewrite exp_ln by exact P0.
  rewrite F. cbn [bind]. rewrite (enlarge_stuck func 0 v xmin fuel F). reflexivity.
Qed.
