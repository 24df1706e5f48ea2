From Coq Require Import Reals Lra Psatz.
From Coquelicot Require Import Coquelicot.
From Verif Require Import Base RotModel DetModel ChanModel ShapeModel ScatModel UnitModel KinModel GridModel PhonModel GridSpec PhonSpec ChanProofs GridProofs.
Open Scope R_scope.

Lemma fold_total l a : fold_left Rplus l a = a + total l.
Proof. revert a. induction l as [|x l IH]; intros a; cbn; [ring|]. rewrite IH. unfold total. cbn. ring. Qed.
Lemma total_app l r : total (l ++ r) = total l + total r.
Proof. unfold total. induction l as [|x l IH]; cbn; [ring|]. rewrite IH. ring. Qed.
Lemma loop_total f n : loop_sum f n = total (map f (seq 0 n)).
Proof. induction n as [|n IH]; [reflexivity|]. rewrite seq_S, map_app, total_app. cbn [loop_sum Nat.add]. rewrite IH. unfold total. cbn. ring. Qed.
Lemma total_ext f g (l : list nat) : (forall i, In i l -> f i = g i) -> total (map f l) = total (map g l).
Proof. intros H. f_equal. now apply map_ext_in. Qed.
Lemma total_scale k l : total (map (fun z => k * z) l) = k * total l.
Proof. unfold total. induction l as [|x l IH]; cbn; [ring|]. rewrite IH. ring. Qed.
Lemma total_nonneg l : Forall (fun z => 0 <= z) l -> 0 <= total l.
Proof. unfold total. induction 1 as [|x l H _ IH]; cbn; lra. Qed.

(** least squares on sums *)
Lemma sum_add f g n : loop_sum (fun i => f i + g i) n = loop_sum f n + loop_sum g n.
Proof. induction n as [|n IH]; cbn; [ring|]. rewrite IH. ring. Qed.
Lemma sum_scale k f n : loop_sum (fun i => k * f i) n = k * loop_sum f n.
Proof. induction n as [|n IH]; cbn; [ring|]. rewrite IH. ring. Qed.
Lemma sum_ext f g n : (forall i, (i < n)%nat -> f i = g i) -> loop_sum f n = loop_sum g n.
Proof. induction n as [|n IH]; intros H; cbn; [reflexivity|]. rewrite IH, H by (intros; auto with arith || lia); try lia. reflexivity. Qed.
Lemma sum_const k n : loop_sum (fun _ => k) n = INR n * k.
Proof. induction n as [|n IH]; [cbn; ring|]. cbn [loop_sum]. rewrite IH, S_INR. ring. Qed.
Lemma sum_nonneg f n : (forall i, (i < n)%nat -> 0 <= f i) -> 0 <= loop_sum f n.
Proof. induction n as [|n IH]; intros H; cbn; [lra|]. assert (0 <= f n) by (apply H; lia). assert (0 <= loop_sum f n) by (apply IH; intros; apply H; lia). lra. Qed.
Lemma sum_pos f n j : (j < n)%nat -> 0 < f j -> (forall i, (i < n)%nat -> 0 <= f i) -> 0 < loop_sum f n.
Proof.
  induction n as [|n IH]; intros J P H; [lia|]. cbn. assert (0 <= loop_sum f n) by (apply sum_nonneg; intros; apply H; lia). assert (0 <= f n) by (apply H; lia).
  destruct (Nat.eq_dec j n) as [->|N]; [lra|]. assert (0 < loop_sum f n) by (apply IH; [lia|exact P|intros; apply H; lia]). lra.
Qed.
Lemma squares x y c n : loop_sum (fun i => (y i - c * x i) * (y i - c * x i)) n
  = loop_sum (fun i => y i * y i) n - 2 * c * loop_sum (fun i => x i * y i) n + c * c * loop_sum (fun i => x i * x i) n.
Proof.
  induction n as [|n IH]; cbn; [ring|]. rewrite IH. ring.
Qed.
(** completing the square *)
Lemma squares_best x y n c c' : loop_sum (fun i => x i * x i) n <> 0 -> c = loop_sum (fun i => x i * y i) n / loop_sum (fun i => x i * x i) n ->
  loop_sum (fun i => (y i - c' * x i) * (y i - c' * x i)) n
  = loop_sum (fun i => (y i - c * x i) * (y i - c * x i)) n + (c' - c) * (c' - c) * loop_sum (fun i => x i * x i) n.
Proof. intros N ->. rewrite !squares. field. exact N. Qed.
Lemma mean_best y n k : (0 < n)%nat ->
  loop_sum (fun i => (y i - k) * (y i - k)) n
  = loop_sum (fun i => (y i - loop_sum y n / INR n) * (y i - loop_sum y n / INR n)) n + (k - loop_sum y n / INR n) * (k - loop_sum y n / INR n) * INR n.
Proof.
  intros N. assert (P : INR n <> 0) by (apply not_0_INR; lia).
  pose proof (squares_best (fun _ => 1) y n (loop_sum y n / INR n) k) as H. cbv beta in H.
  rewrite (sum_const (1 * 1) n) in H. rewrite (sum_ext (fun i => 1 * y i) y) in H by (intros; ring).
  rewrite (sum_ext (fun i => (y i - k * 1) * (y i - k * 1)) (fun i => (y i - k) * (y i - k))) in H by (intros; ring).
  rewrite (sum_ext (fun i => (y i - loop_sum y n / INR n * 1) * (y i - loop_sum y n / INR n * 1)) (fun i => (y i - loop_sum y n / INR n) * (y i - loop_sum y n / INR n))) in H by (intros; ring).
  rewrite H; [ring|lra|field; exact P].
Qed.
Lemma square_nonneg_sum f n : 0 <= loop_sum (fun i => f i * f i) n.
Proof. apply sum_nonneg. intros. apply Rle_0_sqr. Qed.

Lemma poor_fit_f a b : 0 <= a -> 0 <= b -> poor_fit a b = false <-> 10 * a <= b.
Proof.
  intros A B. unfold poor_fit. destruct (Reqb b 0) eqn:E.
  - apply Reqb_t in E. subst. destruct (Reqb a 0) eqn:F; cbn; [apply Reqb_t in F; subst; split; [lra|reflexivity]|apply Reqb_f in F; split; [discriminate|intros; exfalso; apply F; lra]].
  - apply Reqb_f in E. rewrite Rltb_f. assert (P : 0 < b) by lra.
    split; intros H.
    + assert (a / b <= 1 / 10) by lra. apply (Rmult_le_compat_r b) in H0; [|lra]. replace (a / b * b) with a in H0 by (field; lra). lra.
    + assert (a / b <= 1 / 10); [|lra]. apply Rmult_le_reg_r with b; [exact P|]. replace (a / b * b) with a by (field; lra). lra.
Qed.

Lemma residual_sum f e0 de Z : residual f (first_points e0 de Z) = loop_sum (fun i => (nth i Z 0 - f (e0 + INR i * de)) * (nth i Z 0 - f (e0 + INR i * de))) 20.
Proof. rewrite loop_total. unfold residual, first_points. rewrite map_map. reflexivity. Qed.

Section Start.
Variables (e0 de : R).
Hypothesis de_pos : 0 < de.
Hypothesis e0_nonneg : 0 <= e0.
Let x (i : nat) := (e0 + INR i * de) * (e0 + INR i * de).
Lemma xx_pos : 0 < loop_sum (fun i => x i * x i) 20.
Proof.
  apply (sum_pos _ 20 1); [lia| |intros; apply Rle_0_sqr]. unfold x. cbn [INR]. assert (0 < e0 + 1 * de) by lra. repeat apply Rmult_lt_0_compat; lra.
Qed.
(** what the constructor computes from the first twenty data *)
Lemma sod_iff Z c : (20 <= List.length Z)%nat ->
  (compute_sod e0 de Z = Ok c <-> best_parabola c (first_points e0 de Z) /\ parabolic (first_points e0 de Z)).
Proof.
  intros L. unfold compute_sod. rewrite (proj2 (Nat.ltb_ge _ _) L). set (y := fun i => nth i Z 0).
  assert (XE : forall g : nat -> R, loop_sum (fun i => (e0 + de * INR i) * (e0 + de * INR i) * g i) 20 = loop_sum (fun i => x i * g i) 20) by (intros; apply sum_ext; intros; unfold x; ring).
  pose proof xx_pos as XP. set (xx := loop_sum (fun i => x i * x i) 20) in *. set (xy := loop_sum (fun i => x i * y i) 20).
  assert (B : forall c', residual (fun e => c' * (e * e)) (first_points e0 de Z) = loop_sum (fun i => (y i - c' * x i) * (y i - c' * x i)) 20) by (intros; rewrite residual_sum; reflexivity).
  assert (BB : forall c', residual (fun e => c' * (e * e)) (first_points e0 de Z) = residual (fun e => xy / xx * (e * e)) (first_points e0 de Z) + (c' - xy / xx) * (c' - xy / xx) * xx).
  { intros c'. rewrite !B. apply squares_best; [fold xx; lra|reflexivity]. }
  assert (K : forall k, residual (fun _ => k) (first_points e0 de Z) = loop_sum (fun i => (y i - loop_sum y 20 / INR 20) * (y i - loop_sum y 20 / INR 20)) 20 + (k - loop_sum y 20 / INR 20) * (k - loop_sum y 20 / INR 20) * INR 20).
  { intros k. rewrite residual_sum. apply (mean_best y 20 k). lia. }
  assert (U : forall c', best_parabola c' (first_points e0 de Z) <-> c' = xy / xx).
  { intros c'. split.
    - intros H. specialize (H (xy / xx)). rewrite (BB c') in H. pose proof (Rle_0_sqr (c' - xy / xx)) as P. unfold Rsqr in P.
      assert ((c' - xy / xx) * (c' - xy / xx) = 0) by nra. apply Rsqr_0_uniq in H0. lra.
    - intros ->. intros c''. rewrite (BB c''). pose proof (Rle_0_sqr (c'' - xy / xx)) as P. unfold Rsqr in P. nra. }
  assert (P : parabolic (first_points e0 de Z) <-> 10 * residual (fun e => xy / xx * (e * e)) (first_points e0 de Z) <= loop_sum (fun i => (y i - loop_sum y 20 / INR 20) * (y i - loop_sum y 20 / INR 20)) 20).
  { set (S0 := loop_sum (fun i => (y i - loop_sum y 20 / INR 20) * (y i - loop_sum y 20 / INR 20)) 20) in *. clearbody S0. split.
    - intros [c' H]. specialize (H (loop_sum y 20 / INR 20)). rewrite K, (BB c') in H. set (m := loop_sum y 20 / INR 20) in *. replace (m - m) with 0 in H by ring.
      pose proof (Rle_0_sqr (c' - xy / xx)) as P. unfold Rsqr in P. nra.
    - intros H. exists (xy / xx). intros k. rewrite K. pose proof (Rle_0_sqr (k - loop_sum y 20 / INR 20)) as P. unfold Rsqr in P.
      assert (0 < INR 20) by (apply lt_0_INR; lia). nra. }
  unfold linear_regression1. rewrite !XE. rewrite (sum_ext (fun i => x i * ((e0 + de * INR i) * (e0 + de * INR i))) (fun i => x i * x i)) by (intros; unfold x; ring).
  fold xx. change (fun i : nat => x i * nth i Z 0) with (fun i => x i * y i). fold xy. unfold divide. destruct (Req_EM_T xx 0) as [E|_]; [lra|]. cbn [bind].
  change (fun i => nth i Z 0) with y. rewrite (sum_ext (fun i => (nth i Z 0 - xy / xx * ((e0 + de * INR i) * (e0 + de * INR i))) * (nth i Z 0 - xy / xx * ((e0 + de * INR i) * (e0 + de * INR i)))) (fun i => (y i - xy / xx * x i) * (y i - xy / xx * x i))) by (intros; unfold x, y; ring).
  rewrite <- B. change (fun i : nat => (nth i Z 0 - loop_sum y 20 / INR 20) * (nth i Z 0 - loop_sum y 20 / INR 20)) with (fun i : nat => (y i - loop_sum y 20 / INR 20) * (y i - loop_sum y 20 / INR 20)).
  rewrite U, P. destruct (poor_fit _ _) eqn:F.
  - split; [discriminate|]. intros [_ H]. apply poor_fit_f in H; [|rewrite B; apply square_nonneg_sum|apply square_nonneg_sum]. rewrite H in F. discriminate.
  - apply poor_fit_f in F; [|rewrite B; apply square_nonneg_sum|apply square_nonneg_sum]. split; [intros H; injection H as <-; split; [reflexivity|exact F]|intros [-> _]; reflexivity].
Qed.
Lemma best_exists Z : exists c, best_parabola c (first_points e0 de Z).
Proof.
  exists (loop_sum (fun i => x i * nth i Z 0) 20 / loop_sum (fun i => x i * x i) 20). intros c'. rewrite !residual_sum. pose proof xx_pos as XP.
  pose proof (squares_best x (fun i => nth i Z 0) 20 _ c' ltac:(lra) eq_refl) as H. cbv beta in H.
  change (fun i : nat => (nth i Z 0 - c' * ((e0 + INR i * de) * (e0 + INR i * de))) * (nth i Z 0 - c' * ((e0 + INR i * de) * (e0 + INR i * de)))) with (fun i => (nth i Z 0 - c' * x i) * (nth i Z 0 - c' * x i)).
  rewrite H. pose proof (Rle_0_sqr (c' - loop_sum (fun i => x i * nth i Z 0) 20 / loop_sum (fun i => x i * x i) 20)) as P. unfold Rsqr in P.
  set (q := (c' - _) * (c' - _)) in *. set (s := loop_sum (fun i => x i * x i) 20) in *. fold x.
  assert (0 <= q * s) by (apply Rmult_le_pos; lra).
  change (fun i : nat => (nth i Z 0 - loop_sum (fun i0 : nat => x i0 * nth i0 Z 0) 20 / s * ((e0 + INR i * de) * (e0 + INR i * de))) * (nth i Z 0 - loop_sum (fun i0 : nat => x i0 * nth i0 Z 0) 20 / s * ((e0 + INR i * de) * (e0 + INR i * de))))
    with (fun i => (nth i Z 0 - loop_sum (fun i0 => x i0 * nth i0 Z 0) 20 / s * x i) * (nth i Z 0 - loop_sum (fun i0 => x i0 * nth i0 Z 0) 20 / s * x i)). lra.
Qed.
End Start.
