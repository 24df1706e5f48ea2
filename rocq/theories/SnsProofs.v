(* Proofs about interpolation and integration in the SNS source. *)
From Coq Require Import Reals List ZArith Lia Lra Bool.
From Coquelicot Require Import Coquelicot.
From Verif Require Import Base RotModel ShapeModel ChanModel ShapeProofs ShapeProofs2 ChanProofs SnsModel SnsSpec.
Import ListNotations.
Local Open Scope R_scope.

Lemma rd_at : forall l i, (i < List.length l)%nat -> rd l (Z.of_nat i) = Ok (at_ l i).
Proof.
  intros l i H. unfold rd. destruct (Z.ltb_spec (Z.of_nat i) 0); [lia|].
  rewrite Nat2Z.id. rewrite (nth_error_nth' l 0) by exact H. reflexivity.
Qed.
Lemma rd_out : forall l i, (i < 0 \/ Z.of_nat (List.length l) <= i)%Z -> rd l i = Err UndefinedBehaviour.
Proof.
  intros l i H. unfold rd. destruct (Z.ltb_spec i 0); [reflexivity|].
  destruct (nth_error l (Z.to_nat i)) eqn:E; [|reflexivity].
  assert (Z.to_nat i < List.length l)%nat by (apply nth_error_Some; congruence). lia.
Qed.
Lemma rises_lt : forall xs, rises xs -> forall i j, (i < j)%nat -> (j < List.length xs)%nat -> at_ xs i < at_ xs j.
Proof.
  intros xs M i j L B. induction L as [|j L IH]; [apply M; exact B|].
  apply Rlt_trans with (at_ xs j); [apply IH; lia | apply M; exact B].
Qed.
Lemma rises_le : forall xs, rises xs -> forall i j, (i <= j)%nat -> (j < List.length xs)%nat -> at_ xs i <= at_ xs j.
Proof.
  intros xs M i j L B. destruct (Nat.eq_dec i j) as [->|N]; [lra|]. left. apply rises_lt; auto; lia.
Qed.

Lemma scan_at : forall xs x len k d i, rises xs -> (i + d = k)%nat -> (k < List.length xs)%nat -> (Z.of_nat k <= len)%Z ->
  x <= at_ xs k -> (forall j, (i <= j < k)%nat -> at_ xs j < x) ->
  forall f, (d < f)%nat -> scan xs x len f (Z.of_nat i) = Ok (Z.of_nat k).
Proof.
  intros xs x len k d. induction d as [|d IH]; intros i M E B L A K f F; (destruct f as [|f]; [lia|]).
  - assert (i = k) by lia. subst i. cbn [scan]. rewrite rd_at by exact B. cbn [bind].
    rewrite (proj2 (Rltb_f _ _)) by exact A. reflexivity.
  - cbn [scan]. rewrite rd_at by lia. cbn [bind]. rewrite (proj2 (Rltb_t _ _)) by (apply K; lia).
    destruct (Z.ltb_spec (Z.of_nat i) len); [|lia]. cbn [andb].
    replace (Z.of_nat i + 1)%Z with (Z.of_nat (S i)) by lia.
    apply IH; auto; try lia. intros j J. apply K. lia.
Qed.

Lemma scan_len : forall xs x k d i, (i + d = k)%nat -> (k < List.length xs)%nat ->
  (forall j, (i <= j < k)%nat -> at_ xs j < x) ->
  forall f, (d < f)%nat -> scan xs x (Z.of_nat k) f (Z.of_nat i) = Ok (Z.of_nat k).
Proof.
  intros xs x k d. induction d as [|d IH]; intros i E B K f F; (destruct f as [|f]; [lia|]).
  - assert (i = k) by lia. subst i. cbn [scan]. rewrite rd_at by exact B. cbn [bind].
    destruct (Z.ltb_spec (Z.of_nat k) (Z.of_nat k)); [lia|]. rewrite andb_false_r. reflexivity.
  - cbn [scan]. rewrite rd_at by lia. cbn [bind]. rewrite (proj2 (Rltb_t _ _)) by (apply K; lia).
    destruct (Z.ltb_spec (Z.of_nat i) (Z.of_nat k)); [|lia]. cbn [andb].
    replace (Z.of_nat i + 1)%Z with (Z.of_nat (S i)) by lia.
    apply IH; try lia. intros j J. apply K. lia.
Qed.

Lemma Reqb_t' : forall a b, a = b -> Reqb a b = true.
Proof. intros a b ->. destruct (Reqb b b) eqn:E; [reflexivity|]. apply Reqb_false in E. lra. Qed.
Lemma Reqb_f' : forall a b, a <> b -> Reqb a b = false.
Proof. intros a b N. destruct (Reqb a b) eqn:E; [|reflexivity]. apply Reqb_true in E. contradiction. Qed.

(* Interpolation. *)
Lemma lin_node : forall xs ys len k, rises xs -> List.length ys = List.length xs -> (k < List.length xs)%nat ->
  (Z.of_nat k <= len)%Z -> linfuncint (at_ xs k) len xs ys = Ok (at_ ys k).
Proof.
  intros xs ys len k M Y B L. unfold linfuncint. change 0%Z with (Z.of_nat 0).
  rewrite (scan_at xs (at_ xs k) len k k 0) by
    (auto; try lia; try lra; intros j J; apply rises_lt; auto; lia).
  cbn [bind]. rewrite rd_at by exact B. cbn [bind]. rewrite Reqb_t' by reflexivity. apply rd_at. lia.
Qed.
Lemma lin_panel : forall xs ys len k x, rises xs -> List.length ys = List.length xs -> (S k < List.length xs)%nat ->
  (Z.of_nat (S k) <= len)%Z -> at_ xs k < x < at_ xs (S k) ->
  linfuncint x len xs ys = Ok (linint x (at_ xs k) (at_ xs (S k)) (at_ ys k) (at_ ys (S k))).
Proof.
  intros xs ys len k x M Y B L X. unfold linfuncint. change 0%Z with (Z.of_nat 0).
  rewrite (scan_at xs x len (S k) (S k) 0);
    [|exact M|lia|exact B|exact L|lra| |lia].
  2:{ intros j J. apply Rle_lt_trans with (at_ xs k); [apply rises_le; auto; lia | lra]. }
  cbn [bind]. rewrite rd_at by exact B. cbn [bind]. rewrite Reqb_f' by lra.
  replace (Z.of_nat (S k) - 1)%Z with (Z.of_nat k) by lia.
  rewrite !rd_at by lia. cbn [bind]. rewrite Reqb_f' by lra. reflexivity.
Qed.
Lemma linint_chord : forall x x1 x2 y1 y2, x1 <> x2 -> chord_at x1 y1 x2 y2 x (linint x x1 x2 y1 y2).
Proof. intros. unfold chord_at, linint. field. lra. Qed.

Lemma lin_between : forall xs ys len k x, rises xs -> List.length ys = List.length xs -> (S k < List.length xs)%nat ->
  (Z.of_nat (S k) <= len)%Z -> at_ xs k <= x <= at_ xs (S k) ->
  exists y, linfuncint x len xs ys = Ok y /\ chord_at (at_ xs k) (at_ ys k) (at_ xs (S k)) (at_ ys (S k)) x y.
Proof.
  intros xs ys len k x M Y B L X. destruct (Req_dec x (at_ xs k)) as [->|N1].
  - exists (at_ ys k). split; [apply lin_node; auto; lia|]. unfold chord_at. ring.
  - destruct (Req_dec x (at_ xs (S k))) as [->|N2].
    + exists (at_ ys (S k)). split; [apply lin_node; auto; lia|]. unfold chord_at. ring.
    + eexists. split; [apply (lin_panel xs ys len k); auto; lra|].
      apply linint_chord. specialize (M k B). lra.
Qed.

Lemma find_panel : forall xs, rises xs -> forall x n, (n < List.length xs)%nat -> at_ xs 0 <= x <= at_ xs n ->
  (0 < n)%nat -> exists k, (S k <= n)%nat /\ at_ xs k <= x <= at_ xs (S k).
Proof.
  intros xs M x n. induction n as [|n IH]; intros B X P; [lia|].
  destruct (Nat.eq_dec n 0) as [->|N]; [exists 0%nat; split; [lia|exact X]|].
  destruct (Rle_dec x (at_ xs n)) as [L|L].
  - destruct IH as (k & K1 & K2); [lia|lra|lia|]. exists k. split; [lia|exact K2].
  - exists n. split; [lia|lra].
Qed.

Lemma lin_below : forall xs ys len x, (0 < List.length xs)%nat -> x < at_ xs 0 ->
  linfuncint x len xs ys = Err UndefinedBehaviour.
Proof.
  intros xs ys len x B X. unfold linfuncint. cbn [scan]. change 0%Z with (Z.of_nat 0).
  rewrite rd_at by exact B. cbn [bind]. rewrite (proj2 (Rltb_f _ _)) by lra. cbn [andb bind].
  rewrite rd_at by exact B. cbn [bind]. rewrite Reqb_f' by lra. rewrite rd_out by lia. reflexivity.
Qed.

Lemma quad_node : forall xs ys len k, rises xs -> List.length ys = List.length xs -> (1 <= k < List.length xs)%nat ->
  (Z.of_nat k <= len)%Z -> quadfuncint (at_ xs k) len xs ys = Ok (at_ ys k).
Proof.
  intros xs ys len k M Y B L. unfold quadfuncint. change 1%Z with (Z.of_nat 1).
  rewrite (scan_at xs (at_ xs k) len k (k - 1) 1) by
    (auto; try lia; try lra; intros j J; apply rises_lt; auto; lia).
  cbn [bind]. rewrite rd_at by lia. cbn [bind]. rewrite Reqb_t' by reflexivity. apply rd_at. lia.
Qed.
Lemma quadint_parabola : forall x x1 x2 x3 y1 y2 y3, x1 < x2 -> x2 < x3 ->
  exists y, quadint x x1 x2 x3 y1 y2 y3 = Ok y /\ parabola_at x1 y1 x2 y2 x3 y3 x y.
Proof.
  intros x x1 x2 x3 y1 y2 y3 A B. unfold quadint. rewrite !Reqb_f' by lra. cbn [orb].
  eexists. split; [reflexivity|].
  set (d := (x1 - x2) * (x1 - x3) * (x2 - x3)).
  exists ((x2 * x3 * (x2 - x3) * y1 - x1 * x3 * (x1 - x3) * y2 + x1 * x2 * (x1 - x2) * y3) / d),
    ((- (x2 + x3) * (x2 - x3) * y1 + (x1 + x3) * (x1 - x3) * y2 - (x1 + x2) * (x1 - x2) * y3) / d),
    (((x2 - x3) * y1 - (x1 - x3) * y2 + (x1 - x2) * y3) / d).
  subst d. repeat split; field; repeat split; lra.
Qed.
Lemma quad_between : forall xs ys len k x, rises xs -> List.length ys = List.length xs -> (S (S k) < List.length xs)%nat ->
  (Z.of_nat (S (S k)) <= len)%Z -> at_ xs (S k) <= x <= at_ xs (S (S k)) ->
  exists y, quadfuncint x len xs ys = Ok y
    /\ parabola_at (at_ xs k) (at_ ys k) (at_ xs (S k)) (at_ ys (S k)) (at_ xs (S (S k))) (at_ ys (S (S k))) x y.
Proof.
  intros xs ys len k x M Y B L X.
  assert (A1 := M k ltac:(lia)). assert (A2 := M (S k) B).
  destruct (quadint_parabola x (at_ xs k) (at_ xs (S k)) (at_ xs (S (S k))) (at_ ys k) (at_ ys (S k)) (at_ ys (S (S k))) A1 A2)
    as (y & Q & P).
  destruct (Req_dec x (at_ xs (S k))) as [E1|N1]; [|destruct (Req_dec x (at_ xs (S (S k)))) as [E2|N2]].
  - exists (at_ ys (S k)). split; [rewrite E1; apply quad_node; auto; lia|].
    destruct P as (a & b & c & P1 & P2 & P3 & P4). exists a, b, c. rewrite E1. auto.
  - exists (at_ ys (S (S k))). split; [rewrite E2; apply quad_node; auto; lia|].
    destruct P as (a & b & c & P1 & P2 & P3 & P4). exists a, b, c. rewrite E2. auto.
  - exists y. split; [|exact P]. unfold quadfuncint. change 1%Z with (Z.of_nat 1) at 1.
    rewrite (scan_at xs x len (S (S k)) (S k) 1); [|exact M|lia|exact B|exact L|lra| |lia].
    2:{ intros j J. apply Rle_lt_trans with (at_ xs (S k)); [apply rises_le; auto; lia | lra]. }
    cbn [bind]. rewrite rd_at by exact B. cbn [bind]. rewrite Reqb_f' by lra.
    replace (Z.of_nat (S (S k)) - 2)%Z with (Z.of_nat k) by lia.
    replace (Z.of_nat (S (S k)) - 1)%Z with (Z.of_nat (S k)) by lia.
    rewrite !rd_at by lia. cbn [bind]. exact Q.
Qed.
Lemma parabola_unique : forall x1 y1 x2 y2 x3 y3 x y y', x1 < x2 -> x2 < x3 ->
  parabola_at x1 y1 x2 y2 x3 y3 x y -> parabola_at x1 y1 x2 y2 x3 y3 x y' -> y = y'.
Proof.
  intros x1 y1 x2 y2 x3 y3 x y y' A B (a & b & c & P1 & P2 & P3 & ->) (a' & b' & c' & Q1 & Q2 & Q3 & ->).
  assert (D : forall u v, u < v -> a + b * u + c * u ^ 2 = a' + b' * u + c' * u ^ 2 ->
    a + b * v + c * v ^ 2 = a' + b' * v + c' * v ^ 2 -> (b - b') + (c - c') * (u + v) = 0).
  { intros u v L E1 E2. apply Rmult_eq_reg_r with (v - u); [|lra].
    replace (((b - b') + (c - c') * (u + v)) * (v - u)) with
      ((a + b * v + c * v ^ 2) - (a + b * u + c * u ^ 2) - ((a' + b' * v + c' * v ^ 2) - (a' + b' * u + c' * u ^ 2))) by ring.
    rewrite E1, E2. ring. }
  assert (D1 := D x1 x2 A ltac:(lra) ltac:(lra)). assert (D2 := D x2 x3 B ltac:(lra) ltac:(lra)).
  assert (C : c - c' = 0).
  { apply Rmult_eq_reg_r with (x3 - x1); [|lra]. nra. }
  assert (c = c') by lra. subst c'. assert (b = b') by nra. subst b'. lra.
Qed.
Lemma quad_below : forall xs ys len x, (2 <= List.length xs)%nat -> x < at_ xs 1 ->
  quadfuncint x len xs ys = Err UndefinedBehaviour.
Proof.
  intros xs ys len x B X. unfold quadfuncint. cbn [scan]. change 1%Z with (Z.of_nat 1).
  rewrite rd_at by lia. cbn [bind]. rewrite (proj2 (Rltb_f _ _)) by lra. cbn [andb bind].
  rewrite rd_at by lia. cbn [bind]. rewrite Reqb_f' by lra. rewrite rd_out by lia. reflexivity.
Qed.

(* The trapezoid rule. *)
Lemma total_ext : forall f g n, (forall i, (i < n)%nat -> f i = g i) -> total f n = total g n.
Proof.
  intros f g n. induction n as [|n IH]; intros E; [reflexivity|]. cbn [total].
  rewrite IH by (intros; apply E; lia). rewrite E by lia. reflexivity.
Qed.
Lemma total_plus : forall f g n, total (fun i => f i + g i) n = total f n + total g n.
Proof. intros f g n. induction n as [|n IH]; cbn [total]; [ring|]. rewrite IH. ring. Qed.
Lemma total_scal : forall c f n, total (fun i => c * f i) n = c * total f n.
Proof. intros c f n. induction n as [|n IH]; cbn [total]; [ring|]. rewrite IH. ring. Qed.
Lemma total_shift : forall f n, total f (S n) = f O + total (fun i => f (S i)) n.
Proof. intros f n. induction n as [|n IH]; [cbn; ring|]. cbn [total] in *. rewrite IH. ring. Qed.
Lemma total_double : forall f n, total f (2 * n) = total (fun i => f (2 * i)%nat + f (2 * i + 1)%nat) n.
Proof.
  intros f n. induction n as [|n IH]; [reflexivity|].
  replace (2 * S n)%nat with (S (S (2 * n))) by lia. cbn [total]. rewrite IH.
  replace (2 * n + 1)%nat with (S (2 * n)) by lia. ring.
Qed.

Lemma trap_refine : forall g a b n, (0 < n)%nat ->
  trapezoid g a b (2 * n) = 1 / 2 * (trapezoid g a b n
    + (b - a) * total (fun i => g (a + (INR i + 1 / 2) * ((b - a) / INR n))) n / INR n).
Proof.
  intros g a b n P. unfold trapezoid. cbv zeta. rewrite total_double.
  assert (N : INR n <> 0) by (apply not_0_INR; lia).
  replace ((b - a) * total (fun i => g (a + (INR i + 1 / 2) * ((b - a) / INR n))) n / INR n)
    with ((b - a) / INR n * total (fun i => g (a + (INR i + 1 / 2) * ((b - a) / INR n))) n) by (field; exact N).
  rewrite <- total_scal, <- total_plus, <- total_scal.
  apply total_ext. intros i I.
  rewrite !S_INR, !plus_INR, !mult_INR. change (INR 2) with 2. change (INR 1) with 1.
  replace (a + 2 * INR i * ((b - a) / (2 * INR n))) with (a + INR i * ((b - a) / INR n)) by (field; exact N).
  replace (a + (2 * INR i + 1) * ((b - a) / (2 * INR n))) with (a + (INR i + 1 / 2) * ((b - a) / INR n)) by (field; exact N).
  replace (a + (2 * INR i + 1 + 1) * ((b - a) / (2 * INR n))) with (a + (INR i + 1) * ((b - a) / INR n)) by (field; exact N).
  field. exact N.
Qed.

Lemma sum_points_total : forall func g h n x acc, (forall i, (i < n)%nat -> func (x + INR i * h) = Ok (g (x + INR i * h))) ->
  sum_points func n x h acc = Ok (acc + total (fun i => g (x + INR i * h)) n).
Proof.
  intros func g h n. induction n as [|n IH]; intros x acc F.
  - cbn. f_equal. ring.
  - cbn [sum_points]. assert (F0 := F O ltac:(lia)). replace (x + INR 0 * h) with x in F0 by (cbn; ring).
    rewrite F0. cbn [bind]. rewrite IH.
    + f_equal. rewrite total_shift. replace (x + INR 0 * h) with x by (cbn; ring).
      rewrite (total_ext (fun i => g (x + h + INR i * h)) (fun i => g (x + INR (S i) * h))).
      * ring.
      * intros i _. f_equal. rewrite S_INR. ring.
    + intros i L. assert (F1 := F (S i) ltac:(lia)). rewrite S_INR in F1.
      replace (x + h + INR i * h) with (x + (INR i + 1) * h) by ring. exact F1.
Qed.

Lemma integtrap_one : forall func g a b prev, a <= b -> computes func g a b ->
  integtrap func prev a b 1 = Ok (trapezoid g a b 1).
Proof.
  intros func g a b prev L C. unfold integtrap. cbn [Z.eqb Pos.eqb].
  rewrite !C by lra. cbn [bind]. f_equal. unfold trapezoid. cbv zeta. cbn [total].
  change (INR 1) with 1. change (INR 0) with 0.
  replace (a + 0 * ((b - a) / 1)) with a by field. replace (a + 1 * ((b - a) / 1)) with b by field. field.
Qed.

Lemma pow2_pos : forall k, (0 < 2 ^ k)%nat.
Proof. intro k. induction k as [|k IH]; cbn; lia. Qed.

Lemma integtrap_next : forall func g a b k, a <= b -> computes func g a b -> (k < 31)%nat ->
  integtrap func (trapezoid g a b (2 ^ k)) a b (Z.of_nat k + 2) = Ok (trapezoid g a b (2 ^ S k)).
Proof.
  intros func g a b k L C K. unfold integtrap.
  destruct (Z.eqb_spec (Z.of_nat k + 2) 1) as [?|_]; [lia|]. destruct (Z.ltb_spec 32 (Z.of_nat k + 2)); [lia|]. cbv zeta.
  replace (Z.max 0 (Z.of_nat k + 2 - 2)) with (Z.of_nat k) by lia.
  assert (E : (2 ^ Z.of_nat k)%Z = Z.of_nat (2 ^ k)) by (rewrite Nat2Z.inj_pow; reflexivity).
  rewrite E, Nat2Z.id, <- INR_IZR_INZ. assert (P := pow2_pos k).
  change (2 ^ S k)%nat with (2 * 2 ^ k)%nat. rewrite (trap_refine g a b (2 ^ k) P).
  set (n := (2 ^ k)%nat) in *. clearbody n.
  assert (N : 0 < INR n) by (apply lt_0_INR; lia).
  rewrite (sum_points_total func g).
  - cbn [bind]. f_equal. rewrite Rplus_0_l.
    rewrite (total_ext (fun i => g (a + 1 / 2 * ((b - a) / INR n) + INR i * ((b - a) / INR n)))
      (fun i => g (a + (INR i + 1 / 2) * ((b - a) / INR n)))).
    + reflexivity.
    + intros i _. f_equal. field. lra.
  - intros i I. apply C.
    replace (a + 1 / 2 * ((b - a) / INR n) + INR i * ((b - a) / INR n)) with (a + (b - a) * ((INR i + 1 / 2) / INR n)) by (field; lra).
    assert (Q : 0 <= (INR i + 1 / 2) / INR n <= 1).
    { assert (I0 := pos_INR i). apply le_INR in I. rewrite S_INR in I. split.
      - apply Rmult_le_pos; [lra|]. left. apply Rinv_0_lt_compat. exact N.
      - apply Rmult_le_reg_r with (INR n); [exact N|]. replace ((INR i + 1 / 2) / INR n * INR n) with (INR i + 1 / 2) by (field; lra). lra. }
    split; nra.
Qed.

Lemma refine_spec : forall func g a b err, a <= b -> computes func g a b -> forall fuel k v,
  refine func a b err fuel (Z.of_nat k + 2) (trapezoid g a b (2 ^ S k)) (trapezoid g a b (2 ^ k)) = Ok v ->
  exists m, (k <= m)%nat /\ v = trapezoid g a b (2 ^ S m) /\ Rabs (v - trapezoid g a b (2 ^ m)) <= err * Rabs v.
Proof.
  intros func g a b err L C fuel. induction fuel as [|f IH]; intros k v H; [discriminate|].
  cbn [refine] in H. destruct (Rltb _ _) eqn:T.
  - replace (Z.of_nat k + 2 + 1)%Z with (Z.of_nat (S k) + 2)%Z in H by lia.
    destruct (Nat.lt_ge_cases (S k) 31) as [K|K].
    + rewrite (integtrap_next func g a b (S k) L C K) in H. cbn [bind] in H.
      destruct (IH (S k) v H) as (m & M1 & M2 & M3). exists m. split; [lia|]. split; assumption.
    + unfold integtrap in H. destruct (Z.eqb_spec (Z.of_nat (S k) + 2) 1); [lia|].
      destruct (Z.ltb_spec 32 (Z.of_nat (S k) + 2)); [discriminate|lia].
  - exists k. assert (E : trapezoid g a b (2 ^ S k) = v) by congruence. split; [lia|]. split; [auto|].
    apply Rltb_f in T. rewrite E in T. lra.
Qed.
Lemma integ1_spec : forall func g a b err v, a <= b -> computes func g a b -> integ1 func a b err = Ok v ->
  exists m, v = trapezoid g a b (2 ^ S m) /\ Rabs (v - trapezoid g a b (2 ^ m)) <= err * Rabs v.
Proof.
  intros func g a b err v L C H. unfold integ1 in H. rewrite (integtrap_one func g a b 0 L C) in H. cbn [bind] in H.
  change 2%Z with (Z.of_nat 0 + 2)%Z in H. change 1%nat with (2 ^ 0)%nat in H.
  rewrite (integtrap_next func g a b 0 L C) in H by lia. cbn [bind] in H.
  destruct (refine_spec func g a b err L C 40 0 v H) as (m & _ & M). exists m. exact M.
Qed.

(* Lines. *)
Lemma total_n : forall n, total INR n = INR n * (INR n - 1) / 2.
Proof. intro n. induction n as [|n IH]; [cbn; field|]. cbn [total]. rewrite IH, S_INR. field. Qed.
Lemma total_one : forall c n, total (fun _ => c) n = INR n * c.
Proof. intros c n. induction n as [|n IH]; [cbn; ring|]. cbn [total]. rewrite IH, S_INR. ring. Qed.
Lemma panel_in : forall a b n i, a <= b -> (i <= n)%nat -> (0 < n)%nat -> a <= a + INR i * ((b - a) / INR n) <= b.
Proof.
  intros a b n i L I P. assert (N : 0 < INR n) by (apply lt_0_INR; lia).
  assert (I0 := pos_INR i). apply le_INR in I.
  replace (INR i * ((b - a) / INR n)) with ((b - a) * (INR i / INR n)) by (field; lra).
  assert (Q : 0 <= INR i / INR n <= 1).
  { split; [apply Rmult_le_pos; [lra|]; left; apply Rinv_0_lt_compat; exact N|].
    apply Rmult_le_reg_r with (INR n); [exact N|]. replace (INR i / INR n * INR n) with (INR i) by (field; lra). lra. }
  split; nra.
Qed.
Lemma trap_affine : forall g a b n, a <= b -> (0 < n)%nat -> affine_on g a b ->
  trapezoid g a b n = (b - a) * (g a + g b) / 2.
Proof.
  intros g a b n L P (c & d & A). unfold trapezoid. cbv zeta. assert (N : 0 < INR n) by (apply lt_0_INR; lia).
  set (h := (b - a) / INR n).
  rewrite (total_ext _ (fun i => h * (c + d * a + d * h / 2) + d * h * h * INR i)).
  - rewrite total_plus, total_one, total_scal, total_n.
    rewrite (A a) by lra. rewrite (A b) by lra. subst h. field. lra.
  - intros i I. rewrite !A by (apply panel_in; auto; lia). rewrite S_INR. field.
Qed.
Lemma integ1_affine : forall func g a b err, a <= b -> 0 <= err -> computes func g a b -> affine_on g a b ->
  integ1 func a b err = Ok ((b - a) * (g a + g b) / 2).
Proof.
  intros func g a b err L E C A. unfold integ1. rewrite (integtrap_one func g a b 0 L C). cbn [bind].
  change 2%Z with (Z.of_nat 0 + 2)%Z. change 1%nat with (2 ^ 0)%nat.
  rewrite (integtrap_next func g a b 0 L C) by lia. cbn [bind].
  rewrite !trap_affine by (auto; cbn; lia). cbn [refine].
  rewrite (proj2 (Rltb_f _ _)); [reflexivity|].
  set (t := (b - a) * (g a + g b) / 2). replace (t - t) with 0 by ring. rewrite Rabs_R0.
  apply Rmult_le_pos; [exact E|apply Rabs_pos].
Qed.
Lemma affine_int : forall (g : R -> R) a b, a <= b -> affine_on g a b -> is_RInt g a b ((b - a) * (g a + g b) / 2).
Proof.
  intros g a b L (c & d & A).
  apply is_RInt_ext with (fun x => c + d * x).
  { intros x X. rewrite Rmin_left, Rmax_right in X by exact L. symmetry. apply A. lra. }
  replace ((b - a) * (g a + g b) / 2) with (minus ((fun x => c * x + d * (x * x) / 2) b) ((fun x => c * x + d * (x * x) / 2) a)).
  - apply (is_RInt_derive (fun x => c * x + d * (x * x) / 2) (fun x => c + d * x)).
    + intros x _. auto_derive; [exact I|]. field.
    + intros x _. apply (continuous_plus (fun _ => c) (fun x => d * x)); [apply continuous_const|].
      apply (continuous_mult (fun _ => d) (fun x => x)); [apply continuous_const | apply continuous_id].
  - unfold minus, plus, opp. cbn. rewrite (A a) by lra. rewrite (A b) by lra. field.
Qed.
