(* Proofs about the probability tables of the SNS source. *)
From Coq Require Import Reals List ZArith Lia Lra Bool.
From Coquelicot Require Import Coquelicot.
From Verif Require Import Base RotModel ShapeModel ChanModel ShapeProofs ShapeProofs2 ChanProofs SnsModel SnsSpec SnsProofs.
Import ListNotations.
Local Open Scope R_scope.

Lemma set_nth_len : forall l n v, List.length (set_nth l n v) = List.length l.
Proof. induction l as [|x l IH]; intros [|n] v; cbn; auto. Qed.
Lemma set_nth_same : forall l n v, (n < List.length l)%nat -> at_ (set_nth l n v) n = v.
Proof. induction l as [|x l IH]; intros [|n] v H; cbn in *; try lia; auto. apply IH. lia. Qed.
Lemma set_nth_other : forall l n v i, i <> n -> at_ (set_nth l n v) i = at_ l i.
Proof.
  induction l as [|x l IH]; intros [|n] v [|i] H; cbn; auto; try contradiction.
  apply IH. congruence.
Qed.
Lemma wr_at : forall l i v, (i < List.length l)%nat -> wr l (Z.of_nat i) v = Ok (set_nth l i v).
Proof.
  intros l i v H. unfold wr. destruct (Z.ltb_spec (Z.of_nat i) 0); [lia|].
  destruct (Z.leb_spec (Z.of_nat (List.length l)) (Z.of_nat i)); [lia|]. cbn [orb]. rewrite Nat2Z.id. reflexivity.
Qed.

Lemma below_spec : forall llim xs s, (s < List.length xs)%nat -> llim < at_ xs s ->
  forall d i p f, (i + d = s)%nat -> List.length p = List.length xs -> (forall j, (i <= j < s)%nat -> at_ xs j <= llim) ->
  (d < f)%nat ->
  exists p', below llim xs f p (Z.of_nat i) = Ok (p', Z.of_nat s) /\ List.length p' = List.length xs
    /\ (forall j, (i <= j < s)%nat -> at_ p' j = 0) /\ (forall j, (j < i \/ s <= j)%nat -> at_ p' j = at_ p j).
Proof.
  intros llim xs s B A d. induction d as [|d IH]; intros i p f E L K F; (destruct f as [|f]; [lia|]); cbn [below].
  - assert (Ee : i = s) by lia. clear E. subst i. rewrite rd_at by exact B. cbn [bind]. rewrite (proj2 (Rleb_false _ _)) by exact A.
    exists p. repeat split; auto. intros j J. lia.
  - rewrite rd_at by lia. cbn [bind]. rewrite (proj2 (Rleb_true _ _)) by (apply K; lia).
    rewrite wr_at by lia. cbn [bind]. replace (Z.of_nat i + 1)%Z with (Z.of_nat (S i)) by lia.
    destruct (IH (S i) (set_nth p i 0) f) as (p' & P1 & P2 & P3 & P4);
      [lia|rewrite set_nth_len; exact L|intros j J; apply K; lia|lia|].
    exists p'. split; [exact P1|]. split; [exact P2|]. split.
    + intros j J. destruct (Nat.eq_dec j i) as [->|N]; [|apply P3; lia].
      rewrite P4 by lia. apply set_nth_same. lia.
    + intros j J. rewrite P4 by lia. apply set_nth_other. lia.
Qed.

Lemma at_le : forall xs, rises xs -> forall i, (i < List.length xs)%nat -> at_ xs 0 <= at_ xs i <= final xs.
Proof. intros xs M i B. split; apply rises_le; auto; lia. Qed.

Lemma affine_sub : forall g a b a' b', affine_on g a b -> a <= a' -> b' <= b -> affine_on g a' b'.
Proof. intros g a b a' b' (c & d & A) L1 L2. exists c, d. intros x X. apply A. lra. Qed.

Lemma integ1_panel : forall func (g : R -> R) xs k a, rises xs -> computes func g (at_ xs 0) (final xs) ->
  (S k < List.length xs)%nat -> affine_on g (at_ xs k) (at_ xs (S k)) -> at_ xs k <= a <= at_ xs (S k) ->
  exists v, integ1 func a (at_ xs (S k)) (1 / 1000) = Ok v /\ is_RInt g a (at_ xs (S k)) v.
Proof.
  intros func g xs k a M C B A L. eexists. split.
  - apply (integ1_affine func g); [lra|lra| |].
    + intros x X. apply C. assert (H1 := at_le xs M k ltac:(lia)). assert (H2 := at_le xs M (S k) B). lra.
    + apply affine_sub with (1 := A); lra.
  - apply affine_int; [lra|]. apply affine_sub with (1 := A); lra.
Qed.

Lemma cumulate_spec : forall func (g : R -> R) hlim xs e from, rises xs -> computes func g (at_ xs 0) (final xs) ->
  (forall k, (S k < List.length xs)%nat -> affine_on g (at_ xs k) (at_ xs (S k))) ->
  (e < List.length xs)%nat -> hlim < at_ xs e ->
  forall d i p f, (S i + d = e)%nat -> List.length p = List.length xs ->
  (forall j, (S i <= j < e)%nat -> at_ xs j <= hlim) -> (d < f)%nat ->
  is_RInt g from (at_ xs i) (at_ p i) ->
  exists p', cumulate func hlim xs f p (Z.of_nat (S i)) = Ok (p', Z.of_nat e) /\ List.length p' = List.length xs
    /\ (forall j, (i <= j < e)%nat -> is_RInt g from (at_ xs j) (at_ p' j))
    /\ (forall j, (j <= i \/ e <= j)%nat -> at_ p' j = at_ p j).
Proof.
  intros func g hlim xs e from M C A B H d. induction d as [|d IH]; intros i p f E L K F N;
    (destruct f as [|f]; [lia|]); cbn [cumulate].
  - assert (Ee : e = S i) by lia. clear E. subst e. rewrite rd_at by exact B. cbn [bind]. rewrite (proj2 (Rleb_false _ _)) by exact H.
    exists p. repeat split; auto. intros j J. assert (j = i) by lia. subst j. exact N.
  - rewrite rd_at by lia. cbn [bind]. rewrite (proj2 (Rleb_true _ _)) by (apply K; lia).
    replace (Z.of_nat (S i) - 1)%Z with (Z.of_nat i) by lia. rewrite rd_at by lia. cbn [bind].
    assert (Mi := M i ltac:(lia)).
    destruct (integ1_panel func g xs i (at_ xs i) M C ltac:(lia) (A i ltac:(lia)) ltac:(lra)) as (v & V1 & V2).
    rewrite V1. cbn [bind]. rewrite rd_at by lia. cbn [bind]. rewrite wr_at by lia. cbn [bind].
    replace (Z.of_nat (S i) + 1)%Z with (Z.of_nat (S (S i))) by lia.
    set (q := set_nth p (S i) (at_ p i + v)).
    assert (Q : at_ q (S i) = at_ p i + v) by (apply set_nth_same; lia).
    destruct (IH (S i) q f) as (p' & P1 & P2 & P3 & P4);
      [lia|unfold q; rewrite set_nth_len; exact L|intros j J; apply K; lia|lia| |].
    { rewrite Q. apply (is_RInt_Chasles g from (at_ xs i) (at_ xs (S i)) (at_ p i) v N V2). }
    exists p'. split; [exact P1|]. split; [exact P2|]. split.
    + intros j J. destruct (Nat.eq_dec j i) as [->|Ne]; [|apply P3; lia].
      rewrite P4 by lia. unfold q. rewrite set_nth_other by lia. exact N.
    + intros j J. rewrite P4 by lia. unfold q. apply set_nth_other. lia.
Qed.

Lemma ones_spec : forall n p i, (i + n <= List.length p)%nat ->
  exists p', ones n p (Z.of_nat i) = Ok p' /\ List.length p' = List.length p
    /\ (forall j, (i <= j < i + n)%nat -> at_ p' j = 1) /\ (forall j, (j < i \/ i + n <= j)%nat -> at_ p' j = at_ p j).
Proof.
  induction n as [|n IH]; intros p i B; cbn [ones].
  - exists p. repeat split; auto. intros j J. lia.
  - rewrite wr_at by lia. cbn [bind]. replace (Z.of_nat i + 1)%Z with (Z.of_nat (S i)) by lia.
    destruct (IH (set_nth p i 1) (S i)) as (p' & P1 & P2 & P3 & P4); [rewrite set_nth_len; lia|].
    rewrite set_nth_len in P2. exists p'. split; [exact P1|]. split; [exact P2|]. split.
    + intros j J. destruct (Nat.eq_dec j i) as [->|N]; [|apply P3; lia].
      rewrite P4 by lia. apply set_nth_same. lia.
    + intros j J. rewrite P4 by lia. apply set_nth_other. lia.
Qed.
Lemma norm_spec : forall c n p i, (i + n <= List.length p)%nat ->
  exists p', norm_all c n p (Z.of_nat i) = Ok p' /\ List.length p' = List.length p
    /\ (forall j, (i <= j < i + n)%nat -> at_ p' j = at_ p j / c) /\ (forall j, (j < i \/ i + n <= j)%nat -> at_ p' j = at_ p j).
Proof.
  intros c. induction n as [|n IH]; intros p i B; cbn [norm_all].
  - exists p. repeat split; auto. intros j J. lia.
  - rewrite rd_at by lia. cbn [bind]. rewrite wr_at by lia. cbn [bind]. replace (Z.of_nat i + 1)%Z with (Z.of_nat (S i)) by lia.
    destruct (IH (set_nth p i (at_ p i / c)) (S i)) as (p' & P1 & P2 & P3 & P4); [rewrite set_nth_len; lia|].
    rewrite set_nth_len in P2. exists p'. split; [exact P1|]. split; [exact P2|]. split.
    + intros j J. destruct (Nat.eq_dec j i) as [->|N].
      * rewrite P4 by lia. apply set_nth_same. lia.
      * rewrite P3 by lia. rewrite set_nth_other by lia. reflexivity.
    + intros j J. rewrite P4 by lia. apply set_nth_other. lia.
Qed.
Lemma finish_spec : forall p veclen s e, (s < e)%nat -> (e <= List.length p)%nat -> (veclen <= List.length p)%nat ->
  exists p', finish p (Z.of_nat veclen) (Z.of_nat s) (Z.of_nat e) = Ok (p', Z.of_nat s, Z.of_nat e)
    /\ List.length p' = List.length p
    /\ (forall j, (j < s)%nat -> at_ p' j = at_ p j)
    /\ (forall j, (e <= j < veclen)%nat -> at_ p' j = 1)
    /\ (0 < at_ p (e - 1) -> forall j, (s <= j < e)%nat -> at_ p' j = at_ p j / at_ p (e - 1))
    /\ (at_ p (e - 1) <= 0 -> forall j, (s <= j < e)%nat -> at_ p' j = at_ p j).
Proof.
  intros p veclen s e L B V. unfold finish.
  replace (Z.to_nat (Z.of_nat veclen - Z.of_nat e)) with (veclen - e)%nat by lia.
  destruct (ones_spec (veclen - e) p e) as (q & Q1 & Q2 & Q3 & Q4); [lia|]. rewrite Q1. cbn [bind].
  replace (Z.of_nat e - 1)%Z with (Z.of_nat (e - 1)) by lia. rewrite rd_at by lia. cbn [bind].
  rewrite (Q4 (e - 1)%nat) by lia. destruct (Rlt_dec 0 (at_ p (e - 1))) as [P|P].
  - rewrite (proj2 (Rltb_t _ _)) by exact P.
    replace (Z.to_nat (Z.of_nat e - Z.of_nat s)) with (e - s)%nat by lia.
    destruct (norm_spec (at_ p (e - 1)) (e - s) q s) as (r & R1 & R2 & R3 & R4); [lia|].
    rewrite R1. cbn [bind]. exists r. split; [reflexivity|]. split; [lia|]. split; [|split; [|split]].
    + intros j J. rewrite R4 by lia. apply Q4. lia.
    + intros j J. rewrite R4 by lia. apply Q3. lia.
    + intros _ j J. rewrite R3 by lia. rewrite Q4 by lia. reflexivity.
    + intro. lra.
  - rewrite (proj2 (Rltb_f _ _)) by lra. exists q. split; [reflexivity|]. split; [exact Q2|]. split; [|split; [|split]].
    + intros j J. apply Q4. lia.
    + intros j J. apply Q3. lia.
    + intro. lra.
    + intros _ j J. apply Q4. lia.
Qed.

Lemma Pcalc_ok : forall func (g : R -> R) llim hlim xs p veclen s e,
  rises xs -> List.length p = List.length xs -> (veclen <= List.length xs)%nat ->
  computes func g (at_ xs 0) (final xs) ->
  (forall k, (S k < List.length xs)%nat -> affine_on g (at_ xs k) (at_ xs (S k))) ->
  (0 < s)%nat -> at_ xs (s - 1) <= llim < at_ xs s -> (s < e < List.length xs)%nat ->
  (at_ xs (e - 1) <= hlim \/ e = S s) -> hlim < at_ xs e ->
  exists P, Pcalc func llim hlim xs p (Z.of_nat veclen) = Ok (P, Z.of_nat s, Z.of_nat e)
    /\ cumulative g llim xs P s e veclen.
Proof.
  intros func g llim hlim xs p veclen s e M L V C A S0 LL B H1 H2.
  unfold Pcalc. cbv zeta. change 0%Z with (Z.of_nat 0).
  destruct (below_spec llim xs s ltac:(lia) (proj2 LL) s 0 p (S (List.length xs))) as (q & Q1 & Q2 & Q3 & Q4); [lia|exact L| |lia|].
  { intros j J. apply Rle_trans with (at_ xs (s - 1)); [apply rises_le; auto; lia|lra]. }
  rewrite Q1. cbn [bind]. destruct (Z.ltb_spec (Z.of_nat s) 1); [lia|].
  rewrite rd_at by lia. cbn [bind]. destruct s as [|s]; [lia|]. replace (S s - 1)%nat with s in * by lia.
  destruct (integ1_panel func g xs s llim M C ltac:(lia) (A s ltac:(lia)) ltac:(lra)) as (v & V1 & V2).
  rewrite V1. cbn [bind]. rewrite wr_at by lia. cbn [bind].
  replace (Z.of_nat (S s) + 1)%Z with (Z.of_nat (S (S s))) by lia.
  set (q1 := set_nth q (S s) v). assert (E1 : at_ q1 (S s) = v) by (apply set_nth_same; lia).
  destruct (cumulate_spec func g hlim xs e llim M C A ltac:(lia) H2 (e - S (S s)) (S s) q1 (S (List.length xs))) as (r & R1 & R2 & R3 & R4);
    [lia|unfold q1; rewrite set_nth_len; exact Q2| |lia|rewrite E1; exact V2|].
  { intros j J. destruct H1 as [H1|H1]; [|lia]. apply Rle_trans with (at_ xs (e - 1)); [apply rises_le; auto; lia|lra]. }
  rewrite R1. cbn [bind].
  destruct (finish_spec r veclen (S s) e) as (P & P1 & P2 & P3 & P4 & P5 & P6); [lia|lia|lia|].
  exists P. split; [exact P1|]. split; [lia|]. split; [|split; [exact P4|]].
  - intros j J. rewrite P3 by exact J. rewrite R4 by lia. unfold q1. rewrite set_nth_other by lia. apply Q3. lia.
  - exists (at_ r). split; [|split]; assumption.
Qed.

Lemma tPcalc_ok : forall func (g : R -> R) llim hlim xs p veclen s e,
  rises xs -> List.length p = List.length xs -> (veclen <= List.length xs)%nat ->
  computes func g (at_ xs 0) (final xs) ->
  (forall k, (S k < List.length xs)%nat -> affine_on g (at_ xs k) (at_ xs (S k))) ->
  (0 < s)%nat -> at_ xs (s - 1) <= llim < at_ xs s -> (s < e < List.length xs)%nat ->
  at_ xs (e - 1) <= hlim < at_ xs e ->
  exists P, tPcalc func llim hlim xs p (Z.of_nat veclen) = Ok (P, Z.of_nat s, Z.of_nat e)
    /\ cumulative g (at_ xs (s - 1)) xs P s e veclen.
Proof.
  intros func g llim hlim xs p veclen s e M L V C A S0 LL B H.
  unfold tPcalc. cbv zeta. change 0%Z with (Z.of_nat 0).
  destruct (below_spec llim xs s ltac:(lia) (proj2 LL) s 0 p (S (List.length xs))) as (q & Q1 & Q2 & Q3 & Q4); [lia|exact L| |lia|].
  { intros j J. apply Rle_trans with (at_ xs (s - 1)); [apply rises_le; auto; lia|lra]. }
  rewrite Q1. cbn [bind].
  rewrite rd_at by lia. cbn [bind]. destruct s as [|s]; [lia|]. replace (S s - 1)%nat with s in * by lia.
  destruct (integ1_panel func g xs s llim M C ltac:(lia) (A s ltac:(lia)) ltac:(lra)) as (v & V1 & V2).
  rewrite V1. cbn [bind]. rewrite wr_at by lia. cbn [bind].
  set (q1 := set_nth q (S s) v). assert (E1 : at_ q1 s = 0) by (unfold q1; rewrite set_nth_other by lia; apply Q3; lia).
  destruct (cumulate_spec func g hlim xs e (at_ xs s) M C A ltac:(lia) (proj2 H) (e - S s) s q1 (S (List.length xs))) as (r & R1 & R2 & R3 & R4);
    [lia|unfold q1; rewrite set_nth_len; exact Q2| |lia|rewrite E1; apply (is_RInt_point g)|].
  { intros j J. apply Rle_trans with (at_ xs (e - 1)); [apply rises_le; auto; lia|lra]. }
  rewrite R1. cbn [bind].
  destruct (finish_spec r veclen (S s) e) as (P & P1 & P2 & P3 & P4 & P5 & P6); [lia|lia|lia|].
  exists P. split; [exact P1|]. split; [lia|]. split; [|split; [exact P4|]].
  - intros j J. rewrite P3 by exact J. rewrite R4 by lia. unfold q1. rewrite set_nth_other by lia. apply Q3. lia.
  - exists (at_ r). split; [|split]; [|assumption|assumption]. intros j J. apply R3. lia.
Qed.

(* Values between 0 and 1 that do not decrease. *)
Lemma cumulative_range : forall (g : R -> R) from xs P s e veclen, rises xs -> (s < e <= List.length xs)%nat -> from <= at_ xs s ->
  (forall x, 0 <= g x) -> cumulative g from xs P s e veclen ->
  (exists v, is_RInt g from (at_ xs (e - 1)) v /\ 0 < v) ->
  (forall i j, (i <= j)%nat -> (j < e)%nat -> 0 <= at_ P i <= at_ P j) /\ at_ P (e - 1) = 1.
Proof.
  intros g from xs P s e veclen M B F G (L & Z0 & O & I & I1 & I2 & I3) (v & Hv & V).
  assert (E : I (e - 1)%nat = v).
  { rewrite <- (is_RInt_unique _ _ _ _ (I1 (e - 1)%nat ltac:(lia))), <- (is_RInt_unique _ _ _ _ Hv). reflexivity. }
  assert (V' : 0 < I (e - 1)%nat) by lra.
  assert (mono : forall i j, (s <= i)%nat -> (i <= j)%nat -> (j < e)%nat -> 0 <= I i <= I j).
  { intros i j Si Sij Sj. assert (Xi : at_ xs s <= at_ xs i) by (apply rises_le; auto; lia).
    assert (Xij : at_ xs i <= at_ xs j) by (apply rises_le; auto; lia).
    split.
    - apply (is_RInt_ge_0 g from (at_ xs i)); [lra|apply I1; lia|]. intros x _. apply G.
    - assert (D := is_RInt_Chasles g (at_ xs i) from (at_ xs j) (opp (I i)) (I j) (is_RInt_swap _ _ _ _ (I1 i ltac:(lia))) (I1 j ltac:(lia))).
      assert (D' : 0 <= plus (opp (I i)) (I j)) by (apply (is_RInt_ge_0 g (at_ xs i) (at_ xs j)); [exact Xij|exact D|intros x _; apply G]).
      unfold plus, opp in D'. cbn in D'. lra. }
  split.
  - intros i j Ij Je. destruct (Nat.lt_ge_cases i s) as [S1|S1].
    + rewrite (Z0 i S1). split; [lra|]. destruct (Nat.lt_ge_cases j s) as [S2|S2]; [rewrite (Z0 j S2); lra|].
      rewrite I2 by (auto; lia). apply Rmult_le_pos; [apply (mono j j); lia|]. left. apply Rinv_0_lt_compat. exact V'.
    + rewrite !I2 by (auto; lia). assert (Q := mono i j S1 Ij Je). assert (W := Rinv_0_lt_compat _ V').
      split; [apply Rmult_le_pos; lra|]. apply Rmult_le_compat_r; lra.
  - rewrite I2 by (auto; lia). field. lra.
Qed.

(* Limits outside. *)
Lemma Pcalc_low : forall func llim hlim xs p veclen, (0 < List.length xs)%nat -> llim < at_ xs 0 ->
  Pcalc func llim hlim xs p veclen = Err Terminated.
Proof.
  intros func llim hlim xs p veclen B L. unfold Pcalc. cbv zeta. cbn [below]. change 0%Z with (Z.of_nat 0).
  rewrite rd_at by exact B. cbn [bind]. rewrite (proj2 (Rleb_false _ _)) by exact L. reflexivity.
Qed.
Lemma tPcalc_low : forall len ys llim hlim xs p veclen, (0 < List.length xs)%nat -> llim < at_ xs 0 ->
  tPcalc (xonly len xs ys) llim hlim xs p veclen = Err UndefinedBehaviour.
Proof.
  intros len ys llim hlim xs p veclen B L. unfold tPcalc. cbv zeta. cbn [below]. change 0%Z with (Z.of_nat 0).
  rewrite rd_at by exact B. cbn [bind]. rewrite (proj2 (Rleb_false _ _)) by exact L. cbn [bind].
  rewrite rd_at by exact B. cbn [bind]. unfold integ1, integtrap. cbn [Z.eqb Pos.eqb].
  unfold xonly at 1. destruct (linfuncint (at_ xs 0) len xs ys) as [v|er] eqn:E; cbn [bind].
  - unfold xonly at 1. rewrite lin_below by assumption. reflexivity.
  - revert E. unfold linfuncint. cbn [scan]. change 0%Z with (Z.of_nat 0). rewrite rd_at by exact B. cbn [bind].
    rewrite (proj2 (Rltb_f _ _)) by lra. cbn [andb bind]. rewrite rd_at by exact B. cbn [bind].
    rewrite Reqb_t' by reflexivity. unfold rd. cbn [Z.ltb Z.compare Z.of_nat].
    destruct (nth_error ys (Z.to_nat 0)); intro E; congruence.
Qed.
Lemma cumulate_off : forall func (g : R -> R) hlim xs, rises xs -> computes func g (at_ xs 0) (final xs) ->
  (forall k, (S k < List.length xs)%nat -> affine_on g (at_ xs k) (at_ xs (S k))) -> final xs <= hlim ->
  forall d i p f, (S i + d = List.length xs)%nat -> List.length p = List.length xs -> (d < f)%nat ->
  cumulate func hlim xs f p (Z.of_nat (S i)) = Err UndefinedBehaviour.
Proof.
  intros func g hlim xs M C A H d. induction d as [|d IH]; intros i p f E L F; (destruct f as [|f]; [lia|]); cbn [cumulate].
  - rewrite rd_out by lia. reflexivity.
  - rewrite rd_at by lia. cbn [bind]. assert (X := at_le xs M (S i) ltac:(lia)).
    rewrite (proj2 (Rleb_true _ _)) by lra.
    replace (Z.of_nat (S i) - 1)%Z with (Z.of_nat i) by lia. rewrite rd_at by lia. cbn [bind].
    assert (Mi := M i ltac:(lia)).
    destruct (integ1_panel func g xs i (at_ xs i) M C ltac:(lia) (A i ltac:(lia)) ltac:(lra)) as (v & V1 & _).
    rewrite V1. cbn [bind]. rewrite rd_at by lia. cbn [bind]. rewrite wr_at by lia. cbn [bind].
    replace (Z.of_nat (S i) + 1)%Z with (Z.of_nat (S (S i))) by lia. apply IH; [lia|rewrite set_nth_len; exact L|lia].
Qed.
Lemma Pcalc_high : forall func (g : R -> R) llim hlim xs p veclen,
  rises xs -> List.length p = List.length xs -> computes func g (at_ xs 0) (final xs) ->
  (forall k, (S k < List.length xs)%nat -> affine_on g (at_ xs k) (at_ xs (S k))) ->
  (0 < List.length xs)%nat -> at_ xs 0 <= llim -> final xs <= hlim ->
  Pcalc func llim hlim xs p veclen = Err UndefinedBehaviour.
Proof.
  intros func g llim hlim xs p veclen M L C A B LL H. unfold Pcalc. cbv zeta. change 0%Z with (Z.of_nat 0).
  destruct (Rlt_dec llim (final xs)) as [F|F].
  - assert (S : exists s, (0 < s < List.length xs)%nat /\ at_ xs (s - 1) <= llim < at_ xs s).
    { assert (N : (0 < List.length xs - 1)%nat).
      { destruct (Nat.eq_dec (List.length xs - 1) 0) as [Z0|Z0]; [|lia]. unfold final in F. rewrite Z0 in F. lra. }
      assert (K : forall n, (n < List.length xs)%nat -> llim < at_ xs n -> exists s, (0 < s <= n)%nat /\ at_ xs (s - 1) <= llim < at_ xs s).
      { induction n as [|n IH]; intros Bn Ln; [lra|]. destruct (Rlt_dec llim (at_ xs n)) as [X|X].
        - destruct IH as (s & S1 & S2); [lia|exact X|]. exists s. split; [lia|exact S2].
        - exists (S n). split; [lia|]. replace (S n - 1)%nat with n by lia. lra. }
      destruct (K (List.length xs - 1)%nat) as (s & S1 & S2); [lia|exact F|]. exists s. split; [lia|exact S2]. }
    destruct S as (s & Sb & Sl).
    destruct (below_spec llim xs s ltac:(lia) (proj2 Sl) s 0 p (Datatypes.S (List.length xs))) as (q & Q1 & Q2 & _); [lia|exact L| |lia|].
    { intros j J. apply Rle_trans with (at_ xs (s - 1)); [apply rises_le; auto; lia|lra]. }
    rewrite Q1. cbn [bind]. destruct (Z.ltb_spec (Z.of_nat s) 1); [lia|].
    rewrite rd_at by lia. cbn [bind]. destruct s as [|s]; [lia|]. replace (Datatypes.S s - 1)%nat with s in * by lia.
    destruct (integ1_panel func g xs s llim M C ltac:(lia) (A s ltac:(lia)) ltac:(lra)) as (v & V1 & _).
    rewrite V1. cbn [bind]. rewrite wr_at by lia. cbn [bind].
    replace (Z.of_nat (Datatypes.S s) + 1)%Z with (Z.of_nat (Datatypes.S (Datatypes.S s))) by lia.
    rewrite (cumulate_off func g hlim xs M C A H (List.length xs - Datatypes.S (Datatypes.S s)) (Datatypes.S s)); [reflexivity|lia|rewrite set_nth_len; exact Q2|lia].
  - assert (K : forall d i q f, (i + d = List.length xs)%nat -> List.length q = List.length xs -> (d < f)%nat ->
      below llim xs f q (Z.of_nat i) = Err UndefinedBehaviour).
    { induction d as [|d IH]; intros i q f E Lq Ff; (destruct f as [|f]; [lia|]); cbn [below].
      - rewrite rd_out by lia. reflexivity.
      - rewrite rd_at by lia. cbn [bind]. assert (X := at_le xs M i ltac:(lia)). rewrite (proj2 (Rleb_true _ _)) by lra.
        rewrite wr_at by lia. cbn [bind]. replace (Z.of_nat i + 1)%Z with (Z.of_nat (S i)) by lia.
        apply IH; [lia|rewrite set_nth_len; exact Lq|lia]. }
    rewrite (K (List.length xs) 0%nat); [reflexivity|lia|exact L|lia].
Qed.

(* The curve that xonly follows. *)
Lemma xonly_computes : forall (g : R -> R) len xs ys, rises xs -> List.length ys = List.length xs -> (2 <= List.length xs)%nat ->
  (Z.of_nat (List.length xs) - 1 <= len)%Z -> follows g xs ys -> computes (xonly len xs ys) g (at_ xs 0) (final xs).
Proof.
  intros g len xs ys M Y B L (G1 & G2) x X. unfold xonly.
  destruct (find_panel xs M x (List.length xs - 1)) as (k & K1 & K2); [lia|exact X|lia|].
  destruct (lin_between xs ys len k x M Y ltac:(lia) ltac:(lia) K2) as (y & E & D). rewrite E. f_equal.
  assert (N := M k ltac:(lia)). destruct (G1 k ltac:(lia)) as (c & d & A).
  assert (A1 := A (at_ xs k) ltac:(lra)). assert (A2 := A (at_ xs (S k)) ltac:(lra)).
  rewrite G2 in A1 by lia. rewrite G2 in A2 by lia. rewrite (A x K2). unfold chord_at in D. rewrite A1, A2 in D.
  apply Rmult_eq_reg_r with (at_ xs (S k) - at_ xs k); [|lra].
  replace (y * (at_ xs (S k) - at_ xs k)) with ((y - (c + d * at_ xs k)) * (at_ xs (S k) - at_ xs k) + (c + d * at_ xs k) * (at_ xs (S k) - at_ xs k)) by ring.
  rewrite D. ring.
Qed.

(* Where a table comes out, the array for it was long enough: what is written and
   read lies inside of it. *)
Lemma rd_inside : forall l i v, rd l i = Ok v -> (0 <= i < Z.of_nat (List.length l))%Z.
Proof.
  intros l i v H. unfold rd in H. destruct (Z.ltb_spec i 0); [discriminate|].
  destruct (nth_error l (Z.to_nat i)) eqn:N; [|discriminate]. assert ((Z.to_nat i < List.length l)%nat) by (apply nth_error_Some; congruence). lia.
Qed.
Lemma wr_inside : forall l i v l', wr l i v = Ok l' -> (0 <= i < Z.of_nat (List.length l))%Z /\ List.length l' = List.length l.
Proof.
  intros l i v l' H. unfold wr in H. destruct (Z.ltb_spec i 0); [discriminate|].
  destruct (Z.leb_spec (Z.of_nat (List.length l)) i); [discriminate|]. cbn [orb] in H. injection H as <-. split; [lia|apply set_nth_len].
Qed.
Lemma below_length : forall llim xvec fuel Prob idx P i, below llim xvec fuel Prob idx = Ok (P, i) -> List.length P = List.length Prob.
Proof.
  intros llim xvec. induction fuel as [|f IH]; intros Prob idx P i H; [discriminate|]. cbn [below] in H.
  destruct (rd xvec idx) as [x|]; [|discriminate]. cbn [bind] in H. destruct (Rleb x llim); [|injection H as <- _; reflexivity].
  destruct (wr Prob idx 0) as [P'|] eqn:W; [|discriminate]. cbn [bind] in H. apply IH in H. apply wr_inside in W. destruct W; congruence.
Qed.
Lemma cumulate_length : forall func hlim xvec fuel Prob idx P i, cumulate func hlim xvec fuel Prob idx = Ok (P, i) -> List.length P = List.length Prob.
Proof.
  intros func hlim xvec. induction fuel as [|f IH]; intros Prob idx P i H; [discriminate|]. cbn [cumulate] in H.
  destruct (rd xvec idx) as [x|]; [|discriminate]. cbn [bind] in H. destruct (Rleb x hlim); [|injection H as <- _; reflexivity].
  destruct (rd xvec (idx - 1)) as [x1|]; [|discriminate]. cbn [bind] in H. destruct (integ1 func x1 x (1 / 1000)) as [j|]; [|discriminate]. cbn [bind] in H.
  destruct (rd Prob (idx - 1)) as [p1|]; [|discriminate]. cbn [bind] in H.
  destruct (wr Prob idx (p1 + j)) as [P'|] eqn:W; [|discriminate]. cbn [bind] in H. apply IH in H. apply wr_inside in W. destruct W; congruence.
Qed.
Lemma ones_inside : forall n Prob idx P, ones n Prob idx = Ok P -> List.length P = List.length Prob
  /\ ((0 < n)%nat -> (0 <= idx /\ idx + Z.of_nat n <= Z.of_nat (List.length Prob))%Z).
Proof.
  induction n as [|n IH]; intros Prob idx P H; cbn [ones] in H; [injection H as <-; split; [reflexivity|lia]|].
  destruct (wr Prob idx 1) as [P'|] eqn:W; [|discriminate]. cbn [bind] in H. apply IH in H. apply wr_inside in W.
  destruct H as (L & B), W as (W & L'). split; [congruence|]. intros _. destruct n as [|n]; [lia|]. rewrite L' in B. specialize (B ltac:(lia)). lia.
Qed.
Lemma norm_length : forall Norm n Prob idx P, norm_all Norm n Prob idx = Ok P -> List.length P = List.length Prob.
Proof.
  intros Norm. induction n as [|n IH]; intros Prob idx P H; cbn [norm_all] in H; [injection H as <-; reflexivity|].
  destruct (rd Prob idx) as [p|]; [|discriminate]. cbn [bind] in H.
  destruct (wr Prob idx (p / Norm)) as [P'|] eqn:W; [|discriminate]. cbn [bind] in H. apply IH in H. apply wr_inside in W. destruct W; congruence.
Qed.
Lemma finish_inside : forall Prob veclen start stop P s e, finish Prob veclen start stop = Ok (P, s, e) ->
  List.length P = List.length Prob /\ e = stop /\ (1 <= stop <= Z.of_nat (List.length Prob))%Z /\ (veclen <= Z.of_nat (List.length Prob))%Z.
Proof.
  intros Prob veclen start stop P s e H. unfold finish in H. destruct (ones (Z.to_nat (veclen - stop)) Prob stop) as [P1|] eqn:O; [|discriminate]. cbn [bind] in H.
  destruct (rd P1 (stop - 1)) as [N|] eqn:R; [|discriminate]. cbn [bind] in H. apply ones_inside in O. apply rd_inside in R. destruct O as (L & B).
  assert (X : List.length P = List.length P1 /\ e = stop).
  { destruct (Rltb 0 N); [|injection H as <- _ <-; auto]. destruct (norm_all N (Z.to_nat (stop - start)) P1 start) as [P2|] eqn:A; [|discriminate].
    cbn [bind] in H. injection H as <- _ <-. apply norm_length in A. auto. }
  destruct X as (X & ->). rewrite L in *. split; [assumption|]. split; [reflexivity|]. split; [lia|].
  destruct (Z.to_nat (veclen - stop)) as [|n] eqn:K; [lia|]. specialize (B ltac:(lia)). lia.
Qed.
Lemma tables_inside : forall func llim hlim xs p veclen P s e,
  Pcalc func llim hlim xs p veclen = Ok (P, s, e) \/ tPcalc func llim hlim xs p veclen = Ok (P, s, e) ->
  List.length P = List.length p /\ (1 <= e <= Z.of_nat (List.length p))%Z /\ (veclen <= Z.of_nat (List.length p))%Z.
Proof.
  intros func llim hlim xs p veclen P s e [H|H]; [unfold Pcalc in H|unfold tPcalc in H];
    (destruct (below llim xs (S (List.length xs)) p 0) as [(P1, i1)|] eqn:B; [|discriminate]); cbn [bind] in H; apply below_length in B.
  - destruct (i1 <? 1)%Z; [discriminate|]. destruct (rd xs i1) as [x|]; [|discriminate]. cbn [bind] in H.
    destruct (integ1 func llim x (1 / 1000)) as [f|]; [|discriminate]. cbn [bind] in H. destruct (wr P1 i1 f) as [P2|] eqn:W; [|discriminate]. cbn [bind] in H.
    destruct (cumulate func hlim xs (S (List.length xs)) P2 (i1 + 1)) as [(P3, i3)|] eqn:C; [|discriminate]. cbn [bind] in H.
    apply wr_inside in W. apply cumulate_length in C. apply finish_inside in H. destruct W as (_ & W), H as (L & -> & H1 & H2).
    assert (E : List.length P3 = List.length p) by congruence. rewrite E in *. auto.
  - destruct (rd xs i1) as [x|]; [|discriminate]. cbn [bind] in H.
    destruct (integ1 func llim x (1 / 1000)) as [f|]; [|discriminate]. cbn [bind] in H. destruct (wr P1 i1 f) as [P2|] eqn:W; [|discriminate]. cbn [bind] in H.
    destruct (cumulate func hlim xs (S (List.length xs)) P2 i1) as [(P3, i3)|] eqn:C; [|discriminate]. cbn [bind] in H.
    apply wr_inside in W. apply cumulate_length in C. apply finish_inside in H. destruct W as (_ & W), H as (L & -> & H1 & H2).
    assert (E : List.length P3 = List.length p) by congruence. rewrite E in *. auto.
Qed.
