(** Proofs for C76: absorption from a curve. *)
From Coq Require Import Reals Lra Lia.
From Verif Require Import Base RotModel ChanModel ChanProofs ShapeModel ShapeProofs GridProofs ScatModel UnitModel UnitSpec UnitProofs PixModel PixSpec.
Open Scope R_scope.

Lemma increasing_iff : forall l, increasing l = true <-> rising l.
Proof.
  induction l as [|a [|b l] IH].
  - split; [|reflexivity]. intros _ i j H. cbn in H. lia.
  - split; [|reflexivity]. intros _ i j H. cbn in H. lia.
  - change (increasing (a :: b :: l)) with (if Rltb a b then increasing (b :: l) else false). destruct (Rltb a b) eqn:L.
    + apply Rltb_t in L. rewrite IH. split; intros H.
      * intros [|i] [|j] IJ; try lia; cbn [List.length] in IJ.
        -- destruct j as [|j]; [exact L|]. apply Rlt_trans with b; [exact L|]. apply (H 0%nat (S j)). cbn [List.length]. lia.
        -- apply (H i j). cbn [List.length]. lia.
      * intros i j IJ. apply (H (S i) (S j)). cbn [List.length] in *. lia.
    + apply Rltb_f in L. split; [discriminate|]. intros H. specialize (H 0%nat 1%nat). cbn in H. assert (a < b) by (apply H; lia). lra.
Qed.
Lemma curve_new : forall energies mus c, new_curve energies mus = Ok c <-> c = (energies, mus) /\ List.length energies = List.length mus /\ energies <> [] /\ rising energies.
Proof.
  intros es ms c. unfold new_curve. destruct (Nat.eqb_spec (List.length es) (List.length ms)) as [E|E]; cbn [negb].
  - destruct es as [|e es].
    + split; [discriminate|]. intros (_ & _ & N & _). congruence.
    + rewrite <- increasing_iff. destruct (increasing (e :: es)).
      * split; [intros H; injection H as <-; repeat split; [exact E|discriminate]|intros (-> & _); reflexivity].
      * split; [discriminate|]. intros (_ & _ & _ & N). discriminate N.
  - split; [discriminate|]. intros (_ & N & _). contradiction.
Qed.

Lemma bisect_spec : forall x xs, rising xs -> forall fuel a b, (a < b < List.length xs)%nat -> (b - a <= fuel)%nat -> nth a xs 0 < x < nth b xs 0 ->
  exists i, bisect fuel x xs a b = Ok i /\ (0 < i < List.length xs)%nat /\ nth (i - 1) xs 0 < x <= nth i xs 0.
Proof.
  intros x xs RI. induction fuel as [|fuel IH]; intros a b AB FU X; [lia|]. cbn [bisect]. rewrite (proj2 (Nat.ltb_lt a b)) by lia.
  destruct (Nat.eqb_spec b (a + 1)) as [E|E].
  - exists b. split; [reflexivity|]. split; [lia|]. replace (b - 1)%nat with a by lia. lra.
  - assert (M : (a < (a + b) / 2 < b)%nat) by (pose proof (Nat.div_mod_eq (a + b) 2); pose proof (Nat.mod_upper_bound (a + b) 2); lia).
    set (m := ((a + b) / 2)%nat) in *. destruct (Reqb (nth m xs 0) x) eqn:Q.
    + apply Reqb_t in Q. exists m. split; [reflexivity|]. split; [lia|]. split; [|lra]. rewrite <- Q. apply RI. lia.
    + apply Reqb_f in Q. destruct (Rltb (nth m xs 0) x) eqn:L.
      * apply Rltb_t in L. apply IH; [lia|lia|lra].
      * apply Rltb_f in L. apply IH; [lia|lia|lra].
Qed.
Lemma find_spec : forall x xs, rising xs -> xs <> [] -> exists i, find_1st_bin_larger_than x xs = Ok i /\
  ((i = 0%nat /\ x <= nth 0 xs 0) \/ (i = List.length xs /\ nth (List.length xs - 1) xs 0 <= x) \/ ((0 < i < List.length xs)%nat /\ nth (i - 1) xs 0 < x <= nth i xs 0)).
Proof.
  intros x xs RI NE. unfold find_1st_bin_larger_than. destruct xs as [|e l] eqn:EX; [congruence|]. rewrite <- EX in *. assert (LE : (0 < List.length xs)%nat) by (rewrite EX; cbn; lia).
  destruct (Rleb (nth (List.length xs - 1) xs 0) x) eqn:A; [apply Rleb_true in A; eauto 10|apply Rleb_false in A].
  destruct (Rleb x (nth 0 xs 0)) eqn:B; [apply Rleb_true in B; eauto 10|apply Rleb_false in B].
  assert (1 < List.length xs)%nat. { destruct (Nat.eq_dec (List.length xs) 1) as [E|E]; [|lia]. rewrite E in A. cbn in A, B. lra. }
  destruct (bisect_spec x xs RI (List.length xs) 0%nat (List.length xs - 1)%nat) as (i & E & I & X); [lia|lia|lra|]. exists i. split; [exact E|]. right. right. tauto.
Qed.
Lemma interpolate_spec : forall energies mus c ev, new_curve energies mus = Ok c ->
  let E := v2E (vnorm (e_v ev)) in let n := List.length energies in
  exists m, interpolate c ev = Ok m /\ (E <= nth 0 energies 0 -> m = nth 0 mus 0) /\ (nth (n - 1) energies 0 <= E -> m = nth (n - 1) mus 0) /\
  forall i, (S i < n)%nat -> nth i energies 0 <= E <= nth (S i) energies 0 -> m = line_through (nth i energies 0) (nth i mus 0) (nth (S i) energies 0) (nth (S i) mus 0) E.
Proof.
  intros es ms c ev NC E n. apply curve_new in NC. destruct NC as (-> & LE & NE & RI). unfold interpolate. cbv zeta. fold E.
  assert (N : (0 < n)%nat) by (unfold n; destruct es; [congruence|cbn; lia]).
  assert (MONO : forall i j, (i <= j < n)%nat -> nth i es 0 <= nth j es 0).
  { intros i j IJ. destruct (Nat.eq_dec i j) as [->|NEQ]; [lra|]. apply Rlt_le, RI. unfold n in IJ. lia. }
  destruct (find_spec E es RI NE) as (k & -> & K). cbn [bind]. fold n in K |- *. destruct K as [(-> & K)|[(-> & K)|(KN & K)]].
  - cbn. eexists. split; [reflexivity|]. split; [reflexivity|]. split.
    + intros L. destruct (Nat.eq_dec n 1) as [->|]; [reflexivity|]. assert (nth 0 es 0 < nth (n - 1) es 0) by (apply RI; unfold n in *; lia). lra.
    + intros i I X. pose proof (MONO 0%nat i ltac:(lia)). destruct i as [|i]; [|assert (nth 0 es 0 < nth (S i) es 0) by (apply RI; unfold n in *; lia); lra].
      assert (nth 0 es 0 = E) as <- by lra. unfold line_through. unfold Rminus at 2. rewrite Rplus_opp_r. unfold Rdiv. ring.
  - rewrite (proj2 (Nat.leb_gt n 0)), Nat.leb_refl by lia. eexists. split; [reflexivity|]. split; [|split; [reflexivity|]].
    + intros L. destruct (Nat.eq_dec n 1) as [->|]; [reflexivity|]. assert (nth 0 es 0 < nth (n - 1) es 0) by (apply RI; unfold n in *; lia). lra.
    + intros i I X. pose proof (MONO (S i) (n - 1)%nat ltac:(lia)). assert (EE : nth (S i) es 0 = E) by lra. destruct (Nat.eq_dec (S i) (n - 1)) as [Q|Q].
      * assert (nth i es 0 < nth (S i) es 0) by (apply RI; unfold n in *; lia). rewrite <- Q, <- EE. unfold line_through. field. lra.
      * assert (nth (S i) es 0 < nth (n - 1) es 0) by (apply RI; unfold n in *; lia). lra.
  - rewrite (proj2 (Nat.leb_gt k 0)), (proj2 (Nat.leb_gt n k)) by lia. assert (D : nth (k - 1) es 0 < nth k es 0) by (apply RI; unfold n in *; lia).
    unfold divide. destruct (Req_EM_T _ 0) as [Z|_]; [lra|]. cbn [bind]. eexists. split; [reflexivity|]. split; [|split].
    + intros L. pose proof (MONO 0%nat (k - 1)%nat ltac:(lia)). lra.
    + intros L. pose proof (MONO k (n - 1)%nat ltac:(lia)). assert (EK : nth k es 0 = E) by lra. destruct (Nat.eq_dec k (n - 1)) as [<-|Q].
      * rewrite EK. field. lra.
      * assert (nth k es 0 < nth (n - 1) es 0) by (apply RI; unfold n in *; lia). lra.
    + intros i I X. destruct (lt_eq_lt_dec i (k - 1)) as [[L|L]|L].
      * pose proof (MONO (S i) (k - 1)%nat ltac:(lia)). lra.
      * subst i. replace (S (k - 1)) with k by lia. unfold line_through. field. lra.
      * pose proof (MONO k i ltac:(lia)). assert (EI : nth i es 0 = E) by lra. assert (EK : nth k es 0 = E) by lra. destruct (Nat.eq_dec k i) as [<-|Q].
        -- rewrite EK. unfold line_through. assert (E < nth (S k) es 0) by (rewrite <- EK; apply RI; unfold n in *; lia). field. lra.
        -- assert (nth k es 0 < nth i es 0) by (apply RI; unfold n in *; lia). lra.
Qed.
