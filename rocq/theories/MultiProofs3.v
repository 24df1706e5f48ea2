(** Proofs for C50: all orders and their sum. *)
From Coq Require Import Reals Lra Psatz.
From Verif Require Import Base RotModel DetModel ChanModel MonModel ShapeModel ScatModel UnitModel GridModel PhonModel PhonSpec ChanProofs ShapeProofs UnitProofs KinProofs GridProofs PhonProofs PhonProofs2 MultiModel MultiSpec MultiProofs MultiProofs2.
Open Scope R_scope.

(** ** Orders *)
Lemma next_follows A1 r dE r' : List.length r = List.length A1 -> A1 <> [] -> dE <> 0 -> AnE_from_n_1 A1 r dE = Ok (Some r') -> next_spectrum A1 dE r r'.
Proof.
  intros L N D H. rewrite next_exact in H by assumption. destruct (Req_EM_T _ 0) as [Z|Z]; [discriminate|]. injection H as <-.
  exists (dE * total (middle r A1)). split; [now apply Rmult_integral_contrapositive|]. split; [reflexivity|]. rewrite total_map_div. field. split; assumption.
Qed.
Lemma follows_length A1 dE r r' : next_spectrum A1 dE r r' -> List.length r' = List.length r.
Proof. intros (c & _ & -> & _). now rewrite map_length, middle_length. Qed.
Lemma rows_follow A1 dE : A1 <> [] -> dE <> 0 -> forall n r rows, List.length r = List.length A1 -> AnE_rows A1 r dE n = Ok (Some rows) ->
  List.length rows = n /\ forall i, (i < n)%nat -> next_spectrum A1 dE (nth i (r :: rows) []) (nth i rows []).
Proof.
  intros N D. induction n as [|n IH]; intros r rows L H; cbn [AnE_rows] in H; [injection H as <-; split; [reflexivity|intros; lia]|].
  destruct (AnE_from_n_1 A1 r dE) as [[r'|]|] eqn:A; cbn [bind] in H; [|discriminate|discriminate]. pose proof (next_follows _ _ _ _ L N D A) as FO.
  destruct (AnE_rows A1 r' dE n) as [[l|]|] eqn:RR; cbn [bind option_map] in H; [|discriminate|discriminate]. injection H as <-.
  destruct (IH r' l ltac:(rewrite (follows_length _ _ _ _ FO); exact L) RR) as [LL FF]. split; [cbn; now rewrite LL|].
  intros [|i] I; [exact FO|]. exact (FF i ltac:(lia)).
Qed.
(** what all orders have in common *)
Lemma orders_all (P : list R -> Prop) A1 dE rows : (forall r r', P r -> next_spectrum A1 dE r r' -> P r') -> P A1 ->
  (forall i, (i < List.length rows)%nat -> next_spectrum A1 dE (nth i (A1 :: rows) []) (nth i rows [])) -> forall i, (i < S (List.length rows))%nat -> P (nth i (A1 :: rows) []).
Proof. intros ST P0 FF. induction i as [|i IH]; intros I; [exact P0|]. apply (ST (nth i (A1 :: rows) [])); [apply IH; lia|]. apply FF. lia. Qed.
Lemma rows_exist A1 dE h : 0 < dE -> List.length A1 = (2 * h + 1)%nat -> Forall (fun v => 0 <= v) A1 -> 0 < nth h A1 0 ->
  forall n r, List.length r = List.length A1 -> Forall (fun v => 0 <= v) r -> 0 < nth h r 0 -> exists rows, AnE_rows A1 r dE n = Ok (Some rows).
Proof.
  intros D L NN C. assert (NE : A1 <> []) by (intros Z; rewrite Z in L; cbn in L; lia). induction n as [|n IH]; intros r LR NR CR; [now exists []|]. cbn [AnE_rows].
  rewrite next_exact by (try assumption; lra). pose proof (middle_nonneg r A1 NR NN) as MN. pose proof (middle_centre r A1 h ltac:(lia) NR NN CR C) as MC.
  assert (TP : 0 < total (middle r A1)) by (apply (total_centre _ h); [assumption|assumption|rewrite middle_length; lia]).
  destruct (Req_EM_T _ 0) as [Z|_]; [lra|]. cbn [bind].
  set (r' := map _ _). assert (DT : 0 < dE * total (middle r A1)) by nra.
  destruct (IH r') as (rows & E).
  - unfold r'. now rewrite map_length, middle_length.
  - unfold r'. apply Forall_forall. intros v V. apply in_map_iff in V. destruct V as (x & <- & X). rewrite Forall_forall in MN. apply Rmult_le_pos; [now apply MN|left; now apply Rinv_0_lt_compat].
  - unfold r'. rewrite nth_map_R by (rewrite middle_length; lia). now apply Rdiv_lt_0_compat.
  - rewrite E. cbn. eauto.
Qed.

(** ** Arrays *)
Definition shape (nq ne : nat) (s : list (list R)) : Prop := List.length s = nq /\ forall j, (j < nq)%nat -> List.length (nth j s []) = ne.
Definition entry (s : list (list R)) (j i : nat) : R := nth i (nth j s []) 0.
Lemma outer_shape a b : shape (List.length a) (List.length b) (np_outer a b).
Proof.
  split; [unfold np_outer; now rewrite map_length|]. intros j J. unfold np_outer. rewrite (nth_indep _ [] (map (fun x => nth 0 a 0 * x) b)) by (now rewrite map_length).
  erewrite (nth_indep _ _ ((fun s => map (fun x => s * x) b) 0)) by (now rewrite map_length). rewrite (map_nth (fun s => map (fun x => s * x) b)). apply map_length.
Qed.
Lemma outer_entry a b j i : (j < List.length a)%nat -> (i < List.length b)%nat -> entry (np_outer a b) j i = nth j a 0 * nth i b 0.
Proof.
  intros J I. unfold entry, np_outer. rewrite (nth_indep _ [] ((fun s => map (fun x => s * x) b) 0)) by (now rewrite map_length). rewrite (map_nth (fun s => map (fun x => s * x) b)). now rewrite nth_map_R.
Qed.
Lemma add_row a b i : (i < List.length a)%nat -> List.length a = List.length b -> nth i (map (fun q => fst q + snd q) (combine a b)) 0 = nth i a 0 + nth i b 0.
Proof.
  intros I L. rewrite (nth_indep _ 0 ((fun q => fst q + snd q) (0, 0))) by (rewrite map_length, combine_length; lia). rewrite (map_nth (fun q => fst q + snd q)). rewrite combine_nth by exact L. reflexivity.
Qed.
Lemma add_shape nq ne s t : shape nq ne s -> shape nq ne t -> shape nq ne (add_arrays s t) /\ forall j i, (j < nq)%nat -> (i < ne)%nat -> entry (add_arrays s t) j i = entry s j i + entry t j i.
Proof.
  intros [LS S1] [LT T1].
  assert (ROW : forall j, (j < nq)%nat -> nth j (add_arrays s t) [] = map (fun q => fst q + snd q) (combine (nth j s []) (nth j t []))).
  { intros j J. unfold add_arrays. rewrite (nth_indep _ [] ((fun p : list R * list R => map (fun q => fst q + snd q) (combine (fst p) (snd p))) ([], []))) by (rewrite map_length, combine_length; lia).
    rewrite (map_nth (fun p : list R * list R => map (fun q => fst q + snd q) (combine (fst p) (snd p)))). rewrite combine_nth by lia. reflexivity. }
  split; [split|].
  - unfold add_arrays. rewrite map_length, combine_length. lia.
  - intros j J. rewrite ROW by exact J. rewrite map_length, combine_length, S1, T1 by exact J. lia.
  - intros j i J I. unfold entry. rewrite ROW by exact J. apply add_row; [rewrite S1; assumption|rewrite S1, T1 by exact J; reflexivity].
Qed.
Lemma orders_sum nq ne st : forall l i acc, (forall k, (k < List.length l)%nat -> shape nq ne (nth k l [])) -> match acc with None => True | Some a => shape nq ne a end ->
  match sum_orders st i acc l with
  | None => acc = None /\ (l = [] \/ (i + Z.of_nat (List.length l) <= st - 1)%Z)
  | Some s => shape nq ne s /\ (acc <> None \/ (l <> [] /\ (st - 1 < i + Z.of_nat (List.length l))%Z)) /\ forall j e, (j < nq)%nat -> (e < ne)%nat ->
      entry s j e = match acc with None => 0 | Some a => entry a j e end + loop_sum (fun k => if (i + Z.of_nat k <? st - 1)%Z then 0 else entry (nth k l []) j e) (List.length l)
  end.
Proof.
  induction l as [|a l IH]; intros i acc SH SA.
  - cbn [sum_orders]. destruct acc as [a|]; [|auto]. split; [exact SA|]. split; [left; discriminate|]. intros j e J E. cbn. ring.
  - assert (SH' : forall k, (k < List.length l)%nat -> shape nq ne (nth k l [])) by (intros k K; apply (SH (S k)); cbn; lia). pose proof (SH 0%nat ltac:(cbn; lia)) as S0. cbn [nth] in S0.
    cbn [sum_orders]. destruct (Z.ltb_spec i (st - 1)) as [C|C].
    + specialize (IH (i + 1)%Z acc SH' SA). destruct (sum_orders st (i + 1) acc l) as [s|].
      * destruct IH as (A & B & H). split; [exact A|]. split.
        -- destruct B as [B|[B1 B2]]; [now left|right]. split; [discriminate|]. cbn [List.length]. lia.
        -- intros j e J E. rewrite (H j e J E). f_equal. cbn [List.length]. rewrite sum_first. cbn [nth]. rewrite Z.add_0_r, (proj2 (Z.ltb_lt _ _) C), Rplus_0_l. apply sum_ext. intros k K. replace (i + Z.of_nat (S k))%Z with (i + 1 + Z.of_nat k)%Z by lia. reflexivity.
      * destruct IH as [A B]. split; [exact A|]. right. cbn [List.length]. destruct B as [->|B]; [cbn; lia|lia].
    + set (acc' := match acc with None => a | Some s => add_arrays s a end).
      assert (SA' : shape nq ne acc' /\ forall j e, (j < nq)%nat -> (e < ne)%nat -> entry acc' j e = match acc with None => 0 | Some b => entry b j e end + entry a j e).
      { unfold acc'. destruct acc as [b|]; [now apply add_shape|]. split; [exact S0|]. intros. ring. }
      destruct SA' as [SA' VA]. specialize (IH (i + 1)%Z (Some acc') SH' SA'). destruct (sum_orders st (i + 1) (Some acc') l) as [s|].
      * destruct IH as (A & _ & H). split; [exact A|]. split; [right; split; [discriminate|cbn [List.length]; lia]|].
        intros j e J E. rewrite (H j e J E), (VA j e J E). cbn [List.length]. rewrite sum_first. cbn [nth]. rewrite Z.add_0_r, (proj2 (Z.ltb_ge _ _) C).
        rewrite Rplus_assoc. do 2 f_equal. apply sum_ext. intros k K. replace (i + Z.of_nat (S k))%Z with (i + 1 + Z.of_nat k)%Z by lia. reflexivity.
      * destruct IH as [A _]. discriminate.
Qed.

(** ** Axes *)
Lemma arange_ok a b s l : np_arange a b s = Ok l -> s <> 0 /\ evenly a s l.
Proof.
  unfold np_arange. destruct (Reqb s 0) eqn:Z; [discriminate|]. apply Reqb_f in Z. intros H. injection H as <-. split; [exact Z|].
  intros i I. rewrite map_length, seq_length in I. now rewrite nth_map_seq.
Qed.
Lemma arange_whole a s n : s <> 0 -> exists l, np_arange a (a + s * INR n) s = Ok l /\ evenly a s l /\ List.length l = n.
Proof.
  intros S. assert (LEN : arange_len a (a + s * INR n) s = Z.of_nat n).
  { unfold arange_len. replace (- ((a + s * INR n - a) / s)) with (IZR (- Z.of_nat n)) by (rewrite opp_IZR, <- INR_IZR_INZ; field; exact S).
    assert (F : floorZ (IZR (- Z.of_nat n)) = (- Z.of_nat n)%Z). { unfold floorZ, Int_part. rewrite <- (tech_up (IZR (- Z.of_nat n)) (- Z.of_nat n + 1)); [lia| |]; rewrite plus_IZR; lra. }
    rewrite F. lia. }
  unfold np_arange. rewrite (proj2 (Reqb_f _ _)) by exact S. rewrite LEN, Nat2Z.id. eexists. split; [reflexivity|]. split; [|now rewrite map_length, seq_length].
  intros i I. rewrite map_length, seq_length in I. now rewrite nth_map_seq.
Qed.
