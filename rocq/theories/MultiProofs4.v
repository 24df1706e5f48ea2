(** Proofs for C50: the scattering function. *)
From Coq Require Import Reals Lra Psatz.
From Verif Require Import Base RotModel DetModel ChanModel MonModel ShapeModel ScatModel UnitModel GridModel PhonModel PhonSpec ChanProofs ShapeProofs UnitProofs KinProofs GridProofs PhonProofs PhonProofs2 MultiModel MultiSpec MultiProofs MultiProofs2 MultiProofs3.
Open Scope R_scope.

Lemma mean_phonons_unique b E n : b * E <> 0 -> mean_phonons b E n -> n = / (exp (b * E) - 1).
Proof. intros N O. pose proof (exp_ne1 _ N) as X. unfold mean_phonons in O. apply Rmult_eq_reg_r with (exp (b * E) - 1); [|exact X]. rewrite O. field. exact X. Qed.
Lemma one_is b dE E g h : b <> 0 -> dE <> 0 -> evenly 0 dE E -> List.length E = S h -> List.length g = S h -> (2 <= h)%nat -> Rabs (total g * dE - 1) < 1 / 1000 ->
  G0 b dE g h <> 0 -> one_spectrum b dE g (G0 b dE g h) h (map (A1v b dE g h) (seq 0 (2 * h + 1))).
Proof.
  intros B D AX LE LG H2 NORM Z. split; [now rewrite map_length, seq_length|]. split.
  - intros i n I O. rewrite !nth_map_seq by lia. pose proof (bE b dE B D i ltac:(lia)) as N. pose proof (mean_phonons_unique _ _ _ N O) as ->. pose proof (exp_ne1 _ N) as X.
    unfold A1v. rewrite (proj2 (Nat.ltb_lt h (h + i))) by lia. rewrite (proj2 (Nat.ltb_ge h (h - i))) by lia. rewrite (proj2 (Nat.eqb_neq (h - i) h)) by lia.
    replace (h + i - h)%nat with i by lia. replace (h - (h - i))%nat with i by lia. unfold up, down. replace (- (INR i * dE) * b) with (- (b * (INR i * dE))) by ring. replace (INR i * dE * b) with (b * (INR i * dE)) by ring.
    rewrite exp_Ropp. pose proof (exp_pos (b * (INR i * dE))) as P. set (u := exp _) in *. assert (INR i <> 0) by (apply not_0_INR; lia). split; field; repeat split; try assumption; lra.
  - rewrite !nth_map_seq by lia. unfold A1v. rewrite (proj2 (Nat.ltb_ge h h)), Nat.eqb_refl by lia. rewrite (proj2 (Nat.ltb_lt h (h + 1))), (proj2 (Nat.ltb_lt h (h + 2))) by lia.
    replace (h + 1 - h)%nat with 1%nat by lia. replace (h + 2 - h)%nat with 2%nat by lia. ring.
Qed.
Lemma G0_mean b dE g h : b <> 0 -> dE <> 0 -> List.length g = S h -> (2 <= h)%nat -> mean_square b dE g (G0 b dE g h).
Proof.
  intros B D LG H2. exists (fun i => match i with O => 2 * F b dE g 1 - F b dE g 2 | _ => F b dE g i end). split; [|split; [reflexivity|]].
  - intros i I. destruct i; [lia|]. apply Fv_displacement. apply (bE b dE B D). lia.
  - rewrite LG, total_seq, sum_first. reflexivity.
Qed.
Lemma mean_square_unique b dE g G h : b <> 0 -> dE <> 0 -> List.length g = S h -> (2 <= h)%nat -> mean_square b dE g G -> G = G0 b dE g h.
Proof.
  intros B D LG H2 (F' & HF & F0 & ->). rewrite LG, total_seq, sum_first. unfold G0. f_equal.
  assert (V : forall i, (1 <= i < S h)%nat -> F' i = F b dE g i). { intros i I. apply displacement_unique; [apply (bE b dE B D); lia|apply HF; lia]. }
  rewrite F0, !V by lia. f_equal. apply sum_ext. intros i I. apply V. lia.
Qed.
Lemma gamma0_short E g b dE : (List.length E < 3)%nat -> exists e, gamma0 E g b dE = Err e.
Proof.
  intros L. unfold gamma0. destruct E as [|E0 E']; [eauto|]. destruct (negb _); [eauto|]. destruct (negb _); [eauto|]. destruct (negb _); [eauto|].
  destruct E' as [|e1 [|e2 E']]; [|destruct (tl g); cbn; eauto|cbn in L; lia]. cbn. eauto.
Qed.
Lemma recoil_value q M r : recoilE q M = Some r -> M <> 0 /\ r = (10545716 / 10 ^ 41 * (q * 10 ^ 10)) ^ 2 / (2 * M * (166053873 / 10 ^ 35)) * (62415097 * 10 ^ 14).
Proof.
  unfold recoilE, fdiv. destruct (Reqb _ 0) eqn:Z; [discriminate|]. apply Reqb_f in Z. intros H. injection H as <-.
  assert (M <> 0) by (intros ->; apply Z; ring). split; [assumption|]. unfold mp_J2meV, mp_h_b, mp_A2m, mp_amu. field. assumption.
Qed.
Lemma recoil_ok q M : M <> 0 -> exists r, recoilE q M = Some r.
Proof. intros N. unfold recoilE. rewrite fdiv_ok; [eauto|]. unfold mp_amu. apply Rmult_integral_contrapositive. split; [exact N|lra]. Qed.
Lemma numbers_nth l r i : numbers l = Some r -> List.length r = List.length l /\ ((i < List.length l)%nat -> nth i l None = Some (nth i r 0)).
Proof.
  intros H. apply numbers_in in H. subst l. rewrite map_length. split; [reflexivity|]. intros I. rewrite (nth_indep _ None (Some 0)) by (now rewrite map_length). apply map_nth.
Qed.
Lemma numbers_all l : (forall i, (i < List.length l)%nat -> nth i l None <> None) -> exists r, numbers l = Some r.
Proof.
  induction l as [|x l IH]; intros H; [now exists []|]. destruct x as [x|]; [|now destruct (H 0%nat ltac:(cbn; lia))]. destruct IH as [r R]; [intros i I; apply (H (S i)); cbn; lia|]. cbn. rewrite R. eauto.
Qed.
(** the orders from st to N, in the order of the loop *)
Lemma orders_loop st N f : orders st N f = loop_sum (fun k => if (0 + Z.of_nat k <? st - 1)%Z then 0 else f (S k)) N.
Proof.
  unfold orders. rewrite <- seq_shift, map_map, total_seq. apply sum_ext. intros k K. replace (Z.of_nat (S k) <? st)%Z with (0 + Z.of_nat k <? st - 1)%Z; [reflexivity|].
  apply Bool.eq_true_iff_eq. rewrite !Z.ltb_lt. lia.
Qed.
Lemma orders_scale st N c f : orders st N (fun n => c * f n) = c * orders st N f.
Proof. rewrite !orders_loop, <- sum_scale. apply sum_ext. intros k K. destruct (Z.ltb _ _); ring. Qed.
Lemma orders_ext st N f g : (forall n, (1 <= n <= N)%nat -> (st <= Z.of_nat n)%Z -> f n = g n) -> orders st N f = orders st N g.
Proof. intros H. rewrite !orders_loop. apply sum_ext. intros k K. destruct (Z.ltb_spec (0 + Z.of_nat k) (st - 1)); [reflexivity|]. apply H; lia. Qed.
Lemma orders_swap st N m (f : nat -> nat -> R) : loop_sum (fun i => orders st N (fun n => f n i)) m = orders st N (fun n => loop_sum (f n) m).
Proof.
  induction m as [|m IH]; cbn [loop_sum].
  - rewrite orders_loop, sum_zero; [reflexivity|]. intros k _. destruct (Z.ltb _ _); reflexivity.
  - rewrite IH, !orders_loop, <- sum_add. apply sum_ext. intros k K. destruct (Z.ltb _ _); cbn [loop_sum]; ring.
Qed.
Lemma computeSNQ_poisson x n : computeSNQ x n = poisson x n.
Proof. reflexivity. Qed.

Definition sqe_result (b dE M : R) (g : list R) (N : nat) (st : Z) (Qs E2 : list R) (s : list (list R)) (h : nat) (G : R) (A : nat -> list R) (w : nat -> R) : Prop :=
  one_spectrum b dE g G h (A 1%nat) /\ (forall n, (1 <= n < N)%nat -> next_spectrum (A 1%nat) dE (A n) (A (S n))) /\
  List.length E2 = (2 * h + 1)%nat /\ evenly (- (INR h * dE)) dE E2 /\ shape (List.length Qs) (2 * h + 1) s /\
  (forall j, (j < List.length Qs)%nat -> exponent (nth j Qs 0) M G (w j)) /\
  forall j e, (j < List.length Qs)%nat -> (e < 2 * h + 1)%nat -> entry s j e = orders st N (fun n => poisson (w j) n * nth e (A n) 0).
Lemma iter_value N Q E dE M g b E2 l h : b <> 0 -> dE <> 0 -> evenly 0 dE E -> List.length E = S h -> List.length g = S h -> Rabs (total g * dE - 1) < 1 / 1000 ->
  iterSQESet N Q E dE M g b = Ok (E2, Some l) ->
  (2 <= h)%nat /\ G0 b dE g h <> 0 /\ List.length l = N /\ (1 <= N)%nat /\ exists A w,
  one_spectrum b dE g (G0 b dE g h) h (A 1%nat) /\ (forall n, (1 <= n < N)%nat -> next_spectrum (A 1%nat) dE (A n) (A (S n))) /\
  List.length E2 = (2 * h + 1)%nat /\ evenly (- (INR h * dE)) dE E2 /\ A 1%nat = map (A1v b dE g h) (seq 0 (2 * h + 1)) /\
  (forall j, (j < List.length Q)%nat -> exponent (nth j Q 0) M (G0 b dE g h) (w j)) /\
  forall k, (k < N)%nat -> shape (List.length Q) (2 * h + 1) (nth k l []) /\ forall j e, (j < List.length Q)%nat -> (e < 2 * h + 1)%nat -> entry (nth k l []) j e = poisson (w j) (S k) * nth e (A (S k)) 0.
Proof.
  intros B D AX LE LG NORM H. assert (H2 : (2 <= h)%nat). { destruct (Nat.le_gt_cases 2 h) as [?|C]; [assumption|]. destruct (gamma0_short E g b dE ltac:(lia)) as [e GE]. unfold iterSQESet, computeAnESet, computeA1E in H. rewrite GE in H. discriminate. }
  split; [exact H2|]. unfold iterSQESet, computeAnESet in H. rewrite (A1_exact b dE E g h B D AX LE LG H2 NORM) in H. cbn [bind] in H.
  destruct N as [|m]; [discriminate|]. destruct (Req_EM_T (G0 b dE g h) 0) as [Z|Z].
  { cbn [bind] in H. unfold DWExp in H. rewrite (gamma0_exact b dE E g h B D AX LE LG H2 NORM) in H. cbn [bind] in H. discriminate. }
  split; [exact Z|]. set (A1 := map (A1v b dE g h) (seq 0 (2 * h + 1))) in *. assert (L1 : List.length A1 = (2 * h + 1)%nat) by (unfold A1; now rewrite map_length, seq_length).
  assert (NE : A1 <> []) by (intros X; rewrite X in L1; cbn in L1; lia).
  destruct (AnE_rows A1 A1 dE m) as [[rows|]|] eqn:RR; cbn [bind option_map] in H.
  3: discriminate.
  2: { unfold DWExp in H. rewrite (gamma0_exact b dE E g h B D AX LE LG H2 NORM) in H. cbn [bind] in H. discriminate. }
  unfold DWExp in H. rewrite (gamma0_exact b dE E g h B D AX LE LG H2 NORM) in H. cbn [bind] in H.
  destruct (numbers (map (fun q => recoilE q M) Q)) as [Er|] eqn:NU; [|discriminate].
  match type of H with Ok (?a, Some ?c) = _ => assert (HE : E2 = a) by congruence; assert (HL : l = c) by congruence end. clear H. subst E2 l.
  destruct (rows_follow A1 dE NE D m A1 rows eq_refl RR) as [LR FO].
  assert (LL : List.length (computeSnQSet (S m) (map (fun x => x * G0 b dE g h) Er)) = S m) by (unfold computeSnQSet; now rewrite map_length, seq_length).
  split; [rewrite map_length, combine_length, LL; cbn; lia|]. split; [lia|].
  assert (EL : List.length Er = List.length Q) by (rewrite (proj1 (numbers_nth _ _ 0 NU)); apply map_length).
  exists (fun n => nth (n - 1) (A1 :: rows) []), (fun j => nth j Er 0 * G0 b dE g h). cbv beta. change (nth (1 - 1) (A1 :: rows) []) with A1.
  split; [exact (one_is b dE E g h B D AX LE LG H2 NORM Z)|].
  split. { intros n N1. specialize (FO (n - 1)%nat ltac:(lia)). replace (S n - 1)%nat with (S (n - 1)) by lia. exact FO. }
  assert (EN : E <> []) by (intros X; rewrite X in LE; discriminate).
  split; [rewrite reflect_length, LE by exact EN; lia|].
  split. { intros i I. rewrite reflect_length, LE in I by exact EN. rewrite (axis_nth dE E h AX LE) by lia. ring. }
  split; [reflexivity|]. split.
  - intros j J. destruct (numbers_nth _ _ j NU) as [_ V]. rewrite map_length in V. specialize (V J). rewrite (nth_indep _ None (recoilE 0 M)) in V by (now rewrite map_length). rewrite (map_nth (fun q => recoilE q M)) in V.
    destruct (recoil_value _ _ _ V) as [_ RV]. unfold exponent. rewrite RV. reflexivity.
  - assert (LA : forall i, (i < S m)%nat -> List.length (nth i (A1 :: rows) []) = (2 * h + 1)%nat).
    { intros i I. apply (orders_all (fun r => List.length r = (2 * h + 1)%nat) A1 dE rows); [|exact L1|rewrite LR; exact FO|lia]. intros r r' LRr FF. rewrite (follows_length _ _ _ _ FF). exact LRr. }
    intros k K. set (DW2 := map (fun x => x * G0 b dE g h) Er). 
    assert (ROW : nth k (map (fun p => np_outer (fst p) (snd p)) (combine (computeSnQSet (S m) DW2) (A1 :: rows))) [] = np_outer (map (fun x => computeSNQ x (S k)) DW2) (nth k (A1 :: rows) [])).
    { rewrite (nth_indep _ [] (np_outer (fst (@nil R, @nil R)) (snd (@nil R, @nil R)))) by (rewrite map_length, combine_length; fold DW2 in LL; rewrite LL; cbn; lia).
      rewrite (map_nth (fun p => np_outer (fst p) (snd p))). rewrite combine_nth by (fold DW2 in LL; rewrite LL; cbn; lia). cbn [fst snd]. f_equal. unfold computeSnQSet.
      rewrite (nth_indep _ [] ((fun i => map (fun x => computeSNQ x i) DW2) 0%nat)) by (now rewrite map_length, seq_length). rewrite (map_nth (fun i => map (fun x => computeSNQ x i) DW2)), seq_nth by exact K. reflexivity. }
    rewrite ROW. assert (LS : List.length (map (fun x => computeSNQ x (S k)) DW2) = List.length Q) by (unfold DW2; now rewrite !map_length, EL). split.
    + pose proof (outer_shape (map (fun x => computeSNQ x (S k)) DW2) (nth k (A1 :: rows) [])) as SH. rewrite LS, LA in SH by exact K. exact SH.
    + intros j e J I. rewrite outer_entry by (rewrite ?LS, ?LA; assumption). replace (S k - 1)%nat with k by lia. f_equal. unfold DW2. rewrite map_map, nth_map_R by lia. reflexivity.
Qed.
