(** Proofs for C50: further facts. *)
From Coq Require Import Reals Lra Psatz.
From Verif Require Import Base RotModel DetModel ChanModel MonModel ShapeModel ScatModel UnitModel GridModel PhonModel PhonSpec ChanProofs ShapeProofs UnitProofs KinProofs GridProofs PhonProofs PhonProofs2 MultiModel MultiSpec MultiProofs MultiProofs2 MultiProofs3 MultiProofs4 MultiProofs5.
Open Scope R_scope.

Section one.
  Variables (b dE : R) (E g : list R) (h : nat).
  Hypotheses (B : b <> 0) (D : dE <> 0) (AX : evenly 0 dE E) (LE : List.length E = S h) (LG : List.length g = S h) (H2 : (2 <= h)%nat)
    (NORM : Rabs (total g * dE - 1) < 1 / 1000).
  Theorem one_phonon : exists G, mean_square b dE g G /\ gamma0 E g b dE = Ok (Some G) /\
    exists E2, List.length E2 = (2 * h + 1)%nat /\ evenly (- (INR h * dE)) dE E2 /\
      (G = 0 -> computeA1E E g b dE = Ok (E2, None)) /\
      (G <> 0 -> exists A, computeA1E E g b dE = Ok (E2, Some A) /\ one_spectrum b dE g G h A).
  Proof.
    exists (G0 b dE g h). split; [now apply G0_mean|]. split; [now apply (gamma0_exact b dE E g h)|]. exists (reflect E (-1)).
    assert (EN : E <> []) by (intros X; rewrite X in LE; discriminate). pose proof (reflect_length E (-1) EN) as RL. rewrite LE in RL.
    split; [lia|]. split. { intros i I. rewrite (axis_nth dE E h AX LE) by lia. ring. }
    rewrite (A1_exact b dE E g h B D AX LE LG H2 NORM). destruct (Req_EM_T (G0 b dE g h) 0) as [Z|Z]; (split; [intros X; try congruence|intros X; try congruence]).
    eexists. split; [reflexivity|]. now apply (one_is b dE E g h).
  Qed.
  Theorem one_facts G A : mean_square b dE g G -> G <> 0 -> one_spectrum b dE g G h A ->
    balanced (b * dE) h A /\ total A * dE = 1 + (2 * nth 1 g 0 - nth 2 g 0 / 2) / G /\ (total A * dE = 1 <-> nth 2 g 0 = 4 * nth 1 g 0).
  Proof.
    intros MS GZ ONE. pose proof (mean_square_unique b dE g G h B D LG H2 MS) as ->. split.
    { apply (one_balanced b dE g h 0 (G0 b dE g h) (fun _ => A) B D H2 GZ ONE). intros n I. lia. }
    assert (AA : A = map (A1v b dE g h) (seq 0 (2 * h + 1))).
    { pose proof (one_is b dE E g h B D AX LE LG H2 NORM GZ) as (L' & V' & Z'). destruct ONE as (L & V & Z). assert (W : forall i, i <> h -> nth i A 0 = nth i (map (A1v b dE g h) (seq 0 (2 * h + 1))) 0).
      { intros i NI. destruct (Nat.lt_ge_cases i (2 * h + 1)) as [C|C]; [|rewrite !nth_overflow by lia; reflexivity]. destruct (Nat.lt_ge_cases i h) as [C'|C'].
        - pose proof (exp_ne1 _ (bE b dE B D (h - i)%nat ltac:(lia))) as X. replace i with (h - (h - i))%nat by lia. set (k := (h - i)%nat) in *. assert (K : (1 <= k <= h)%nat) by (unfold k; lia).
          assert (O : mean_phonons b (INR k * dE) (/ (exp (b * (INR k * dE)) - 1))) by (unfold mean_phonons; field; exact X). rewrite (proj2 (V k _ K O)), (proj2 (V' k _ K O)). reflexivity.
        - pose proof (exp_ne1 _ (bE b dE B D (i - h)%nat ltac:(lia))) as X. replace i with (h + (i - h))%nat by lia. set (k := (i - h)%nat) in *. assert (K : (1 <= k <= h)%nat) by (unfold k; lia).
          assert (O : mean_phonons b (INR k * dE) (/ (exp (b * (INR k * dE)) - 1))) by (unfold mean_phonons; field; exact X). rewrite (proj1 (V k _ K O)), (proj1 (V' k _ K O)). reflexivity. }
      apply nth_ext with 0 0; [lia|]. intros i _. destruct (Nat.eq_dec i h) as [->|NI]; [|now apply W]. rewrite Z, Z', !W by lia. reflexivity. }
    pose proof (A1_total b dE g h B D H2 GZ) as TT. rewrite <- AA in TT. rewrite TT. split; [field; split; assumption|].
    split; intros X.
    - assert (Y : dE * (2 * (nth 1 g 0 / dE) - nth 2 g 0 / (2 * dE)) = 0). { apply Rmult_eq_reg_r with (/ G0 b dE g h); [|now apply Rinv_neq_0_compat]. unfold Rdiv in X at 1. lra. }
      replace (dE * (2 * (nth 1 g 0 / dE) - nth 2 g 0 / (2 * dE))) with (2 * nth 1 g 0 - nth 2 g 0 / 2) in Y by (field; exact D). lra.
    - rewrite X. field. split; assumption.
  Qed.
End one.
Theorem orders_facts b dE E g h N E2 rows : b <> 0 -> dE <> 0 -> evenly 0 dE E -> List.length E = S h -> List.length g = S h -> (2 <= h)%nat -> Rabs (total g * dE - 1) < 1 / 1000 ->
  computeAnESet N E g b dE = Ok (E2, Some rows) ->
  List.length rows = N /\ exists G, G <> 0 /\ mean_square b dE g G /\ one_spectrum b dE g G h (nth 0 rows []) /\
  forall n, (n < N)%nat -> balanced (b * dE) h (nth n rows []) /\ ((1 <= n)%nat -> next_spectrum (nth 0 rows []) dE (nth (n - 1) rows []) (nth n rows []) /\ total (nth n rows []) * dE = 1).
Proof.
  intros B D AX LE LG H2 NORM H. unfold computeAnESet in H. rewrite (A1_exact b dE E g h B D AX LE LG H2 NORM) in H. cbn [bind] in H. destruct N as [|m]; [discriminate|].
  destruct (Req_EM_T (G0 b dE g h) 0) as [Z|Z]; [discriminate|]. set (A1 := map (A1v b dE g h) (seq 0 (2 * h + 1))) in *.
  assert (L1 : List.length A1 = (2 * h + 1)%nat) by (unfold A1; now rewrite map_length, seq_length). assert (NE : A1 <> []) by (intros X; rewrite X in L1; cbn in L1; lia).
  destruct (AnE_rows A1 A1 dE m) as [[r|]|] eqn:RR; cbn [bind option_map] in H; [|discriminate|discriminate]. assert (rows = A1 :: r) as -> by congruence. clear H.
  destruct (rows_follow A1 dE NE D m A1 r eq_refl RR) as [LR FO]. split; [cbn; lia|]. exists (G0 b dE g h). split; [exact Z|]. split; [now apply G0_mean|]. cbn [nth]. pose proof (one_is b dE E g h B D AX LE LG H2 NORM Z) as ONE. split; [exact ONE|].
  assert (NEXT : forall n, (1 <= n < S m)%nat -> next_spectrum (nth (1 - 1) (A1 :: r) []) dE (nth (n - 1) (A1 :: r) []) (nth (S n - 1) (A1 :: r) [])).
  { intros n I. specialize (FO (n - 1)%nat ltac:(lia)). replace (S n - 1)%nat with (S (n - 1)) by lia. exact FO. }
  intros n I. split.
  - pose proof (all_balanced b dE g h (S m) (G0 b dE g h) (fun n => nth (n - 1) (A1 :: r) []) B D H2 Z ONE NEXT (S n) ltac:(lia)) as BA. cbv beta in BA. replace (S n - 1)%nat with n in BA by lia. exact BA.
  - intros N1. specialize (NEXT n ltac:(lia)). replace (S n - 1)%nat with n in NEXT by lia. split; [exact NEXT|]. destruct NEXT as (c & _ & _ & T). exact T.
Qed.
Theorem only_first_two e0 e1 rest rest' g Qmax Qmin dQ T M N st Emax : List.length rest = List.length rest' ->
  sqe (e0 :: e1 :: rest) g (Some Qmax) Qmin dQ T M N st Emax = sqe (e0 :: e1 :: rest') g (Some Qmax) Qmin dQ T M N st Emax.
Proof. intros L. unfold sqe. cbn [List.length]. now rewrite L. Qed.
Theorem origin_needed e0 rest g Qmax Qmin dQ T M N st Emax : 1 / 10 ^ 7 <= Rabs e0 -> exists e, sqe (e0 :: rest) g Qmax Qmin dQ T M N st Emax = Err e.
Proof.
  intros Z. unfold sqe. destruct rest as [|e1 rest]; [eauto|]. cbv zeta. match goal with |- context[np_arange e0 ?a ?c] => destruct (np_arange e0 a c) as [E|] eqn:AR end; cbn [bind]; [|eauto].
  destruct (Nat.ltb _ _); [eauto|].
  match goal with |- exists e, bind ?q _ = _ => destruct q; cbn [bind]; [|eauto] end. match goal with |- exists e, bind ?q _ = _ => destruct q as [Q|]; cbn [bind]; [|eauto] end.
  destruct (Reqb (T * _) 0); [eauto|]. destruct (Reqb _ 0); [destruct E; eauto|]. unfold iterSQESet, computeAnESet, computeA1E.
  match goal with |- context[gamma0 ?a ?c ?d ?f] => assert (GE : exists e, gamma0 a c d f = Err e) end; [|destruct GE as [e ->]; cbn; eauto].
  unfold gamma0. destruct E as [|x E]; [eauto|]. destruct (arange_ok _ _ _ _ AR) as [_ AX]. pose proof (AX 0%nat ltac:(cbn; lia)) as X0. cbn in X0. assert (x = e0) as -> by lra.
  rewrite (proj2 (Rltb_f (Rabs e0) (1 / 10 ^ 7))) by lra. cbn [negb]. eauto.
Qed.
Lemma iter_length N Q E dE M g b E2 l : iterSQESet N Q E dE M g b = Ok (E2, Some l) -> (List.length l <= N)%nat.
Proof.
  intros IT. unfold iterSQESet in IT. destruct (computeAnESet _ _ _ _ _) as [[? [aa|]]|]; cbn [bind] in IT; [| |discriminate]; (destruct (DWExp _ _ _ _ _ _) as [[w|]|]; cbn [bind] in IT; [| |discriminate]); try discriminate.
  injection IT as _ <-. rewrite map_length, combine_length. unfold computeSnQSet. rewrite map_length, seq_length. lia.
Qed.
Theorem no_orders E g Qmax Qmin dQ T M N st Emax Qs E2 v : (Z.of_nat N < st)%Z -> sqe E g Qmax Qmin dQ T M N st Emax = Ok (Qs, E2, v) -> v = NoOrders \/ v = NotNumbers.
Proof.
  intros L H. unfold sqe in H. destruct E as [|e0 [|e1 rest]]; [discriminate|discriminate|]. cbv zeta in H. match type of H with context[np_arange e0 ?a ?c] => destruct (np_arange e0 a c) as [E|]; cbn [bind] in H; [|discriminate] end.
  destruct (Nat.ltb _ _); [discriminate|]. match type of H with bind ?q _ = _ => destruct q; cbn [bind] in H; [|discriminate] end. match type of H with bind ?q _ = _ => destruct q as [Q|]; cbn [bind] in H; [|discriminate] end.
  destruct (Reqb (T * _) 0); [discriminate|]. destruct (Reqb _ 0); [destruct E; discriminate|]. match type of H with bind ?q _ = _ => destruct q as [[E2' [l|]]|] eqn:IT; cbn [bind] in H; [| |discriminate] end.
  - pose proof (iter_length _ _ _ _ _ _ _ _ _ IT) as LL.
    assert (NO : forall l i, (i + Z.of_nat (List.length l) <= st - 1)%Z -> sum_orders st i None l = None).
    { clear. induction l as [|a l IH]; intros i C; [reflexivity|]. cbn [sum_orders]. cbn [List.length] in C. rewrite (proj2 (Z.ltb_lt _ _)) by lia. apply IH. lia. }
    rewrite (NO l 0%Z) in H by lia. left. congruence.
  - right. congruence.
Qed.
Theorem next_is A r dE : List.length r = List.length A -> A <> [] -> dE <> 0 ->
  (total (middle r A) = 0 -> AnE_from_n_1 A r dE = Ok None) /\
  (total (middle r A) <> 0 -> exists r', AnE_from_n_1 A r dE = Ok (Some r') /\ next_spectrum A dE r r').
Proof.
  intros L N D. pose proof (next_exact A r dE) as NX. split; intros Z.
  - rewrite NX by assumption. destruct (Req_EM_T _ 0) as [_|X]; [reflexivity|contradiction].
  - rewrite NX by assumption. destruct (Req_EM_T _ 0) as [X|_]; [contradiction|]. eexists. split; [reflexivity|]. apply next_follows; try assumption. now apply NX.
Qed.
Theorem next_rejected A r dE : List.length r <> List.length A -> AnE_from_n_1 A r dE = Err ValueError.
Proof. intros L. unfold AnE_from_n_1. now rewrite (proj2 (Nat.eqb_neq _ _) L). Qed.
(** a negative value at zero energy for data that are not negative *)
Theorem negative_centre b dE E g h : 0 < b -> 0 < dE -> evenly 0 dE E -> List.length E = S h -> List.length g = S h -> (2 <= h)%nat -> Rabs (total g * dE - 1) < 1 / 1000 ->
  Forall (fun v => 0 <= v) g -> (exists i, (1 <= i <= h)%nat /\ i <> 2%nat /\ 0 < nth i g 0) -> 8 * nth 1 g 0 < nth 2 g 0 ->
  exists E2 A, computeA1E E g b dE = Ok (E2, Some A) /\ nth h A 0 < 0.
Proof.
  intros BP DP AX LE LG H2 NORM NN (i & I & N2 & IP) BIG. assert (B : b <> 0) by lra. assert (D : dE <> 0) by lra. pose proof (G0_pos b dE g h H2 BP DP NN i I N2 IP) as GP.
  rewrite (A1_exact b dE E g h B D AX LE LG H2 NORM). destruct (Req_EM_T (G0 b dE g h) 0) as [Z|Z]; [lra|]. eexists. eexists. split; [reflexivity|].
  rewrite nth_map_seq by lia. unfold A1v. rewrite (proj2 (Nat.ltb_ge h h)), Nat.eqb_refl by lia. unfold up. replace (INR 2) with 2 by (cbn; ring). change (INR 1) with 1. set (G := G0 b dE g h) in *. set (y := exp (- (1 * dE) * b)).
  assert (YP : 0 < y) by apply exp_pos. assert (Y1 : y < 1). { unfold y. pose proof (exp_increasing (- (1 * dE) * b) 0 ltac:(nra)) as X. rewrite exp_0 in X. exact X. }
  assert (YY : exp (- (2 * dE) * b) = y * y) by (unfold y; rewrite <- exp_plus; f_equal; ring). rewrite YY.
  set (g1 := nth 1 g 0) in *. set (g2 := nth 2 g 0) in *. pose proof (nonneg_nth g 1 NN) as P1. fold g1 in P1.
  set (U1 := g1 / (1 * dE * G) * (1 / (1 - y))). set (U2 := g2 / (2 * dE * G) * (1 / (1 - y * y))). assert (K : 0 < / (2 * dE * G) * / (1 - y * y)) by (apply Rmult_lt_0_compat; apply Rinv_0_lt_compat; [apply Rmult_lt_0_compat; [lra|exact GP]|nra]).
  assert (NY : 1 - y * y <> 0) by (apply Rgt_not_eq; nra).
  assert (E1 : U1 = / (2 * dE * G) * / (1 - y * y) * (2 * g1 * (1 + y))) by (unfold U1; field; repeat split; try assumption; try lra; try (now rewrite Rmult_1_l)).
  assert (E2 : U2 = / (2 * dE * G) * / (1 - y * y) * g2) by (unfold U2; field; repeat split; try assumption; try lra; try (now rewrite Rmult_1_l)).
  set (k := / (2 * dE * G) * / (1 - y * y)) in *. rewrite E1, E2. assert (4 * g1 * (1 + y) < g2) by nra. replace (2 * _) with (2 * k * (4 * g1 * (1 + y) - g2)) by ring. assert (0 < k * (g2 - 4 * g1 * (1 + y))) by (apply Rmult_lt_0_compat; lra). lra.
Qed.
