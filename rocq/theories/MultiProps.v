(** C50: multi-phonon scattering functions. *)
From Coq Require Import Reals Lra Psatz.
From Verif Require Import Base RotModel DetModel ChanModel MonModel ShapeModel ScatModel UnitModel GridModel PhonModel PhonSpec ShapeProofs KinProofs GridProofs PhonProofs MultiModel MultiSpec MultiProofs MultiProofs2 MultiProofs3 MultiProofs4 MultiProofs5 MultiProofs6.
Open Scope R_scope.

(** One phonon: the energies are reflected to negative ones, the sum of displacements is the one specified, and the spectrum has the factors n+1 and n;
    without displacement (sum zero) there are no numbers. *)
Theorem C50_one_phonon : forall b dE E g h,
  b <> 0 -> dE <> 0 -> evenly 0 dE E -> List.length E = S h -> List.length g = S h -> (2 <= h)%nat -> Rabs (total g * dE - 1) < 1 / 1000 ->
  exists G, mean_square b dE g G /\ gamma0 E g b dE = Ok (Some G) /\
  exists E2, List.length E2 = (2 * h + 1)%nat /\ evenly (- (INR h * dE)) dE E2 /\
    (G = 0 -> computeA1E E g b dE = Ok (E2, None)) /\
    (G <> 0 -> exists A, computeA1E E g b dE = Ok (E2, Some A) /\ one_spectrum b dE g G h A).
Proof. exact one_phonon. Qed.
Lemma evenly_0123 : evenly 0 1 [0; 1; 2; 3].
Proof. intros i I. do 4 (destruct i as [|i]; [cbn; ring|]). cbn in I. lia. Qed.
Lemma total_0123 : total [0; 1 / 14; 4 / 14; 9 / 14] * 1 = 1.
Proof. unfold total. cbn. field. Qed.
Lemma good_0123 : good [0; 1 / 14; 4 / 14; 9 / 14].
Proof. split; [repeat (apply Forall_cons; [lra|]); apply Forall_nil|]. cbn. lra. Qed.
Lemma close_0123 : Rabs (total [0; 1 / 14; 4 / 14; 9 / 14] * 1 - 1) < 1 / 1000.
Proof. rewrite total_0123. replace (1 - 1) with 0 by ring. rewrite Rabs_R0. lra. Qed.
Example C50_one_phonon_case : exists G E2 A, 0 < G /\ computeA1E [0; 1; 2; 3] [0; 1 / 14; 4 / 14; 9 / 14] 1 1 = Ok (E2, Some A) /\ one_spectrum 1 1 [0; 1 / 14; 4 / 14; 9 / 14] G 3 A.
Proof.
  destruct (C50_one_phonon 1 1 [0; 1; 2; 3] [0; 1 / 14; 4 / 14; 9 / 14] 3 R1_neq_R0 R1_neq_R0 evenly_0123 eq_refl eq_refl ltac:(lia) close_0123) as (G & MS & _ & E2 & _ & _ & _ & H).
  assert (GP : 0 < G). { rewrite (mean_square_unique 1 1 [0; 1 / 14; 4 / 14; 9 / 14] G 3 R1_neq_R0 R1_neq_R0 eq_refl ltac:(lia) MS). apply good_G0; try lra; try lia. exact good_0123. }
  destruct H as (A & H & O); [lra|]. now exists G, E2, A.
Qed.
(** It is in detailed balance.  Its integral is one exactly if the second datum is four times the first, as for a parabola. *)
Theorem C50_one_phonon_integral : forall b dE E g h G A,
  b <> 0 -> dE <> 0 -> evenly 0 dE E -> List.length E = S h -> List.length g = S h -> (2 <= h)%nat -> Rabs (total g * dE - 1) < 1 / 1000 ->
  mean_square b dE g G -> G <> 0 -> one_spectrum b dE g G h A ->
  balanced (b * dE) h A /\ total A * dE = 1 + (2 * nth 1 g 0 - nth 2 g 0 / 2) / G /\ (total A * dE = 1 <-> nth 2 g 0 = 4 * nth 1 g 0).
Proof. intros b dE E g h G A B D AX LE LG H2 NORM MS GZ ONE. exact (one_facts b dE E g h B D AX LE LG H2 NORM G A MS GZ ONE). Qed.
Example C50_one_phonon_integral_case : forall G A, mean_square 1 1 [0; 1 / 14; 4 / 14; 9 / 14] G -> G <> 0 -> one_spectrum 1 1 [0; 1 / 14; 4 / 14; 9 / 14] G 3 A -> total A * 1 = 1.
Proof.
  intros G A MS GZ ONE. destruct (C50_one_phonon_integral 1 1 [0; 1; 2; 3] [0; 1 / 14; 4 / 14; 9 / 14] 3 G A R1_neq_R0 R1_neq_R0 evenly_0123 eq_refl eq_refl ltac:(lia) close_0123 MS GZ ONE) as (_ & _ & X). apply X. cbn. lra.
Qed.
(** Not so: from data that are not negative come values that are not negative. *)
Theorem C50_negative_refuted : forall b dE E g h,
  0 < b -> 0 < dE -> evenly 0 dE E -> List.length E = S h -> List.length g = S h -> (2 <= h)%nat -> Rabs (total g * dE - 1) < 1 / 1000 ->
  Forall (fun v => 0 <= v) g -> (exists i, (1 <= i <= h)%nat /\ i <> 2%nat /\ 0 < nth i g 0) -> 8 * nth 1 g 0 < nth 2 g 0 ->
  exists E2 A, computeA1E E g b dE = Ok (E2, Some A) /\ nth h A 0 < 0.
Proof. exact negative_centre. Qed.
Example C50_negative_case : exists E2 A, computeA1E [0; 1; 2; 3] [0; 1 / 11; 9 / 11; 1 / 11] 1 1 = Ok (E2, Some A) /\ nth 3 A 0 < 0.
Proof.
  apply C50_negative_refuted; try lra; try lia; try reflexivity; [exact evenly_0123|unfold total; cbn; rewrite Rabs_right; lra|repeat (apply Forall_cons; [lra|]); apply Forall_nil| |cbn; lra].
  exists 1%nat. split; [lia|]. split; [lia|]. cbn. lra.
Qed.
(** One phonon more: the middle of the convolution with the spectrum of one phonon, scaled to the integral one. *)
Theorem C50_next_order : forall A r dE, List.length r = List.length A -> A <> [] -> dE <> 0 ->
  (total (middle r A) = 0 -> AnE_from_n_1 A r dE = Ok None) /\
  (total (middle r A) <> 0 -> exists r', AnE_from_n_1 A r dE = Ok (Some r') /\ next_spectrum A dE r r').
Proof. exact next_is. Qed.
Example C50_next_order_case : exists r, AnE_from_n_1 [0; 1 / 2; 1 / 2] [0; 1 / 2; 1 / 2] 1 = Ok (Some r) /\ next_spectrum [0; 1 / 2; 1 / 2] 1 [0; 1 / 2; 1 / 2] r.
Proof. apply C50_next_order; [reflexivity|discriminate|lra|]. unfold middle, folded, total. cbn. lra. Qed.
Theorem C50_next_order_sizes : forall A r dE, List.length r <> List.length A -> AnE_from_n_1 A r dE = Err ValueError.
Proof. exact next_rejected. Qed.
Example C50_next_order_sizes_case : AnE_from_n_1 [1; 2; 3] [1; 2] 1 = Err ValueError.
Proof. apply C50_next_order_sizes. discriminate. Qed.
(** Not so: the spectrum of one phonon more is the convolution.  What lies beyond the axis is lost, and the rest scaled up for it: here 1/4, 1/2 and 1/4 become 1/3 and 2/3;
    and a spectrum at the end of the axis gives no numbers. *)
Theorem C50_truncation_refuted :
  (exists A, total A = 1 /\ total (map (folded A A) (seq 0 (2 * List.length A - 1))) = 1 /\ AnE_from_n_1 A A 1 = Ok (Some [0; 1 / 3; 2 / 3]) /\ map (fun i => folded A A (i + 1)) (seq 0 3) = [0; 1 / 4; 1 / 2] /\ folded A A 4 = 1 / 4)
  /\ exists A, total A = 1 /\ AnE_from_n_1 A A 1 = Ok None.
Proof.
  split.
  - exists [0; 1 / 2; 1 / 2]. split; [unfold total; cbn; lra|]. split; [unfold folded, total; cbn; lra|]. split; [|split; [unfold folded, total; cbn; repeat (f_equal; try lra)|unfold folded, total; cbn; lra]].
    rewrite next_exact by (try reflexivity; try discriminate; lra). destruct (Req_EM_T _ 0) as [Z|Z]; [exfalso; revert Z; unfold middle, folded, total; cbn; lra|].
    do 2 f_equal. unfold middle, folded, total. cbn. repeat (f_equal; try lra).
  - exists [0; 0; 1]. split; [unfold total; cbn; lra|]. rewrite next_exact by (try reflexivity; try discriminate; lra). destruct (Req_EM_T _ 0) as [Z|Z]; [reflexivity|]. exfalso. apply Z. unfold middle, folded, total. cbn. lra.
Qed.
(** All orders: as many as asked for, each next to the one before, each in detailed balance, and from the second on with the integral one. *)
Theorem C50_orders : forall b dE E g h N E2 rows,
  b <> 0 -> dE <> 0 -> evenly 0 dE E -> List.length E = S h -> List.length g = S h -> (2 <= h)%nat -> Rabs (total g * dE - 1) < 1 / 1000 ->
  computeAnESet N E g b dE = Ok (E2, Some rows) ->
  List.length rows = N /\ exists G, G <> 0 /\ mean_square b dE g G /\ one_spectrum b dE g G h (nth 0 rows []) /\
  forall n, (n < N)%nat -> balanced (b * dE) h (nth n rows []) /\
    ((1 <= n)%nat -> next_spectrum (nth 0 rows []) dE (nth (n - 1) rows []) (nth n rows []) /\ total (nth n rows []) * dE = 1).
Proof. exact orders_facts. Qed.
Example C50_orders_case : forall N, exists E2 rows, computeAnESet (S N) [0; 1; 2; 3] [0; 1 / 14; 4 / 14; 9 / 14] 1 1 = Ok (E2, Some rows).
Proof.
  intros N. unfold computeAnESet. rewrite (A1_exact 1 1 [0; 1; 2; 3] [0; 1 / 14; 4 / 14; 9 / 14] 3 R1_neq_R0 R1_neq_R0 evenly_0123 eq_refl eq_refl ltac:(lia) close_0123). cbn [bind].
  pose proof (good_G0 1 1 _ 3 Rlt_0_1 Rlt_0_1 ltac:(lia) good_0123) as GP. destruct (Req_EM_T _ 0) as [Z|Z]; [rewrite Z in GP; lra|]. destruct (good_A1 1 1 _ 3 Rlt_0_1 Rlt_0_1 ltac:(lia) good_0123) as [NN C].
  match goal with |- context[AnE_rows ?a ?a 1 N] => destruct (rows_exist a 1 3 Rlt_0_1 eq_refl NN C N a eq_refl NN C) as [rows RR]; rewrite RR end. cbn [bind option_map]. eauto.
Qed.
(** The scattering function: for each Q and each energy of the reflected axis the sum over the orders from the starting order (at least 1) to N of the Poisson probability
    of n phonons, with the mean number 2W(Q), times the spectrum of n phonons of the normalised data, continued by zeros.  (C50_sqe_case below is a case for this and the next theorem.) *)
Theorem C50_sqe : forall de rest g Qmax Qmin dQ T M N st Emax Qs E2 s,
  sqe (0 :: de :: rest) g Qmax Qmin dQ T M N st Emax = Ok (Qs, E2, SQE s) ->
  exists h G A w, let b := 1 / (T * (862 / 10 ^ 4)) in let g' := extended de g (S h) in
  (2 <= h)%nat /\ (List.length g <= S h)%nat /\ total g <> 0 /\ total g' * de = 1 /\ G <> 0 /\ mean_square b de g' G
  /\ one_spectrum b de g' G h (A 1%nat) /\ (forall n, (1 <= n < N)%nat -> next_spectrum (A 1%nat) de (A n) (A (S n)))
  /\ List.length E2 = (2 * h + 1)%nat /\ evenly (- (INR h * de)) de E2
  /\ List.length s = List.length Qs
  /\ forall j, (j < List.length Qs)%nat -> exponent (nth j Qs 0) M G (w j) /\ List.length (nth j s []) = (2 * h + 1)%nat
     /\ forall e, (e < 2 * h + 1)%nat -> nth e (nth j s []) 0 = orders st N (fun n => poisson (w j) n * nth e (A n) 0).
Proof.
  intros de rest g Qmax Qmin dQ T M N st Emax Qs E2 s H. destruct (sqe_value _ _ _ _ _ _ _ _ _ _ _ _ _ _ H) as (h & G & A & w & HH). exists h, G, A, w. cbv zeta in *. destruct HH as (D & _ & H2 & LG & TG & GZ & MS & (ONE & NEXT & L2 & AX & [SL SR] & EXP & VAL) & _).
  repeat (split; [first [eassumption|now apply extended_total]|]). intros j J. split; [now apply EXP|]. split; [now apply SR|]. intros e I. now apply VAL.
Qed.
(** Every row is in detailed balance; from order two on the integral of a row is the probability of that many phonons. *)
Theorem C50_sqe_rows : forall de rest g Qmax Qmin dQ T M N st Emax Qs E2 s,
  sqe (0 :: de :: rest) g Qmax Qmin dQ T M N st Emax = Ok (Qs, E2, SQE s) ->
  exists h G w, let b := 1 / (T * (862 / 10 ^ 4)) in
  List.length E2 = (2 * h + 1)%nat /\ mean_square b de (extended de g (S h)) G /\
  forall j, (j < List.length Qs)%nat -> exponent (nth j Qs 0) M G (w j) /\ balanced (b * de) h (nth j s []) /\
    ((2 <= st)%Z \/ nth 2 g 0 = 4 * nth 1 g 0 -> total (nth j s []) * de = orders st N (poisson (w j))).
Proof.
  intros de rest g Qmax Qmin dQ T M N st Emax Qs E2 s H. destruct (sqe_value _ _ _ _ _ _ _ _ _ _ _ _ _ _ H) as (h & G & A & w & HH). exists h, G, w. cbv zeta in *. destruct HH as (D & TZ & H2 & LG & TG & GZ & MS & R & A1).
  pose proof R as (ONE & NEXT & L2 & _ & _ & EXP & _). set (b := 1 / (T * (862 / 10 ^ 4))) in *. assert (B : b <> 0) by (unfold b, Rdiv; apply Rmult_integral_contrapositive; split; [lra|apply Rinv_neq_0_compat, kT_pos, TZ]).
  split; [exact L2|]. split; [exact MS|]. intros j J. split; [now apply EXP|]. split; [now apply (row_balance b de M (extended de g (S h)) N st Qs E2 s h G A w)|]. intros C. apply (row_total b de M (extended de g (S h)) N st Qs E2 s h G A w B D H2 GZ R j J).
  intros n NI SN. destruct (Nat.eq_dec n 1) as [->|N1]; [|apply (all_normal de h N A H2 NEXT); lia]. destruct C as [C|C]; [lia|].
  assert (TT : total (A 1%nat) * de = 1 + de * (2 * (nth 1 (extended de g (S h)) 0 / de) - nth 2 (extended de g (S h)) 0 / (2 * de)) / G).
  { rewrite A1. rewrite (mean_square_unique b de (extended de g (S h)) G h B D (extended_length _ _ _) H2 MS) in *. now apply A1_total. }
  rewrite TT, !extended_nth by lia. rewrite C. field. repeat split; assumption.
Qed.
(** There is a result, no value is negative, and the integral over the energies at most one from order two on, if the data are not negative, the first after zero is positive and the second at most four times it. *)
Theorem C50_sqe_exists : forall de rest g Qmax Qmin dQ T M N st,
  0 < de -> 0 < T -> 0 < M -> Forall (fun v => 0 <= v) g -> 0 < nth 1 g 0 -> nth 2 g 0 <= 4 * nth 1 g 0 -> (List.length g <= 3 * List.length (0%R :: de :: rest))%nat ->
  dQ <> 0 -> (1 <= N)%nat -> (st <= Z.of_nat N)%Z ->
  exists Qs E2 s, sqe (0 :: de :: rest) g (Some Qmax) Qmin (Some dQ) T M N st None = Ok (Qs, E2, SQE s) /\ List.length E2 = (6 * List.length (0%R :: de :: rest) - 1)%nat
  /\ List.length s = List.length Qs /\ forall j, (j < List.length Qs)%nat -> Forall (fun v => 0 <= v) (nth j s []) /\ ((2 <= st)%Z -> total (nth j s []) * de <= 1).
Proof.
  intros de rest g Qmax Qmin dQ T M N st DP TP MP NN P1 P2 LG DQ N1 ST. assert (G : good g) by (split; [exact NN|now split]).
  destruct (sqe_exists de rest g Qmax Qmin dQ T M N st DP TP ltac:(lra) G LG DQ N1 ST) as (Qs & E2 & s & H & L). exists Qs, E2, s. split; [exact H|]. split; [exact L|]. exact (sqe_nonneg _ _ _ _ _ _ _ _ _ _ _ _ _ _ DP TP MP G H).
Qed.
Example C50_sqe_case : exists Qs E2 s, sqe [0; 1; 2] [0; 1; 4] (Some 10) 0 (Some 1) 300 50 5 2 None = Ok (Qs, E2, SQE s) /\ List.length E2 = 17%nat.
Proof.
  destruct (C50_sqe_exists 1 [2] [0; 1; 4] 10 0 1 300 50 5 2) as (Qs & E2 & s & H & L & _); try lra; try lia; [repeat (apply Forall_cons; [lra|]); apply Forall_nil|cbn; lra|cbn; lra|cbn; lia|]. now exists Qs, E2, s.
Qed.
(** Without an order to sum there is no array: None is returned. *)
Theorem C50_no_orders : forall E g Qmax Qmin dQ T M N st Emax Qs E2 v,
  (Z.of_nat N < st)%Z -> sqe E g Qmax Qmin dQ T M N st Emax = Ok (Qs, E2, v) -> v = NoOrders \/ v = NotNumbers.
Proof. exact no_orders. Qed.
Example C50_no_orders_case : exists Qs E2, sqe [0; 1; 2] [0; 1; 4] (Some 10) 0 (Some 1) 300 50 1 2 None = Ok (Qs, E2, NoOrders).
Proof.
  destruct (C50_sqe_exists 1 [2] [0; 1; 4] 10 0 1 300 50 1 1) as (Qs & E2 & s & H & L & _); try lra; try lia; [repeat (apply Forall_cons; [lra|]); apply Forall_nil|cbn; lra|cbn; lra|cbn; lia|].
  exists Qs, E2. unfold sqe in *. cbv zeta in *. match goal with |- context[np_arange 0 ?a ?c] => destruct (np_arange 0 a c) as [E|]; cbn [bind] in *; [|discriminate] end.
  destruct (Nat.ltb _ _); [discriminate|]. destruct (np_arange 0 10 1) as [Q|]; cbn [bind] in *; [|discriminate]. destruct (Reqb (300 * _) 0); [discriminate|]. destruct (Reqb _ 0); [destruct E; discriminate|].
  match type of H with bind ?q _ = _ => destruct q as [[E2' [l|]]|] eqn:IT; cbn [bind] in *; [| |discriminate] end; [|congruence].
  destruct (sum_orders 1 0 None l) as [s'|] eqn:SO; [|congruence]. pose proof (iter_length _ _ _ _ _ _ _ _ _ IT) as LL.
  destruct l as [|x [|y l]]; [discriminate SO| |cbn in LL; lia]. cbn. congruence.
Qed.
(** The energies must start at zero, and only the first two count: what is said after them has no effect, evenly spaced or not. *)
Theorem C50_origin : forall e0 rest g Qmax Qmin dQ T M N st Emax, 1 / 10 ^ 7 <= Rabs e0 -> exists e, sqe (e0 :: rest) g Qmax Qmin dQ T M N st Emax = Err e.
Proof. exact origin_needed. Qed.
Example C50_origin_case : exists e, sqe [1; 2; 3] [0; 1; 4] None 0 None 300 50 5 2 None = Err e.
Proof. apply C50_origin. rewrite Rabs_right; lra. Qed.
Theorem C50_uneven_refuted : forall e0 e1 rest rest' g Qmax Qmin dQ T M N st Emax, List.length rest = List.length rest' ->
  sqe (e0 :: e1 :: rest) g (Some Qmax) Qmin dQ T M N st Emax = sqe (e0 :: e1 :: rest') g (Some Qmax) Qmin dQ T M N st Emax.
Proof. exact only_first_two. Qed.
Example C50_uneven_case : sqe [0; 1; 2] [0; 1; 4] (Some 10) 0 (Some 1) 300 50 5 2 None = sqe [0; 1; -70] [0; 1; 4] (Some 10) 0 (Some 1) 300 50 5 2 None.
Proof. now apply C50_uneven_refuted. Qed.

Print Assumptions C50_one_phonon.
Print Assumptions C50_one_phonon_integral.
Print Assumptions C50_negative_refuted.
Print Assumptions C50_next_order.
Print Assumptions C50_next_order_sizes.
Print Assumptions C50_truncation_refuted.
Print Assumptions C50_orders.
Print Assumptions C50_sqe.
Print Assumptions C50_sqe_rows.
Print Assumptions C50_sqe_exists.
Print Assumptions C50_no_orders.
Print Assumptions C50_origin.
Print Assumptions C50_uneven_refuted.
