(** Proofs for C50: sqe. *)
From Coq Require Import Reals Lra Psatz.
From Verif Require Import Base RotModel DetModel ChanModel MonModel ShapeModel ScatModel UnitModel GridModel PhonModel PhonSpec ChanProofs ShapeProofs UnitProofs KinProofs GridProofs PhonProofs PhonProofs2 MultiModel MultiSpec MultiProofs MultiProofs2 MultiProofs3 MultiProofs4.
Open Scope R_scope.

Lemma total_repeat0 n : total (repeat 0 n) = 0.
Proof. induction n as [|n IH]; [reflexivity|]. unfold total in *. cbn. rewrite IH. ring. Qed.
Lemma nth_pad (g : list R) n i : nth i (g ++ repeat 0 n) 0 = nth i g 0.
Proof. destruct (Nat.lt_ge_cases i (List.length g)) as [C|C]; [now rewrite app_nth1|]. rewrite app_nth2 by exact C. rewrite nth_repeat, nth_overflow by exact C. reflexivity. Qed.
Lemma extended_is de g n : (List.length g <= n)%nat -> map (fun x => x / (np_sum (g ++ repeat 0 (n - List.length g)) * de)) (g ++ repeat 0 (n - List.length g)) = extended de g n.
Proof.
  intros L. rewrite np_total, total_app, total_repeat0, Rplus_0_r. apply nth_ext with 0 0.
  - unfold extended. rewrite !map_length, app_length, repeat_length, seq_length. lia.
  - intros i I. rewrite map_length, app_length, repeat_length in I. rewrite nth_map_R by (rewrite app_length, repeat_length; exact I). unfold extended. rewrite nth_map_seq by lia. rewrite nth_pad. f_equal. ring.
Qed.
Lemma extended_length de g n : List.length (extended de g n) = n.
Proof. unfold extended. now rewrite map_length, seq_length. Qed.
Lemma extended_nth de g n i : (i < n)%nat -> nth i (extended de g n) 0 = nth i g 0 / (de * total g).
Proof. intros I. unfold extended. now rewrite nth_map_seq. Qed.
Lemma extended_total de g n : (List.length g <= n)%nat -> de <> 0 -> total g <> 0 -> total (extended de g n) * de = 1.
Proof.
  intros L D T. rewrite <- (extended_is de g n L), total_map_div, np_total, total_app, total_repeat0. field. split; [exact D|lra].
Qed.
Lemma kT_pos T : T <> 0 -> T * (862 / 10 ^ 4) <> 0.
Proof. intros N. apply Rmult_integral_contrapositive. split; [exact N|lra]. Qed.

Theorem sqe_value de rest g Qmax Qmin dQ T M N st Emax Qs E2 s :
  sqe (0 :: de :: rest) g Qmax Qmin dQ T M N st Emax = Ok (Qs, E2, SQE s) ->
  exists h G A w, let b := 1 / (T * (862 / 10 ^ 4)) in let g' := extended de g (S h) in
  de <> 0 /\ T <> 0 /\ (2 <= h)%nat /\ (List.length g <= S h)%nat /\ total g <> 0 /\ G <> 0 /\ mean_square b de g' G /\ sqe_result b de M g' N st Qs E2 s h G A w
  /\ A 1%nat = map (A1v b de g' h) (seq 0 (2 * h + 1)).
Proof.
  intros H. unfold sqe in H. cbv zeta in H. rewrite !Rminus_0_r in H. set (EM := match Emax with Some m => _ | None => _ end) in H.
  destruct (np_arange 0 EM de) as [E|] eqn:AR; cbn [bind] in H; [|discriminate]. destruct (arange_ok _ _ _ _ AR) as [D AX].
  destruct (Nat.ltb_spec (List.length E) (List.length g)) as [C|C]; [discriminate|].
  match type of H with (bind ?q _) = _ => destruct q as [Qm|]; cbn [bind] in H; [|discriminate] end.
  match type of H with (bind ?q _) = _ => destruct q as [Q|]; cbn [bind] in H; [|discriminate] end.
  destruct (Reqb (T * (862 / 10 ^ 4)) 0) eqn:TZ; [discriminate|]. apply Reqb_f in TZ.
  destruct (Reqb (np_sum (g ++ repeat 0 (List.length E - List.length g)) * de) 0) eqn:IZ; [destruct E; discriminate|]. apply Reqb_f in IZ.
  rewrite extended_is in H by exact C. rewrite np_total, total_app, total_repeat0, Rplus_0_r in IZ.
  assert (TG : total g <> 0) by (intros Z; apply IZ; rewrite Z; ring).
  set (b := 1 / (T * (862 / 10 ^ 4))) in *. assert (B : b <> 0). { unfold b, Rdiv. apply Rmult_integral_contrapositive. split; [lra|now apply Rinv_neq_0_compat]. }
  destruct (iterSQESet N Q E de M (extended de g (List.length E)) b) as [[E2' [l|]]|] eqn:IT; cbn [bind] in H; [|discriminate|discriminate].
  destruct (sum_orders st 0 None l) as [s'|] eqn:SO; [|discriminate]. injection H as <- <- <-.
  destruct (List.length E) as [|h] eqn:LE. { exfalso. destruct (gamma0_short E (extended de g 0) b de ltac:(lia)) as [e GE]. unfold iterSQESet, computeAnESet, computeA1E in IT. rewrite GE in IT. discriminate. }
  assert (NORM : Rabs (total (extended de g (S h)) * de - 1) < 1 / 1000) by (rewrite extended_total by assumption; replace (1 - 1) with 0 by ring; rewrite Rabs_R0; lra).
  destruct (iter_value N Q E de M (extended de g (S h)) b E2' l h B D AX LE (extended_length _ _ _) NORM IT) as (H2 & Z & LL & N1 & A & w & ONE & NEXT & L2 & AX2 & A1 & EXP & ENT).
  exists h, (G0 b de (extended de g (S h)) h), A, w. cbv zeta. split; [exact D|]. split; [intros ->; apply TZ; ring|]. split; [exact H2|]. split; [exact C|]. split; [exact TG|]. split; [exact Z|].
  split; [apply G0_mean; [exact B|exact D|apply extended_length|exact H2]|]. split; [|exact A1].
  pose proof (orders_sum (List.length Q) (2 * h + 1) st l 0 None ltac:(rewrite LL; intros k K; apply (ENT k K)) Logic.I) as OS. rewrite SO in OS. destruct OS as (SH & _ & VAL).
  split; [exact ONE|]. split; [exact NEXT|]. split; [exact L2|]. split; [exact AX2|]. split; [exact SH|]. split; [exact EXP|].
  intros j e J I. rewrite (VAL j e J I), orders_loop, Rplus_0_l, LL. apply sum_ext. intros k K. destruct (Z.ltb _ _); [reflexivity|]. apply (ENT k K); assumption.
Qed.

(** every order is balanced; every order from the second has integral one *)
Section orders.
  Variables (b dE : R) (g : list R) (h N : nat) (G : R) (A : nat -> list R).
  Hypotheses (B : b <> 0) (D : dE <> 0) (H2 : (2 <= h)%nat) (GZ : G <> 0) (ONE : one_spectrum b dE g G h (A 1%nat)) (NEXT : forall n, (1 <= n < N)%nat -> next_spectrum (A 1%nat) dE (A n) (A (S n))).
  Lemma one_balanced : balanced (b * dE) h (A 1%nat).
  Proof.
    destruct ONE as (L & V & _). split; [exact L|]. intros i I. destruct i as [|i]; [rewrite Nat.add_0_r, Nat.sub_0_r; cbn [INR]; rewrite Rmult_0_l, exp_0; ring|].
    pose proof (bE b dE B D (S i) ltac:(lia)) as BE. pose proof (exp_ne1 _ BE) as X.
    destruct (V (S i) (/ (exp (b * (INR (S i) * dE)) - 1)) ltac:(lia)) as [-> ->]; [unfold mean_phonons; field; exact X|].
    replace (INR (S i) * (b * dE)) with (b * (INR (S i) * dE)) by ring. set (u := exp _) in *. assert (INR (S i) <> 0) by (apply not_0_INR; lia). field. repeat split; assumption.
  Qed.
  Lemma next_balanced x r r' : balanced x h r -> balanced x h (A 1%nat) -> next_spectrum (A 1%nat) dE r r' -> balanced x h r'.
  Proof. intros BR B1 (c & _ & -> & _). apply balanced_scale. now apply middle_balance. Qed.
  Lemma all_balanced n : (1 <= n <= N)%nat -> balanced (b * dE) h (A n).
  Proof.
    induction n as [|n IH]; intros I; [lia|]. destruct n as [|n]; [apply one_balanced|]. apply (next_balanced _ (A (S n))); [apply IH; lia|apply one_balanced|apply NEXT; lia].
  Qed.
  Lemma all_normal n : (2 <= n <= N)%nat -> total (A n) * dE = 1.
  Proof. intros I. destruct n as [|n]; [lia|]. destruct (NEXT n ltac:(lia)) as (c & _ & _ & T). exact T. Qed.
  Lemma all_length n : (1 <= n <= N)%nat -> List.length (A n) = (2 * h + 1)%nat.
  Proof. intros I. apply (proj1 (all_balanced n I)). Qed.
  Lemma all_nonneg : Forall (fun v => 0 <= v) (A 1%nat) -> 0 < dE -> forall n, (1 <= n <= N)%nat -> Forall (fun v => 0 <= v) (A n).
  Proof.
    intros P DP. induction n as [|n IH]; intros I; [lia|]. destruct n as [|n]; [exact P|]. destruct (NEXT (S n) ltac:(lia)) as (c & CZ & E & T). specialize (IH ltac:(lia)).
    pose proof (middle_nonneg _ _ IH P) as MP. rewrite E in T. rewrite total_map_div in T. pose proof (total_nonneg _ MP) as TP.
    assert (CP : 0 < c). { destruct (Rle_or_lt c 0) as [CN|CN]; [|exact CN]. exfalso. assert (total (middle (A (S n)) (A 1%nat)) * dE = c) by (apply Rmult_eq_reg_r with (/ c); [|now apply Rinv_neq_0_compat]; rewrite Rinv_r by exact CZ; rewrite <- T; unfold Rdiv; ring). nra. }
    rewrite E. apply Forall_forall. intros v V. apply in_map_iff in V. destruct V as (x & <- & X). rewrite Forall_forall in MP. apply Rmult_le_pos; [now apply MP|left; now apply Rinv_0_lt_compat].
  Qed.
End orders.
Lemma entry_total s nq ne j : shape nq ne s -> (j < nq)%nat -> total (nth j s []) = loop_sum (fun i => entry s j i) ne.
Proof. intros [L R] J. rewrite <- total_nth, (R j J). reflexivity. Qed.
Lemma poisson_sum st N x : 0 <= x -> orders st N (poisson x) <= 1.
Proof.
  intros X. assert (NN : forall n, 0 <= / INR (fact n) * x ^ n) by (intros n; apply Rmult_le_pos; [left; apply Rinv_0_lt_compat, lt_0_INR, lt_O_fact|now apply pow_le]).
  assert (P : forall n, poisson x n = exp (- x) * (/ INR (fact n) * x ^ n)) by (intros n; unfold poisson, Rdiv; ring).
  assert (LE : orders st N (poisson x) <= exp (- x) * sum_f_R0 (fun n => / INR (fact n) * x ^ n) N).
  { rewrite orders_loop. apply Rle_trans with (exp (- x) * loop_sum (fun k => / INR (fact (S k)) * x ^ S k) N).
    - rewrite <- sum_scale. clear -NN P. pose proof (exp_pos (- x)) as EP. induction N as [|N IH]; cbn [loop_sum]; [lra|]. specialize (NN (S N)). rewrite P. destruct (Z.ltb _ _); [|lra].
      assert (0 <= exp (- x) * (/ INR (fact (S N)) * x ^ S N)) by (apply Rmult_le_pos; lra). lra.
    - apply Rmult_le_compat_l; [left; apply exp_pos|]. clear -NN. pose proof (NN 0%nat) as N0. induction N as [|N IH]; [cbn [loop_sum sum_f_R0]; exact N0|]. rewrite tech5. cbn [loop_sum]. lra. }
  apply Rle_trans with (1 := LE). apply Rmult_le_reg_l with (exp x); [apply exp_pos|]. rewrite <- Rmult_assoc, <- exp_plus. replace (x + - x) with 0 by ring. rewrite exp_0, Rmult_1_l, Rmult_1_r.
  apply sum_incr; [|exact NN]. unfold exp. destruct (exist_exp x) as [l IN]. exact IN.
Qed.
(** the rows of the result *)
Lemma row_balance b dE M g N st Qs E2 s h G A w : b <> 0 -> dE <> 0 -> (2 <= h)%nat -> G <> 0 -> sqe_result b dE M g N st Qs E2 s h G A w ->
  forall j, (j < List.length Qs)%nat -> balanced (b * dE) h (nth j s []).
Proof.
  intros B D H2 GZ (ONE & NEXT & _ & _ & SH & _ & VAL) j J. split; [apply (proj2 SH j J)|]. intros i I. change (entry s j (h + i) = exp (INR i * (b * dE)) * entry s j (h - i)). rewrite !VAL by (try assumption; lia).
  rewrite <- orders_scale. apply orders_ext. intros n NI _. destruct (all_balanced b dE g h N G A B D H2 GZ ONE NEXT n NI) as [_ BA]. rewrite (BA i I). ring.
Qed.
Lemma row_total b dE M g N st Qs E2 s h G A w : b <> 0 -> dE <> 0 -> (2 <= h)%nat -> G <> 0 -> sqe_result b dE M g N st Qs E2 s h G A w ->
  forall j, (j < List.length Qs)%nat -> (forall n, (1 <= n <= N)%nat -> (st <= Z.of_nat n)%Z -> total (A n) * dE = 1) -> total (nth j s []) * dE = orders st N (poisson (w j)).
Proof.
  intros B D H2 GZ (ONE & NEXT & _ & _ & SH & _ & VAL) j J NO. rewrite (entry_total s _ _ j SH J). rewrite (sum_ext _ (fun e => orders st N (fun n => poisson (w j) n * nth e (A n) 0))) by (intros; apply VAL; assumption).
  rewrite orders_swap. rewrite Rmult_comm, <- orders_scale. apply orders_ext. intros n NI ST. specialize (NO n NI ST). rewrite sum_scale.
  pose proof (total_nth (A n)) as TN. rewrite (all_length b dE g h N G A B D H2 GZ ONE NEXT n NI) in TN. rewrite TN. replace (dE * (poisson (w j) n * total (A n))) with (poisson (w j) n * (total (A n) * dE)) by ring. rewrite NO. ring.
Qed.
(** data of a positive start *)
Definition good (g : list R) : Prop := Forall (fun v => 0 <= v) g /\ 0 < nth 1 g 0 /\ nth 2 g 0 <= 4 * nth 1 g 0.
Lemma good_total g : good g -> 0 < total g.
Proof.
  intros (P & P1 & _). destruct g as [|a [|c l]]; [cbn in P1; lra|cbn in P1; lra|]. cbn in P1. inversion P as [|? ? PA P']; subst. inversion P' as [|? ? PC PL]; subst. pose proof (total_nonneg _ PL). unfold total in *. cbn [fold_right] in *. lra.
Qed.
Lemma good_extended de g h : 0 < de -> (2 <= h)%nat -> good g -> good (extended de g (S h)).
Proof.
  intros D H2 G. pose proof (good_total g G) as TP. destruct G as (P & P1 & P2). assert (DT : 0 < de * total g) by nra. pose proof (Rinv_0_lt_compat _ DT) as IP. split; [|rewrite !extended_nth by lia; split].
  - apply Forall_forall. intros v V. unfold extended in V. apply in_map_iff in V. destruct V as (i & <- & _). apply Rmult_le_pos; [now apply nonneg_nth|lra].
  - unfold Rdiv. nra.
  - unfold Rdiv. nra.
Qed.
Lemma good_G0 b de g h : 0 < b -> 0 < de -> (2 <= h)%nat -> good g -> 0 < G0 b de g h.
Proof. intros B D H2 (P & P1 & _). apply (G0_pos b de g h H2 B D P 1); [lia|lia|exact P1]. Qed.
Lemma good_A1 b de g h : 0 < b -> 0 < de -> (2 <= h)%nat -> good g -> Forall (fun v => 0 <= v) (map (A1v b de g h) (seq 0 (2 * h + 1))) /\ 0 < nth h (map (A1v b de g h) (seq 0 (2 * h + 1))) 0.
Proof.
  intros B D H2 G. pose proof (good_G0 b de g h B D H2 G) as GP. destruct G as (P & P1 & P2). assert (B0 : b <> 0) by lra. assert (D0 : de <> 0) by lra.
  pose proof (A1_zero_pos b de g h B0 D0 B D GP P1 P2) as Z. split; [apply A1_nonneg; try assumption; lra|]. rewrite nth_map_seq by lia. exact Z.
Qed.
Lemma exponent_nonneg q M G w : 0 < M -> 0 < G -> exponent q M G w -> 0 <= w.
Proof.
  intros MP GP ->. set (x := _ ^ 2). assert (X : 0 <= x) by apply pow2_ge_0. apply Rmult_le_pos; [|lra]. apply Rmult_le_pos; [|lra]. apply Rmult_le_pos; [exact X|]. left. apply Rinv_0_lt_compat. lra.
Qed.
Lemma iter_exists N Q E dE M g b h : 0 < b -> 0 < dE -> evenly 0 dE E -> List.length E = S h -> List.length g = S h -> (2 <= h)%nat -> Rabs (total g * dE - 1) < 1 / 1000 ->
  good g -> M <> 0 -> (1 <= N)%nat -> exists l, iterSQESet N Q E dE M g b = Ok (reflect E (-1), Some l).
Proof.
  intros BP DP AX LE LG H2 NORM G M0 N1. assert (B : b <> 0) by lra. assert (D : dE <> 0) by lra. pose proof (good_G0 b dE g h BP DP H2 G) as GP. destruct (good_A1 b dE g h BP DP H2 G) as [NN C].
  unfold iterSQESet, computeAnESet. rewrite (A1_exact b dE E g h B D AX LE LG H2 NORM). cbn [bind]. destruct N as [|m]; [lia|]. destruct (Req_EM_T (G0 b dE g h) 0) as [Z|_]; [lra|].
  set (A1 := map (A1v b dE g h) (seq 0 (2 * h + 1))) in *. assert (L1 : List.length A1 = (2 * h + 1)%nat) by (unfold A1; now rewrite map_length, seq_length).
  destruct (rows_exist A1 dE h DP L1 NN C m A1 eq_refl NN C) as [rows RR]. rewrite RR. cbn [bind option_map]. unfold DWExp. rewrite (gamma0_exact b dE E g h B D AX LE LG H2 NORM). cbn [bind].
  destruct (numbers_all (map (fun q => recoilE q M) Q)) as [r NU].
  { intros i I. rewrite map_length in I. rewrite (nth_indep _ None (recoilE 0 M)) by (now rewrite map_length). rewrite (map_nth (fun q => recoilE q M)). destruct (recoil_ok (nth i Q 0) M M0) as [v V]. rewrite V. discriminate. }
  rewrite NU. eauto.
Qed.
Theorem sqe_exists de rest g Qmax Qmin dQ T M N st : 0 < de -> 0 < T -> M <> 0 -> good g -> (List.length g <= 3 * List.length (0%R :: de :: rest))%nat -> dQ <> 0 -> (1 <= N)%nat -> (st <= Z.of_nat N)%Z ->
  exists Qs E2 s, sqe (0 :: de :: rest) g (Some Qmax) Qmin (Some dQ) T M N st None = Ok (Qs, E2, SQE s) /\ List.length E2 = (6 * List.length (0%R :: de :: rest) - 1)%nat.
Proof.
  intros DP TP M0 G LG DQ N1 ST. unfold sqe. cbv zeta. rewrite !Rminus_0_r. set (m := List.length (0 :: de :: rest)) in *. assert (M2 : (2 <= m)%nat) by (unfold m; cbn; lia).
  destruct (arange_whole 0 de (3 * m) ltac:(lra)) as (E & AR & AX & LE). rewrite mult_INR in AR. replace (INR 3) with 3 in AR by (cbn; ring). replace (0 + de * (3 * INR m)) with (0 + de * 3 * INR m) in AR by ring. rewrite AR. cbn [bind].
  rewrite LE. rewrite (proj2 (Nat.ltb_ge _ _) LG). unfold np_arange at 1. rewrite (proj2 (Reqb_f dQ 0) DQ). cbn [bind].
  assert (K : 0 < T * (862 / 10 ^ 4)) by (apply Rmult_lt_0_compat; lra). rewrite (proj2 (Reqb_f (T * (862 / 10 ^ 4)) 0)) by lra. pose proof (good_total g G) as TG.
  rewrite (extended_is de g (3 * m) LG). replace (np_sum (g ++ repeat 0 (3 * m - List.length g)) * de) with (total g * de) by (rewrite np_total, total_app, total_repeat0; ring).
  rewrite (proj2 (Reqb_f (total g * de) 0)) by nra. set (b := 1 / (T * (862 / 10 ^ 4))). assert (B : 0 < b) by (unfold b; apply Rdiv_lt_0_compat; lra).
  set (Q := map _ _). assert (HH : exists h, (3 * m = S h)%nat /\ (2 <= h)%nat) by (exists (3 * m - 1)%nat; lia). destruct HH as (h & HS & H2). rewrite HS in *.
  assert (NORM : Rabs (total (extended de g (S h)) * de - 1) < 1 / 1000) by (rewrite extended_total by lra || exact LG; replace (1 - 1) with 0 by ring; rewrite Rabs_R0; lra).
  destruct (iter_exists N Q E de M (extended de g (S h)) b h B DP AX LE (extended_length _ _ _) H2 NORM (good_extended de g h DP H2 G) M0 N1) as [l IT]. rewrite IT. cbn [bind].
  destruct (iter_value N Q E de M (extended de g (S h)) b _ l h ltac:(lra) ltac:(lra) AX LE (extended_length _ _ _) NORM IT) as (_ & _ & LL & _ & A & w & _ & _ & L2 & _ & _ & _ & ENT).
  pose proof (orders_sum (List.length Q) (2 * h + 1) st l 0 None ltac:(rewrite LL; intros k Kk; apply (ENT k Kk)) Logic.I) as OS.
  destruct (sum_orders st 0 None l) as [s|]; [exists Q, (reflect E (-1)), s; split; [reflexivity|]; rewrite L2; lia|]. exfalso. destruct OS as [_ [X|X]]; [rewrite X in LL; cbn in LL; lia|rewrite LL in X; lia].
Qed.
Theorem sqe_nonneg de rest g Qmax Qmin dQ T M N st Emax Qs E2 s : 0 < de -> 0 < T -> 0 < M -> good g ->
  sqe (0 :: de :: rest) g Qmax Qmin dQ T M N st Emax = Ok (Qs, E2, SQE s) ->
  List.length s = List.length Qs /\ forall j, (j < List.length Qs)%nat -> Forall (fun v => 0 <= v) (nth j s []) /\ ((2 <= st)%Z -> total (nth j s []) * de <= 1).
Proof.
  intros DP TP MP G H. destruct (sqe_value _ _ _ _ _ _ _ _ _ _ _ _ _ _ H) as (h & GG & A & w & HH). cbv zeta in HH. set (b := 1 / (T * (862 / 10 ^ 4))) in *.
  destruct HH as (D & _ & H2 & LG & TG & GZ & MS & R & A1). assert (B : 0 < b) by (unfold b; apply Rdiv_lt_0_compat; [lra|apply Rmult_lt_0_compat; lra]).
  pose proof (good_extended de g h DP H2 G) as GE. pose proof (good_G0 b de _ h B DP H2 GE) as GP.
  rewrite <- (mean_square_unique b de _ GG h ltac:(lra) D (extended_length _ _ _) H2 MS) in GP.
  destruct (good_A1 b de _ h B DP H2 GE) as [NN _]. rewrite <- A1 in NN. pose proof R as R'. destruct R' as (ONE & NEXT & _ & _ & [SL SH] & EXP & VAL). split; [exact SL|]. intros j J. pose proof (exponent_nonneg _ _ _ _ MP GP (EXP j J)) as WP.
  pose proof (all_nonneg de h N A D H2 NEXT NN DP) as AN. split.
  - apply Forall_forall. intros v V. apply (In_nth _ _ 0) in V. destruct V as (e & I & <-). rewrite SH in I by exact J. change (0 <= entry s j e). rewrite VAL by assumption. rewrite orders_loop. apply sum_nonneg.
    intros k K. destruct (Z.ltb _ _); [lra|]. apply Rmult_le_pos; [|apply nonneg_nth, AN; lia]. unfold poisson. apply Rmult_le_pos; [apply Rmult_le_pos; [now apply pow_le|left; apply exp_pos]|left; apply Rinv_0_lt_compat, lt_0_INR, lt_O_fact].
  - intros ST. rewrite (row_total b de M _ N st Qs E2 s h GG A w ltac:(lra) D H2 GZ R j J); [now apply poisson_sum|]. intros n NI SN. apply (all_normal de h N A H2 NEXT). lia.
Qed.
