(** Proofs for C50: mean square displacement and one-phonon spectrum. *)
From Coq Require Import Reals Lra Psatz.
From Verif Require Import Base RotModel DetModel ChanModel MonModel ShapeModel ScatModel UnitModel GridModel PhonModel PhonSpec ChanProofs ShapeProofs UnitProofs KinProofs GridProofs PhonProofs PhonProofs2 MultiModel MultiSpec MultiProofs.
Open Scope R_scope.

Lemma combine_seq (a b : list R) : List.length a = List.length b -> combine a b = map (fun i => (nth i a 0, nth i b 0)) (seq 0 (List.length a)).
Proof.
  revert b. induction a as [|x a IH]; intros [|y b] L; try discriminate; [reflexivity|]. cbn [combine List.length seq map nth]. f_equal.
  rewrite <- seq_shift, map_map. apply IH. now injection L.
Qed.
Lemma first_any {A} (d : A) : forall l k n, (k < n)%nat -> nth k (firstn n l) d = nth k l d.
Proof. induction l as [|x l IH]; intros k n C; [now rewrite firstn_nil|]. destruct n; [lia|]. destruct k; [reflexivity|]. cbn. apply IH. lia. Qed.
Lemma skip_any {A} (d : A) : forall l a j, nth j (skipn a l) d = nth (a + j) l d.
Proof. induction l as [|x l IH]; intros a j; [rewrite skipn_nil; destruct j, a; reflexivity|]. destruct a; [reflexivity|]. cbn. apply IH. Qed.
Lemma exp_ne1 x : x <> 0 -> exp x - 1 <> 0.
Proof. intros N H. apply N. apply exp_inv. rewrite exp_0. lra. Qed.
Lemma fdiv_ok a b : b <> 0 -> fdiv a b = Some (a / b).
Proof. intros N. unfold fdiv. now rewrite (proj2 (Reqb_f _ _)). Qed.
(** the closed form of (2n+1) g/E *)
Definition Fv (b E g : R) : R := (exp (b * E) + 1) / (exp (b * E) - 1) * g / E.
Lemma gamma_elem b E g : b * E <> 0 -> gamma0_f b E g = Some (Fv b E g).
Proof.
  intros N. assert (E <> 0) by (intros ->; apply N; ring). unfold gamma0_f, coth, tanh, sinh, cosh, Fv.
  set (u := exp (b * E / 2)). assert (UP : 0 < u) by apply exp_pos. assert (UU : exp (b * E) = u * u) by (unfold u; rewrite <- exp_plus; f_equal; field).
  rewrite exp_Ropp. fold u. pose proof (exp_ne1 _ N) as X. rewrite UU in X |- *. assert (X2 : u * u + 1 <> 0) by nra.
  assert (T : (u - / u) / 2 / ((u + / u) / 2) = (u * u - 1) / (u * u + 1)) by (field; repeat split; nra).
  rewrite T. rewrite fdiv_ok. 2:{ unfold Rdiv. apply Rmult_integral_contrapositive. split; [exact X|now apply Rinv_neq_0_compat]. }
  rewrite fdiv_ok by assumption. f_equal. field. repeat split; assumption.
Qed.
Lemma Fv_displacement b E g : b * E <> 0 -> displacement b E g (Fv b E g).
Proof.
  intros N. pose proof (exp_ne1 _ N) as X. assert (E <> 0) by (intros ->; apply N; ring). exists (/ (exp (b * E) - 1)). split; [unfold mean_phonons; field; exact X|]. unfold Fv. field. split; assumption.
Qed.
Lemma displacement_unique b E g F : b * E <> 0 -> displacement b E g F -> F = Fv b E g.
Proof.
  intros N (n & O & ->). pose proof (exp_ne1 _ N) as X. assert (E <> 0) by (intros ->; apply N; ring). unfold mean_phonons in O. unfold Fv.
  assert (n = / (exp (b * E) - 1)) as ->. { apply Rmult_eq_reg_r with (exp (b * E) - 1); [|exact X]. rewrite O. field. exact X. } field. split; assumption.
Qed.
Lemma nth_tl (l : list R) i : nth i (tl l) 0 = nth (S i) l 0.
Proof. destruct l; [now destruct i|reflexivity]. Qed.
Lemma tl_length (l : list R) : List.length (tl l) = (List.length l - 1)%nat.
Proof. destruct l; cbn; lia. Qed.

Section displacement.
  Variables (b dE : R) (E g : list R) (h : nat).
  Hypotheses (B : b <> 0) (D : dE <> 0) (AX : evenly 0 dE E) (LE : List.length E = S h) (LG : List.length g = S h) (H2 : (2 <= h)%nat)
    (NORM : Rabs (total g * dE - 1) < 1 / 1000).
  Definition F (i : nat) : R := Fv b (INR i * dE) (nth i g 0).
  Definition G0 : R := dE * (2 * F 1 - F 2 + loop_sum (fun i => F (S i)) h).
  Lemma nth_E i : (i <= h)%nat -> nth i E 0 = INR i * dE.
  Proof using AX LE. clear - AX LE. intros I. rewrite (AX i) by lia. ring. Qed.
  Lemma bE i : (1 <= i)%nat -> b * (INR i * dE) <> 0.
  Proof using B D. clear - B D. intros I. assert (INR i <> 0) by (apply not_0_INR; lia). repeat (apply Rmult_integral_contrapositive; split; try assumption). Qed.
  Lemma gamma0_exact : gamma0 E g b dE = Ok (Some G0).
  Proof using B D AX LE LG H2 NORM.
    unfold gamma0. pose proof nth_E as NE. destruct E as [|E0 E'] eqn:EE; [discriminate|]. rewrite <- EE in *.
    assert (E0 = 0) as ->. { pose proof (NE 0%nat ltac:(lia)) as Z. rewrite EE in Z. cbn in Z. lra. }
    rewrite Rabs_R0. rewrite (proj2 (Rltb_t 0 _)) by lra. cbn [negb]. rewrite np_total. rewrite (proj2 (Rltb_t _ _)) by lra. cbn [negb].
    rewrite LE, LG, Nat.eqb_refl. cbn [negb]. replace E' with (tl E) by (rewrite EE; reflexivity).
    rewrite combine_seq by (rewrite !tl_length; lia). rewrite tl_length, LE, map_map. replace (S h - 1)%nat with h by lia.
    assert (MS : map (fun i => gamma0_f b (fst (nth i (tl E) 0, nth i (tl g) 0)) (snd (nth i (tl E) 0, nth i (tl g) 0))) (seq 0 h) = map Some (map (fun i => F (S i)) (seq 0 h))).
    { rewrite map_map. apply map_ext_in. intros i I. apply in_seq in I. cbn [fst snd]. rewrite !nth_tl, NE by lia. apply gamma_elem. apply bE. lia. }
    rewrite MS. assert (SH : seq 0 h = 0%nat :: 1%nat :: seq 2 (h - 2)) by (destruct h as [|[|m]]; [lia|lia|]; cbn [seq]; do 3 f_equal; lia).
    pose proof (loop_total (fun i => F (S i)) h) as LT. unfold G0. rewrite LT, SH. cbn [map]. rewrite <- !map_cons. rewrite numbers_some. cbn [map].
    rewrite np_total. unfold total. cbn [fold_right]. do 2 f_equal. ring.
  Qed.
  (** the one-phonon spectrum *)
  Definition up (i : nat) : R := nth i g 0 / (INR i * dE * G0) * (1 / (1 - exp (- (INR i * dE) * b))).
  Definition down (i : nat) : R := nth i g 0 / (- (INR i * dE) * G0) * (1 / (1 - exp (INR i * dE * b))).
  Definition A1v (k : nat) : R := if Nat.ltb h k then up (k - h) else if Nat.eqb k h then 2 * (up 1 + (up 1 - up 2)) else down (h - k).
  Lemma reflect_length (l : list R) c : l <> [] -> List.length (reflect l c) = (2 * List.length l - 1)%nat.
  Proof using Type. clear. intros N. unfold reflect. rewrite app_length, rev_length, map_length, tl_length. destruct l; [congruence|cbn; lia]. Qed.
  Lemma reflect_low (l : list R) c k : (k < List.length l)%nat -> nth k (reflect l c) 0 = c * nth (List.length l - 1 - k) l 0.
  Proof using Type. clear.
    intros K. unfold reflect. rewrite app_nth1 by (rewrite rev_length, map_length; exact K). rewrite rev_nth by (rewrite map_length; exact K). rewrite map_length, nth_map_R by lia. do 2 f_equal. lia.
  Qed.
  Lemma reflect_high (l : list R) c k : (List.length l <= k)%nat -> nth k (reflect l c) 0 = nth (k - List.length l + 1) l 0.
  Proof using Type. clear.
    intros K. unfold reflect. rewrite app_nth2 by (rewrite rev_length, map_length; exact K). rewrite rev_length, map_length, nth_tl. f_equal. lia.
  Qed.
  Lemma axis_nth k : (k < 2 * h + 1)%nat -> nth k (reflect E (-1)) 0 = (INR k - INR h) * dE.
  Proof using AX LE. clear - AX LE.
    intros K. destruct (Nat.lt_ge_cases k (S h)) as [C|C].
    - rewrite reflect_low by lia. rewrite LE, nth_E by lia. replace (S h - 1 - k)%nat with (h - k)%nat by lia. rewrite minus_INR by lia. ring.
    - rewrite reflect_high by lia. rewrite LE, nth_E by lia. replace (k - S h + 1)%nat with (k - h)%nat by lia. rewrite minus_INR by lia. ring.
  Qed.
  Lemma dos_nth k : (k < 2 * h + 1)%nat -> nth k (reflect g 1) 0 = nth (if Nat.ltb h k then k - h else h - k)%nat g 0.
  Proof using LG. clear - LG.
    intros K. destruct (Nat.ltb_spec h k) as [C|C].
    - rewrite reflect_high by lia. rewrite LG. f_equal. lia.
    - rewrite reflect_low by lia. rewrite LG. rewrite Rmult_1_l. f_equal. lia.
  Qed.
  Lemma A1E_t_ok g0 e x : e * b <> 0 -> g0 <> 0 -> A1E_t b g0 e x = Some (x / (e * g0) * (1 / (1 - exp (- e * b)))).
  Proof using B. clear - B.
    intros N G. assert (e <> 0) by (intros ->; apply N; ring). unfold A1E_t. assert (N' : - e * b <> 0) by (replace (- e * b) with (- (e * b)) by ring; now apply Ropp_neq_0_compat).
    pose proof (exp_ne1 _ N') as X. rewrite fdiv_ok by lra. rewrite fdiv_ok by (now apply Rmult_integral_contrapositive). reflexivity.
  Qed.
  Lemma A1_exact : computeA1E E g b dE = Ok (reflect E (-1), if Req_EM_T G0 0 then None else Some (map A1v (seq 0 (2 * h + 1)))).
  Proof.
    unfold computeA1E. rewrite gamma0_exact. cbn [bind reflected]. do 2 f_equal. rewrite LE. replace (S h - 1)%nat with h by lia.
    assert (EN : E <> []) by (intros Z; rewrite Z in LE; discriminate). assert (GN : g <> []) by (intros Z; rewrite Z in LG; discriminate).
    assert (RL : List.length (reflect E (-1)) = (2 * h + 1)%nat) by (rewrite reflect_length, LE by exact EN; lia).
    rewrite combine_seq by (rewrite RL, reflect_length, LG by exact GN; lia). rewrite RL, map_map. cbn [fst snd].
    set (t := map _ (seq 0 (2 * h + 1))).
    assert (TN : forall k, (k < 2 * h + 1)%nat -> nth k t None = A1E_t b G0 (nth k (reflect E (-1)) 0) (nth k (reflect g 1) 0)).
    { intros k K. unfold t. rewrite (nth_indep _ None (A1E_t b G0 (nth 0 (reflect E (-1)) 0) (nth 0 (reflect g 1) 0))) by (rewrite map_length, seq_length; exact K).
      rewrite (map_nth (fun i => A1E_t b G0 (nth i (reflect E (-1)) 0) (nth i (reflect g 1) 0))), seq_nth by exact K. reflexivity. }
    assert (TL : List.length t = (2 * h + 1)%nat) by (unfold t; now rewrite map_length, seq_length).
    destruct (Req_EM_T G0 0) as [Z|Z].
    - rewrite (TN (S h)) by lia. unfold A1E_t at 1. rewrite Z, Rmult_0_r. unfold fdiv at 2. rewrite (proj2 (Reqb_t 0 0)) by reflexivity.
      destruct (fdiv 1 _); reflexivity.
    - assert (TV : forall k, (k < 2 * h + 1)%nat -> k <> h -> nth k t None = Some (A1v k)).
      { intros k K KH. rewrite TN, axis_nth, dos_nth by exact K. unfold A1v. destruct (Nat.ltb_spec h k) as [C|C].
        - replace (INR k - INR h) with (INR (k - h)) by (rewrite minus_INR by lia; ring). rewrite A1E_t_ok; [reflexivity| |exact Z].
          rewrite Rmult_comm. apply bE. lia.
        - rewrite (proj2 (Nat.eqb_neq k h)) by exact KH. replace ((INR k - INR h) * dE) with (- (INR (h - k) * dE)) by (rewrite minus_INR by lia; ring). rewrite A1E_t_ok; [|  |exact Z].
          + unfold down. do 5 f_equal. ring.
          + replace (- (INR (h - k) * dE) * b) with (- (b * (INR (h - k) * dE))) by ring. apply Ropp_neq_0_compat. apply bE. lia. }
      rewrite (TV (S h)) by lia. rewrite (TV (S (S h))) by lia. rewrite <- numbers_some. f_equal.
      assert (U1 : A1v (S h) = up 1) by (unfold A1v; rewrite (proj2 (Nat.ltb_lt _ _)) by lia; f_equal; lia).
      assert (U2 : A1v (S (S h)) = up 2) by (unfold A1v; rewrite (proj2 (Nat.ltb_lt _ _)) by lia; f_equal; lia). rewrite U1, U2.
      assert (LL : List.length (firstn h t) = h) by (rewrite firstn_length; lia).
      apply nth_ext with None None.
      + rewrite !app_length, LL, skipn_length, TL, !map_length, seq_length. cbn. lia.
      + intros k K. assert (K' : (k < 2 * h + 1)%nat) by (rewrite !app_length, LL, skipn_length, TL in K; cbn in K; lia). rewrite (nth_indep (map Some _) None (Some (A1v 0))) by (rewrite !map_length, seq_length; exact K').
        rewrite map_nth, map_nth, seq_nth by exact K'. rewrite Nat.add_0_l.
        destruct (Nat.lt_trichotomy k h) as [C|[C|C]].
        * rewrite app_nth1 by lia. rewrite <- TV by lia. apply first_any. exact C.
        * rewrite app_nth2 by lia. rewrite LL. replace (k - h)%nat with 0%nat by lia. cbn [nth app]. unfold A1v. rewrite (proj2 (Nat.ltb_ge _ _)) by lia. rewrite (proj2 (Nat.eqb_eq _ _)) by exact C. reflexivity.
        * rewrite app_nth2 by lia. rewrite LL. replace (k - h)%nat with (S (k - h - 1)) by lia. cbn [nth app]. rewrite <- TV by lia.
          rewrite skip_any. f_equal. lia.
  Qed.
  Lemma up_down i : (1 <= i)%nat -> G0 <> 0 -> up i = exp (INR i * (b * dE)) * down i.
  Proof using B D. clear - B D.
    intros I Z. unfold up, down. replace (- (INR i * dE) * b) with (- (b * (INR i * dE))) by ring. replace (INR i * dE * b) with (b * (INR i * dE)) by ring. replace (INR i * (b * dE)) with (b * (INR i * dE)) by ring.
    pose proof (bE i I) as N. pose proof (exp_ne1 _ N) as X. rewrite exp_Ropp. pose proof (exp_pos (b * (INR i * dE))) as P. set (u := exp _) in *.
    assert (INR i <> 0) by (apply not_0_INR; lia). field. repeat split; try assumption; lra.
  Qed.
  Lemma A1_balanced : G0 <> 0 -> balanced (b * dE) h (map A1v (seq 0 (2 * h + 1))).
  Proof using B D H2. clear - B D H2.
    intros Z. split; [now rewrite map_length, seq_length|]. intros i I. rewrite !nth_map_seq by lia. unfold A1v. destruct i as [|i].
    - cbn [INR]. rewrite Nat.add_0_r, Nat.sub_0_r, Rmult_0_l, exp_0. ring.
    - rewrite (proj2 (Nat.ltb_lt h (h + S i))) by lia. rewrite (proj2 (Nat.ltb_ge h (h - S i))) by lia. rewrite (proj2 (Nat.eqb_neq (h - S i) h)) by lia.
      replace (h + S i - h)%nat with (S i) by lia. replace (h - (h - S i))%nat with (S i) by lia. apply up_down; [lia|exact Z].
  Qed.
  Lemma up_plus_down i : (1 <= i)%nat -> G0 <> 0 -> up i + down i = F i / G0.
  Proof using B D. clear - B D.
    intros I Z. unfold up, down, F, Fv. replace (- (INR i * dE) * b) with (- (b * (INR i * dE))) by ring. replace (INR i * dE * b) with (b * (INR i * dE)) by ring.
    pose proof (bE i I) as N. pose proof (exp_ne1 _ N) as X. rewrite exp_Ropp. pose proof (exp_pos (b * (INR i * dE))) as P. set (u := exp _) in *.
    assert (INR i <> 0) by (apply not_0_INR; lia). field. repeat split; try assumption; lra.
  Qed.
  Lemma up_minus_down i : (1 <= i)%nat -> G0 <> 0 -> up i - down i = nth i g 0 / (INR i * dE) / G0.
  Proof using B D. clear - B D.
    intros I Z. unfold up, down. replace (- (INR i * dE) * b) with (- (b * (INR i * dE))) by ring. replace (INR i * dE * b) with (b * (INR i * dE)) by ring.
    pose proof (bE i I) as N. pose proof (exp_ne1 _ N) as X. rewrite exp_Ropp. pose proof (exp_pos (b * (INR i * dE))) as P. set (u := exp _) in *.
    assert (INR i <> 0) by (apply not_0_INR; lia). field. repeat split; try assumption; lra.
  Qed.
  Lemma A1_total : G0 <> 0 -> total (map A1v (seq 0 (2 * h + 1))) * dE = 1 + dE * (2 * (nth 1 g 0 / dE) - nth 2 g 0 / (2 * dE)) / G0.
  Proof using B D H2. clear - B D H2.
    intros Z. rewrite total_seq, sum_middle.
    rewrite (sum_ext _ (fun i => / G0 * F (S i)) h).
    2:{ intros i I. unfold A1v. rewrite (proj2 (Nat.ltb_lt h (h + S i))) by lia. rewrite (proj2 (Nat.ltb_ge h (h - S i))) by lia. rewrite (proj2 (Nat.eqb_neq (h - S i) h)) by lia.
        replace (h + S i - h)%nat with (S i) by lia. replace (h - (h - S i))%nat with (S i) by lia. rewrite up_plus_down by (try lia; exact Z). unfold Rdiv. ring. }
    rewrite sum_scale. unfold A1v. rewrite (proj2 (Nat.ltb_ge h h)), Nat.eqb_refl by lia.
    pose proof (up_plus_down 1 ltac:(lia) Z) as P1. pose proof (up_plus_down 2 ltac:(lia) Z) as P2. pose proof (up_minus_down 1 ltac:(lia) Z) as M1. pose proof (up_minus_down 2 ltac:(lia) Z) as M2.
    cbn [INR] in M1, M2. replace (1 * dE) with dE in M1 by ring. replace ((1 + 1) * dE) with (2 * dE) in M2 by ring.
    assert (U1 : 2 * up 1 = F 1 / G0 + nth 1 g 0 / dE / G0) by lra. assert (U2 : 2 * up 2 = F 2 / G0 + nth 2 g 0 / (2 * dE) / G0) by lra.
    replace (2 * (up 1 + (up 1 - up 2))) with (2 * (2 * up 1) - 2 * up 2) by ring. rewrite U1, U2.
    assert (S : dE * loop_sum (fun i => F (S i)) h = G0 - dE * (2 * F 1 - F 2)) by (unfold G0; ring).
    replace ((2 * (F 1 / G0 + nth 1 g 0 / dE / G0) - (F 2 / G0 + nth 2 g 0 / (2 * dE) / G0) + / G0 * loop_sum (fun i => F (Datatypes.S i)) h) * dE)
      with ((dE * (2 * F 1 - F 2) + dE * loop_sum (fun i => F (Datatypes.S i)) h + dE * (2 * (nth 1 g 0 / dE) - nth 2 g 0 / (2 * dE))) / G0) by (field; split; assumption).
    rewrite S. field. split; assumption.
  Qed.
  (** signs *)
  Hypotheses (BP : 0 < b) (DP : 0 < dE) (GP : Forall (fun v => 0 <= v) g).
  Lemma F_nonneg i : (1 <= i)%nat -> 0 <= F i.
  Proof using BP DP GP. clear - BP DP GP.
    intros I. unfold F, Fv. assert (IP : 0 < INR i) by (apply lt_0_INR; lia). assert (X : 0 < b * (INR i * dE)) by (repeat apply Rmult_lt_0_compat; assumption).
    pose proof (exp_increasing _ _ X) as Y. rewrite exp_0 in Y. set (u := exp _) in *. pose proof (nonneg_nth g i GP).
    apply Rmult_le_pos; [|left; apply Rinv_0_lt_compat; nra]. apply Rmult_le_pos; [|assumption]. apply Rmult_le_pos; [lra|left; apply Rinv_0_lt_compat; lra].
  Qed.
  Lemma F_pos i : (1 <= i)%nat -> 0 < nth i g 0 -> 0 < F i.
  Proof using BP DP GP. clear - BP DP GP.
    intros I P. unfold F, Fv. assert (IP : 0 < INR i) by (apply lt_0_INR; lia). assert (X : 0 < b * (INR i * dE)) by (repeat apply Rmult_lt_0_compat; assumption).
    pose proof (exp_increasing _ _ X) as Y. rewrite exp_0 in Y. set (u := exp _) in *.
    apply Rdiv_lt_0_compat; [|nra]. apply Rmult_lt_0_compat; [|assumption]. apply Rdiv_lt_0_compat; lra.
  Qed.
  Lemma G0_pos i : (1 <= i <= h)%nat -> i <> 2%nat -> 0 < nth i g 0 -> 0 < G0.
  Proof using BP DP GP H2. clear - BP DP GP H2.
    intros I N P. unfold G0. apply Rmult_lt_0_compat; [exact DP|].
    replace h with (2 + (h - 2))%nat by lia. rewrite sum_split. cbn [loop_sum]. pose proof (F_nonneg 1 ltac:(lia)) as F1.
    set (r := loop_sum (fun j => F (Datatypes.S (2 + j))) (h - 2)). assert (RP : 0 <= r) by (apply sum_nonneg; intros; apply F_nonneg; lia).
    destruct (Nat.eq_dec i 1) as [->|].
    - pose proof (F_pos 1 ltac:(lia) P). lra.
    - assert (0 < r). { unfold r. apply (sum_pos _ _ (i - 3)); [lia| |intros; apply F_nonneg; lia]. replace (Datatypes.S (2 + (i - 3))) with i by lia. apply F_pos; [lia|exact P]. } lra.
  Qed.
  Lemma up_nonneg i : (1 <= i)%nat -> 0 < G0 -> 0 <= up i.
  Proof using BP DP GP. clear - BP DP GP.
    intros I Z. unfold up. assert (IP : 0 < INR i) by (apply lt_0_INR; lia). assert (IE : 0 < INR i * dE) by nra. assert (X : - (INR i * dE) * b < 0) by nra.
    pose proof (exp_increasing _ _ X) as Y. rewrite exp_0 in Y. pose proof (nonneg_nth g i GP).
    apply Rmult_le_pos; [apply Rmult_le_pos; [assumption|left; apply Rinv_0_lt_compat; nra]|]. left. apply Rdiv_lt_0_compat; lra.
  Qed.
  Lemma down_nonneg i : (1 <= i)%nat -> 0 < G0 -> 0 <= down i.
  Proof using B D BP DP GP. clear - B D BP DP GP.
    intros I Z. pose proof (up_down i I ltac:(lra)) as U. pose proof (up_nonneg i I Z). pose proof (exp_pos (INR i * (b * dE))). 
    apply Rmult_le_reg_l with (exp (INR i * (b * dE))); lra.
  Qed.
  Lemma A1_zero_pos : 0 < G0 -> 0 < nth 1 g 0 -> nth 2 g 0 <= 4 * nth 1 g 0 -> 0 < A1v h.
  Proof using BP DP B D. clear - BP DP B D.
    intros Z P1 P2. unfold A1v. rewrite (proj2 (Nat.ltb_ge h h)), Nat.eqb_refl by lia. unfold up. cbn [INR].
    set (y := exp (- (1 * dE) * b)). assert (YP : 0 < y) by apply exp_pos.
    assert (Y0 : - (1 * dE) * b < 0) by nra. pose proof (exp_increasing _ _ Y0) as Y1. rewrite exp_0 in Y1. fold y in Y1.
    replace (exp (- ((1 + 1) * dE) * b)) with (y * y) by (unfold y; rewrite <- exp_plus; f_equal; ring).
    set (a := nth 1 g 0) in *. set (c := nth 2 g 0) in *.
    assert (V : a / (1 * dE * G0) * (1 / (1 - y)) + (a / (1 * dE * G0) * (1 / (1 - y)) - c / ((1 + 1) * dE * G0) * (1 / (1 - y * y))) = (4 * a * (1 + y) - c) / (2 * dE * G0 * ((1 - y) * (1 + y)))).
    { assert (1 - y * y <> 0) by (apply Rgt_not_eq; nra). assert (1 + y <> 0) by lra. assert (1 - y <> 0) by lra. assert (G0 <> 0) by lra. field. repeat split; assumption. }
    rewrite V. apply Rmult_lt_0_compat; [lra|]. apply Rdiv_lt_0_compat; [nra|]. apply Rmult_lt_0_compat; nra.
  Qed.
  Lemma A1_nonneg : 0 < G0 -> 0 <= A1v h -> Forall (fun v => 0 <= v) (map A1v (seq 0 (2 * h + 1))).
  Proof using B D BP DP GP. clear - B D BP DP GP.
    intros Z P. apply Forall_forall. intros v V. apply in_map_iff in V. destruct V as (k & <- & K). apply in_seq in K. unfold A1v in *. rewrite (proj2 (Nat.ltb_ge h h)), Nat.eqb_refl in P by lia.
    destruct (Nat.ltb_spec h k); [apply up_nonneg; [lia|exact Z]|]. destruct (Nat.eqb_spec k h); [exact P|]. apply down_nonneg; [lia|exact Z].
  Qed.
End displacement.
