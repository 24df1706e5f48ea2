(* C81: interpolation, integration, search for zeros and probability tables of
   the SNS source. *)
From Coq Require Import Reals List ZArith Lia Lra Bool.
From Coquelicot Require Import Coquelicot.
From Verif Require Import Base RotModel ShapeModel ChanModel ChanProofs SnsModel SnsSpec SnsProofs SnsProofs2 SnsProofs3.
Import ListNotations.
Local Open Scope R_scope.

(* Used in the examples: four points. *)
Definition four : list R := [1; 2; 3; 4].
Lemma four_rises : rises four.
Proof. intros [|[|[|i]]] H; cbn in H; try lia; unfold at_; cbn; lra. Qed.
Lemma four_follows : follows (fun x => x) four four.
Proof.
  split.
  - intros k _. exists 0, 1. intros x _. ring.
  - intros k _. reflexivity.
Qed.

(* linfuncint interpolates linearly between any two neighbours and gives the
   entries themselves; before the first x it reads outside the arrays. *)
Theorem C81_linear : forall xs ys len, rises xs -> List.length ys = List.length xs ->
  (forall k, (k < List.length xs)%nat -> (Z.of_nat k <= len)%Z -> linfuncint (at_ xs k) len xs ys = Ok (at_ ys k))
  /\ (forall k x, (S k < List.length xs)%nat -> (Z.of_nat (S k) <= len)%Z -> at_ xs k <= x <= at_ xs (S k) ->
      exists y, linfuncint x len xs ys = Ok y /\ chord_at (at_ xs k) (at_ ys k) (at_ xs (S k)) (at_ ys (S k)) x y)
  /\ (forall x, (0 < List.length xs)%nat -> x < at_ xs 0 -> linfuncint x len xs ys = Err UndefinedBehaviour).
Proof.
  intros xs ys len M Y. split; [|split].
  - intros k B L. apply lin_node; auto.
  - intros k x B L X. apply lin_between; auto.
  - intros x B X. apply lin_below; auto.
Qed.
Print Assumptions C81_linear.
Example linear_case : rises four /\ List.length four = List.length four /\ (2 < List.length four)%nat
  /\ at_ four 1 <= 5 / 2 <= at_ four 2.
Proof. split; [exact four_rises|]. split; [reflexivity|]. split; [cbn; lia|]. unfold at_; cbn; lra. Qed.

(* quadfuncint gives the entries from the second on and, between two entries, the
   parabola through them and the one before; this parabola is unique. *)
Theorem C81_quadratic : forall xs ys len, rises xs -> List.length ys = List.length xs ->
  (forall k, (1 <= k < List.length xs)%nat -> (Z.of_nat k <= len)%Z -> quadfuncint (at_ xs k) len xs ys = Ok (at_ ys k))
  /\ (forall k x, (S (S k) < List.length xs)%nat -> (Z.of_nat (S (S k)) <= len)%Z -> at_ xs (S k) <= x <= at_ xs (S (S k)) ->
      exists y, quadfuncint x len xs ys = Ok y
        /\ parabola_at (at_ xs k) (at_ ys k) (at_ xs (S k)) (at_ ys (S k)) (at_ xs (S (S k))) (at_ ys (S (S k))) x y
        /\ forall y', parabola_at (at_ xs k) (at_ ys k) (at_ xs (S k)) (at_ ys (S k)) (at_ xs (S (S k))) (at_ ys (S (S k))) x y' -> y' = y).
Proof.
  intros xs ys len M Y. split.
  - intros k B L. apply quad_node; auto.
  - intros k x B L X. destruct (quad_between xs ys len k x M Y B L X) as (y & E & P). exists y. split; [exact E|]. split; [exact P|].
    intros y' P'. apply (parabola_unique _ _ _ _ _ _ _ _ _ (M k ltac:(lia)) (M (S k) B) P' P).
Qed.
Print Assumptions C81_quadratic.
Example quadratic_case : rises four /\ (2 < List.length four)%nat /\ at_ four 1 <= 5 / 2 <= at_ four 2.
Proof. split; [exact four_rises|]. split; [cbn; lia|]. unfold at_; cbn; lra. Qed.

(* Between the first two entries there is no value: it reads before the array. *)
Theorem C81_quadratic_first_refuted : forall xs ys len x, (2 <= List.length xs)%nat -> x < at_ xs 1 ->
  quadfuncint x len xs ys = Err UndefinedBehaviour.
Proof. exact quad_below. Qed.
Print Assumptions C81_quadratic_first_refuted.
Example quadratic_first_case : (2 <= List.length four)%nat /\ at_ four 0 < 3 / 2 < at_ four 1.
Proof. split; [cbn; lia|]. unfold at_; cbn; lra. Qed.

(* Probabilities between the entries of a table that does not decrease and ends
   with 1 can be above 1 and decrease. *)
Theorem C81_quadratic_range_refuted : exists xs Ps x y, rises xs /\ List.length Ps = List.length xs
  /\ (forall i, (S i < List.length xs)%nat -> at_ Ps i <= at_ Ps (S i) <= 1)
  /\ at_ xs 1 < x < at_ xs 2 /\ quadfuncint x 2 xs Ps = Ok y /\ 1 < y.
Proof.
  exists [1; 2; 3], [0; 1; 1], (5 / 2), (9 / 8). split; [intros [|[|i]] H; cbn in H; try lia; unfold at_; cbn; lra|].
  split; [reflexivity|]. split; [intros [|[|i]] H; cbn in H; try lia; unfold at_; cbn; lra|].
  split; [unfold at_; cbn; lra|]. split; [|lra].
  assert (M : rises [1; 2; 3]) by (intros [|[|i]] H; cbn in H; try lia; unfold at_; cbn; lra).
  destruct (quad_between [1; 2; 3] [0; 1; 1] 2 0 (5 / 2) M eq_refl) as (y & E & P); [cbn; lia|lia|unfold at_; cbn; lra|].
  rewrite E. f_equal. apply (parabola_unique 1 0 2 1 3 1 (5 / 2)); [lra|lra|exact P|].
  exists (-2), (5 / 2), (-1 / 2). repeat split; lra.
Qed.
Print Assumptions C81_quadratic_range_refuted.

(* integ1 returns a trapezoid rule with 2, 4, 8, ... panels that differs from the
   one with half as many panels by at most the relative error asked for. *)
Theorem C81_integral : forall func g a b err v, a <= b -> computes func g a b -> integ1 func a b err = Ok v ->
  exists m, v = trapezoid g a b (2 ^ S m) /\ Rabs (v - trapezoid g a b (2 ^ m)) <= err * Rabs v.
Proof. exact integ1_spec. Qed.
Print Assumptions C81_integral.
(* For a line it is the integral. *)
Theorem C81_integral_line : forall func (g : R -> R) a b err, a <= b -> 0 <= err -> computes func g a b -> affine_on g a b ->
  exists v, integ1 func a b err = Ok v /\ is_RInt g a b v.
Proof.
  intros func g a b err L E C A. eexists. split; [apply (integ1_affine func g a b err L E C A) | apply affine_int; assumption].
Qed.
Print Assumptions C81_integral_line.
Example integral_case : computes (fun x => Ok (3 * x)) (fun x => 3 * x) 1 2 /\ affine_on (fun x => 3 * x) 1 2
  /\ exists v, integ1 (fun x => Ok (3 * x)) 1 2 (1 / 1000) = Ok v.
Proof.
  assert (A : affine_on (fun x => 3 * x) 1 2) by (exists 0, 3; intros; ring).
  assert (C : computes (fun x => Ok (3 * x)) (fun x => 3 * x) 1 2) by (intros x _; reflexivity).
  split; [exact C|]. split; [exact A|]. eexists. apply (integ1_affine _ (fun x => 3 * x)); auto; lra.
Qed.
(* The stopping rule can be met too early: a function that is 0 at both ends and in
   the middle has integral 0. *)
Theorem C81_integral_refuted : exists (g : R -> R) v, (forall x, 0 <= g x) /\ is_RInt g 0 1 v /\ 0 < v
  /\ integ1 (fun x => Ok (g x)) 0 1 (1 / 1000) = Ok 0.
Proof.
  exists (fun x => x ^ 2 * (x - 1 / 2) ^ 2 * (x - 1) ^ 2), (1 / 840). split; [|split; [|split; [lra|]]].
  - intro x. assert (H : forall u, 0 <= u ^ 2) by (intro u; cbn; rewrite Rmult_1_r; apply Rle_0_sqr).
    apply Rmult_le_pos; [apply Rmult_le_pos|]; apply H.
  - set (F := fun x : R => x ^ 7 / 7 - x ^ 6 / 2 + 13 / 20 * x ^ 5 - 3 / 8 * x ^ 4 + x ^ 3 / 12).
    replace (1 / 840) with (minus (F 1) (F 0)) by (unfold F, minus, plus, opp; cbn; field).
    apply (is_RInt_derive F).
    + intros x _. unfold F. auto_derive; [exact I|]. field.
    + intros x _. apply (ex_derive_continuous (V := R_NormedModule) (fun x : R => x ^ 2 * (x - 1 / 2) ^ 2 * (x - 1) ^ 2)). auto_derive. exact I.
  - set (g := fun x : R => x ^ 2 * (x - 1 / 2) ^ 2 * (x - 1) ^ 2).
    change (integ1 (fun x => Ok (g x)) 0 1 (1 / 1000) = Ok 0).
    assert (C : computes (fun x => Ok (g x)) g 0 1) by (intros x _; reflexivity).
    assert (T1 : trapezoid g 0 1 1 = 0) by (unfold trapezoid, g; cbn; field).
    assert (T2 : trapezoid g 0 1 2 = 0) by (unfold trapezoid, g; cbn; field).
    unfold integ1. rewrite (integtrap_one _ g 0 1 0 Rle_0_1 C). cbn [bind].
    change 2%Z with (Z.of_nat 0 + 2)%Z. change 1%nat with (2 ^ 0)%nat.
    rewrite (integtrap_next _ g 0 1 0 Rle_0_1 C) by lia. cbn [bind].
    change (2 ^ 1)%nat with 2%nat. change (2 ^ 0)%nat with 1%nat. rewrite T1, T2. cbn [refine].
    rewrite (proj2 (Rltb_f _ _)); [reflexivity|]. replace (0 - 0) with 0 by ring. rewrite Rabs_R0. lra.
Qed.
Print Assumptions C81_integral_refuted.

(* Pcalc: the table of an intensity given by points is its cumulative integral from
   llim on, normalised at the last x not above hlim. *)
Theorem C81_energy : forall (g : R -> R) xs ys p len veclen llim hlim s e,
  rises xs -> List.length ys = List.length xs -> List.length p = List.length xs -> follows g xs ys ->
  (Z.of_nat (List.length xs) - 1 <= len)%Z -> (veclen <= List.length xs)%nat ->
  (0 < s)%nat -> at_ xs (s - 1) <= llim < at_ xs s -> (s < e < List.length xs)%nat ->
  at_ xs (e - 1) <= hlim \/ e = S s -> hlim < at_ xs e ->
  exists P, Pcalc (xonly len xs ys) llim hlim xs p (Z.of_nat veclen) = Ok (P, Z.of_nat s, Z.of_nat e)
    /\ cumulative g llim xs P s e veclen.
Proof.
  intros g xs ys p len veclen llim hlim s e M Y L G B V S0 LL E H1 H2.
  apply Pcalc_ok; auto; [|apply G]. apply xonly_computes; auto. lia.
Qed.
Print Assumptions C81_energy.
Example energy_case : rises four /\ follows (fun x => x) four four /\ (0 < 1)%nat /\ at_ four (1 - 1) <= 3 / 2 < at_ four 1
  /\ (1 < 3 < List.length four)%nat /\ at_ four (3 - 1) <= 7 / 2 < at_ four 3.
Proof.
  split; [exact four_rises|]. split; [exact four_follows|]. split; [lia|]. split; [unfold at_; cbn; lra|].
  split; [cbn; lia|]. unfold at_; cbn; lra.
Qed.
(* Such a table rises from 0 to 1. *)
Theorem C81_energy_range : forall (g : R -> R) from xs P s e veclen, rises xs -> (s < e <= List.length xs)%nat ->
  from <= at_ xs s -> (forall x, 0 <= g x) -> cumulative g from xs P s e veclen ->
  (exists v, is_RInt g from (at_ xs (e - 1)) v /\ 0 < v) ->
  (forall i j, (i <= j)%nat -> (j < e)%nat -> 0 <= at_ P i <= at_ P j) /\ at_ P (e - 1) = 1.
Proof. exact cumulative_range. Qed.
Print Assumptions C81_energy_range.
Example energy_range_case : (forall x : R, 0 <= (fun _ => 1) x) /\ cumulative (fun _ => 1) 1 four [0; 1 / 2; 1; 1] 1 3 4
  /\ (exists v, is_RInt (fun _ => 1) 1 (at_ four (3 - 1)) v /\ 0 < v).
Proof.
  split; [intro x; lra|].
  assert (C : forall b, is_RInt (fun _ => 1) 1 b (b - 1)).
  { intro b. replace (b - 1) with (scal (b - 1) 1) by (unfold scal; cbn; unfold mult; cbn; ring). apply (is_RInt_const 1 b 1). }
  split.
  - split; [reflexivity|]. split; [intros [|j] H; [reflexivity|lia]|]. split; [intros [|[|[|[|j]]]] H; try lia; reflexivity|].
    exists (fun j => at_ four j - 1). split; [intros j _; apply C|]. split.
    + intros _ [|[|[|j]]] H; try lia; unfold at_; cbn; field.
    + unfold at_; cbn. intro. lra.
  - exists 2. split; [|lra]. replace 2 with (at_ four (3 - 1) - 1) by (unfold at_; cbn; ring). apply C.
Qed.
(* Limits below the first x end the program; limits at or above the last x make
   it run off the arrays. *)
Theorem C81_energy_limits : forall (g : R -> R) xs ys p len veclen llim hlim,
  rises xs -> List.length ys = List.length xs -> List.length p = List.length xs -> follows g xs ys ->
  (Z.of_nat (List.length xs) - 1 <= len)%Z -> (2 <= List.length xs)%nat ->
  (llim < at_ xs 0 -> Pcalc (xonly len xs ys) llim hlim xs p veclen = Err Terminated)
  /\ (at_ xs 0 <= llim -> final xs <= hlim -> Pcalc (xonly len xs ys) llim hlim xs p veclen = Err UndefinedBehaviour).
Proof.
  intros g xs ys p len veclen llim hlim M Y L G B N. split.
  - intro H. apply Pcalc_low; [lia|exact H].
  - intros H1 H2. apply (Pcalc_high _ g); auto; [|apply G|lia]. apply xonly_computes; auto.
Qed.
Print Assumptions C81_energy_limits.
Example energy_limits_case : (2 <= List.length four)%nat /\ 1 / 2 < at_ four 0 /\ final four <= 5.
Proof. split; [cbn; lia|]. unfold final, at_; cbn; lra. Qed.

(* Where Pcalc or tPcalc gives a table, the array for it is long enough: all that
   was written lies inside of it, up to veclen. *)
Theorem C81_table_inside : forall func llim hlim xs p veclen P s e,
  Pcalc func llim hlim xs p veclen = Ok (P, s, e) \/ tPcalc func llim hlim xs p veclen = Ok (P, s, e) ->
  List.length P = List.length p /\ (1 <= e <= Z.of_nat (List.length p))%Z /\ (veclen <= Z.of_nat (List.length p))%Z.
Proof. exact tables_inside. Qed.
Print Assumptions C81_table_inside.
Example table_inside_case : forall P s e, Pcalc (xonly 3 four four) (3 / 2) (7 / 2) four [0; 0; 0] 4 <> Ok (P, s, e).
Proof.
  intros P s e H. destruct (C81_table_inside (xonly 3 four four) (3 / 2) (7 / 2) four [0; 0; 0] 4 P s e (or_introl H)) as (_ & _ & B). cbn in B. lia.
Qed.
(* tPcalc: the same, but from the last x not above llim on instead of from llim;
   a limit below the first x reads outside. *)
Theorem C81_time : forall (g : R -> R) xs ys p len veclen llim hlim,
  rises xs -> List.length ys = List.length xs -> List.length p = List.length xs -> follows g xs ys ->
  (Z.of_nat (List.length xs) - 1 <= len)%Z -> (veclen <= List.length xs)%nat ->
  (forall s e, (0 < s)%nat -> at_ xs (s - 1) <= llim < at_ xs s -> (s < e < List.length xs)%nat ->
    at_ xs (e - 1) <= hlim < at_ xs e ->
    exists P, tPcalc (xonly len xs ys) llim hlim xs p (Z.of_nat veclen) = Ok (P, Z.of_nat s, Z.of_nat e)
      /\ cumulative g (at_ xs (s - 1)) xs P s e veclen)
  /\ ((0 < List.length xs)%nat -> llim < at_ xs 0 ->
    tPcalc (xonly len xs ys) llim hlim xs p (Z.of_nat veclen) = Err UndefinedBehaviour).
Proof.
  intros g xs ys p len veclen llim hlim M Y L G B V. split.
  - intros s e S0 LL E H. apply tPcalc_ok; auto; [|apply G]. apply xonly_computes; auto. lia.
  - intros N H. apply tPcalc_low; assumption.
Qed.
Print Assumptions C81_time.
(* So a limit between two times has no effect: what comes before is counted. *)
Theorem C81_time_limit_refuted : exists xs ys p llim hlim P s e, rises xs /\ follows (fun _ => 1) xs ys
  /\ tPcalc (xonly 3 xs ys) llim hlim xs p 4 = Ok (P, Z.of_nat s, Z.of_nat e)
  /\ at_ xs 0 < llim < at_ xs s /\ ~ cumulative (fun _ => 1) llim xs P s e 4.
Proof.
  exists four, [1; 1; 1; 1], four, (3 / 2), (7 / 2).
  assert (G : follows (fun _ => 1) four [1; 1; 1; 1]).
  { split; [intros k _; exists 1, 0; intros x _; ring|]. intros [|[|[|[|k]]]] H; cbn in H; try lia; reflexivity. }
  destruct (proj1 (C81_time (fun _ => 1) four [1; 1; 1; 1] four 3 4 (3 / 2) (7 / 2) four_rises eq_refl eq_refl G
    ltac:(cbn; lia) ltac:(cbn; lia)) 1%nat 3%nat) as (P & E & C); [lia|unfold at_; cbn; lra|cbn; lia|unfold at_; cbn; lra|].
  exists P, 1%nat, 3%nat. split; [exact four_rises|]. split; [exact G|]. split; [exact E|]. split; [unfold at_; cbn; lra|].
  intro D.
  assert (K : forall a b, is_RInt (fun _ : R => 1) a b (b - a)).
  { intros a b. replace (b - a) with (scal (b - a) 1) by (unfold scal; cbn; unfold mult; cbn; ring). apply (is_RInt_const a b 1). }
  assert (U : forall a b v, is_RInt (fun _ : R => 1) a b v -> v = b - a).
  { intros a b v H. rewrite <- (is_RInt_unique _ _ _ _ H), <- (is_RInt_unique _ _ _ _ (K a b)). reflexivity. }
  destruct C as (_ & _ & _ & I & I1 & I2 & _). destruct D as (_ & _ & _ & J & J1 & J2 & _).
  cbn [Nat.sub] in *.
  assert (A1 := U _ _ _ (I1 1%nat ltac:(lia))). assert (A2 := U _ _ _ (I1 2%nat ltac:(lia))).
  assert (B1 := U _ _ _ (J1 1%nat ltac:(lia))). assert (B2 := U _ _ _ (J1 2%nat ltac:(lia))).
  unfold at_ in A1, A2, B1, B2. cbn in A1, A2, B1, B2.
  assert (X := I2 ltac:(rewrite A2; lra) 1%nat ltac:(lia)). assert (Y := J2 ltac:(rewrite B2; lra) 1%nat ltac:(lia)).
  rewrite X, A1, A2, B1, B2 in Y. lra.
Qed.
Print Assumptions C81_time_limit_refuted.

(* zero_find ends with a value within the tolerance for a continuous function that is
   negative at xmin and positive from some point on. *)
Theorem C81_zero : forall func y g xmin xmax tol X,
  0 < xmin -> xmin < xmax -> 0 < y -> 0 < tol ->
  (forall x, xmin <= x -> func x y = Ok (g x)) -> (forall x, xmin <= x -> continuous g x) ->
  g xmin < 0 -> (forall x, X <= x -> 0 < g x) ->
  exists r N, (forall fuel, (N <= fuel)%nat -> zero_find func y xmin xmax tol fuel = Ok r)
    /\ xmin <= r /\ Rabs (g r) <= tol.
Proof. exact zero_find_ends. Qed.
Print Assumptions C81_zero.
Example zero_case : forall x, 1 <= x -> (fun u v => Ok (u - 2 - v)) x 1 = Ok ((fun u => u - 3) x)
  /\ (fun u => u - 3) 1 < 0 /\ (forall u, 4 <= u -> 0 < (fun u => u - 3) u).
Proof. intros x _. split; [f_equal; ring|]. split; [lra|]. intros u H. lra. Qed.

(* It never ends if the function is not negative from xmin on, nor for y = 0. *)
Theorem C81_zero_refuted : forall func y g xmin xmax tol,
  0 < xmin -> xmin <= xmax -> 0 <= y -> (forall x, xmin <= x -> func x y = Ok (g x)) ->
  ((forall x, xmin <= x -> 0 <= g x) \/ y = 0) ->
  forall fuel, zero_find func y xmin xmax tol fuel = Err OutOfFuel.
Proof.
  intros func y g xmin xmax tol P0 P1 Y F [H|H] fuel.
  - apply (zero_find_never func y g); auto.
  - subst y. apply (zero_find_zero func (g xmin)); auto; [lra|]. apply F. lra.
Qed.
Print Assumptions C81_zero_refuted.
(* This happens for the energies of the first bin of a table of probabilities: all
   probabilities below that of the first entry behind the lower limit. *)
Theorem C81_first_bin_refuted : exists xs Ps s randp, rises xs /\ at_ Ps (s - 1) = 0 /\ at_ Ps 3 = 1
  /\ at_ Ps (s - 1) < randp < at_ Ps s
  /\ forall tol fuel, zero_find (pfunc 3 xs Ps) randp (at_ xs s) (at_ xs 3) tol fuel = Err OutOfFuel.
Proof.
  exists four, [0; 0; 1 / 2; 1], 2%nat, (1 / 4). split; [exact four_rises|]. split; [reflexivity|]. split; [reflexivity|].
  split; [unfold at_; cbn; lra|]. intros tol fuel.
  apply (C81_zero_refuted (pfunc 3 four [0; 0; 1 / 2; 1]) (1 / 4) (fun x => x / 2 - 1 - 1 / 4)).
  - unfold at_; cbn; lra.
  - unfold at_; cbn; lra.
  - lra.
  - intros x H. unfold at_ in H; cbn in H. unfold pfunc.
    assert (Q : quadfuncint x 3 four [0; 0; 1 / 2; 1] = Ok (x / 2 - 1)).
    { destruct (Req_dec x 3) as [E|E].
      { subst x. change 3 with (at_ four 2) at 1. rewrite (quad_node four [0; 0; 1 / 2; 1] 3 2 four_rises); [|reflexivity|cbn; lia|lia].
        f_equal. unfold at_; cbn. field. }
      assert (SC : scan four x 3 (S (List.length four)) 1 = Ok 3%Z).
      { change 1%Z with (Z.of_nat 1). change 3%Z with (Z.of_nat 3).
        apply (scan_len four x 3 2 1); [lia|cbn; lia| |cbn; lia].
        intros [|[|[|j]]] J; try lia; unfold at_; cbn; lra. }
      unfold quadfuncint. rewrite SC. cbn [bind].
      change (3 - 2)%Z with 1%Z. change (3 - 1)%Z with 2%Z.
      change (rd four 3) with (@Ok R 4). change (rd four 1) with (@Ok R 2). change (rd four 2) with (@Ok R 3).
      change (rd [0; 0; 1 / 2; 1] 1) with (@Ok R 0). change (rd [0; 0; 1 / 2; 1] 2) with (@Ok R (1 / 2)).
      change (rd [0; 0; 1 / 2; 1] 3) with (@Ok R 1). cbn [bind].
      destruct (Req_dec 4 x) as [E4|E4].
      - rewrite Reqb_t' by exact E4. f_equal. rewrite <- E4. field.
      - rewrite Reqb_f' by exact E4. cbn [bind]. unfold quadint. rewrite !Reqb_f' by lra. cbn [orb]. f_equal. field. }
    rewrite Q. reflexivity.
  - left. intros x H. unfold at_ in H; cbn in H. lra.
Qed.
Print Assumptions C81_first_bin_refuted.
