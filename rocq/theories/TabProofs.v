From Coq Require Import Reals List ZArith Lia Lra Bool Psatz.
From Verif Require Import Base RotModel ShapeModel ShapeProofs ShapeProofs2 ChanModel ChanProofs TabModel TabSpec.
Import ListNotations.
Local Open Scope R_scope.

Lemma read_in d a : (0 <= a < Z.of_nat (List.length d))%Z -> c_read d a = Ok (nth (Z.to_nat a) d 0).
Proof.
  intros H. unfold c_read. replace (a <? 0)%Z with false by (symmetry; apply Z.ltb_ge; lia).
  destruct (nth_error d (Z.to_nat a)) eqn:E.
  - now rewrite (nth_error_nth d _ 0 E).
  - apply nth_error_None in E. lia.
Qed.

Ltac zb := repeat match goal with
  | |- context [(?a <? ?b)%Z] => destruct (Z.ltb_spec a b)
  | |- context [(?a <=? ?b)%Z] => destruct (Z.leb_spec a b)
  | |- context [(?a =? ?b)%Z] => destruct (Z.eqb_spec a b)
  end; cbn [orb andb negb].

Lemma pos_bound t i j : (0 <= i < rows t)%Z -> (0 <= j < columns t)%Z ->
  (0 <= i * columns t + j < rows t * columns t)%Z.
Proof. nia. Qed.

Lemma index_in t i j : shaped t -> in_range t i j -> Table_Index t i j = Ok (el t i j).
Proof.
  intros (d & D & HR & HC & HL) (Hi & Hj). pose proof (pos_bound t i j Hi Hj) as B.
  assert (V : (columns t = 1 \/ rows t = 1)%Z -> (i + j = i * columns t + j)%Z) by (intros [E|E]; nia).
  unfold Table_Index, el. rewrite D.
  rewrite (proj2 (Z.ltb_ge i 0)) by lia. rewrite (proj2 (Z.ltb_ge j 0)) by lia.
  rewrite (proj2 (Z.leb_gt (rows t) i)) by lia. rewrite (proj2 (Z.leb_gt (columns t) j)) by lia.
  replace (if _ || _ then (i + j)%Z else _) with (i * columns t + j)%Z.
  2:{ destruct (Z.eqb_spec (columns t) 1); cbn [orb]; [symmetry; apply V; now left|].
      destruct (Z.eqb_spec (rows t) 1); [symmetry; apply V; now right|reflexivity]. }
  rewrite (proj2 (Z.leb_gt (rows t * columns t) _)) by lia.
  rewrite (proj2 (Z.ltb_ge (i * columns t + j) 0)) by lia.
  apply read_in. lia.
Qed.

Lemma clamp_range i n : (0 < n)%Z -> (0 <= clampZ i n < n)%Z.
Proof. unfold clampZ. lia. Qed.
Lemma clamp_id i n : (0 <= i < n)%Z -> clampZ i n = i.
Proof. unfold clampZ. lia. Qed.

Lemma index_clamp t i j : shaped t -> (2 <= rows t)%Z -> (2 <= columns t)%Z ->
  Table_Index t i j = Ok (el t (clampZ i (rows t)) (clampZ j (columns t))).
Proof.
  intros S HR HC. rewrite <- index_in.
  2: assumption.
  2: split; apply clamp_range; lia.
  unfold Table_Index.
  rewrite (proj2 (Z.eqb_neq (columns t) 1)) by lia. rewrite (proj2 (Z.eqb_neq (rows t) 1)) by lia. cbn [orb].
  assert (C : forall k n, (2 <= n)%Z ->
    (if (n <=? (if (k <? 0)%Z then 0%Z else k))%Z then (n - 1)%Z else if (k <? 0)%Z then 0%Z else k)
    = (if (n <=? (if (clampZ k n <? 0)%Z then 0%Z else clampZ k n))%Z then (n - 1)%Z
       else if (clampZ k n <? 0)%Z then 0%Z else clampZ k n)).
  { intros k n Hn. pose proof (clamp_range k n ltac:(lia)) as Q.
    rewrite (proj2 (Z.ltb_ge (clampZ k n) 0)) by lia. rewrite (proj2 (Z.leb_gt n (clampZ k n))) by lia.
    unfold clampZ. zb; lia. }
  now rewrite (C i _ HR), (C j _ HC).
Qed.

(* Rows are clamped for a table of one column too, as long as the column is 0. *)
Lemma index_rows t i j : shaped t -> (2 <= rows t)%Z -> (0 <= j < columns t)%Z ->
  Table_Index t i j = Ok (el t (clampZ i (rows t)) j).
Proof.
  intros S HR Hj. destruct (Z.eq_dec (columns t) 1) as [E|E].
  - assert (j = 0)%Z by lia. subst j. rewrite <- index_in; [|assumption|split; [apply clamp_range|]; lia].
    unfold Table_Index. rewrite E. cbn [orb Z.eqb Pos.eqb Z.ltb Z.compare].
    pose proof (clamp_range i (rows t) ltac:(lia)) as Q.
    rewrite (proj2 (Z.ltb_ge (clampZ i (rows t)) 0)) by lia.
    unfold clampZ in *. zb; try lia; try reflexivity;
    destruct (data t); try reflexivity; f_equal; lia.
  - rewrite (index_clamp t i j S HR) by lia. now rewrite (clamp_id j) by lia.
Qed.

(* ---- Table_SetElement ---- *)
Lemma put_length d n v : List.length (put d n v) = List.length d.
Proof. revert n. induction d; intros [|n]; cbn; auto. Qed.
Lemma put_same d n v : (n < List.length d)%nat -> nth n (put d n v) 0 = v.
Proof. revert n. induction d; intros [|n]; cbn; intros; try lia; auto. apply IHd. lia. Qed.
Lemma put_other d n k v : n <> k -> nth k (put d n v) 0 = nth k d 0.
Proof. revert n k. induction d; intros [|n] [|k] H; cbn; auto; try congruence. Qed.

Lemma set_ok t i j v : shaped t ->
  exists t', Table_SetElement t i j v = Ok (1%Z, t') /\ shaped t'
    /\ (forall k l, in_range t k l ->
        el t' k l = if ((k =? clampZ i (rows t)) && (l =? clampZ j (columns t)))%Z then v else el t k l).
Proof.
  intros (d & D & HR & HC & HL).
  pose proof (clamp_range i (rows t) HR) as Qi. pose proof (clamp_range j (columns t) HC) as Qj.
  pose proof (pos_bound t _ _ Qi Qj) as B.
  unfold Table_SetElement. rewrite D.
  replace (if (rows t <=? _)%Z then _ else _) with (clampZ i (rows t)) by (unfold clampZ; zb; lia).
  replace (if (columns t <=? _)%Z then _ else _) with (clampZ j (columns t)) by (unfold clampZ; zb; lia).
  rewrite (proj2 (Z.ltb_ge (clampZ i (rows t) * columns t + clampZ j (columns t)) 0)) by lia.
  rewrite (proj2 (Z.leb_gt (Z.of_nat (List.length d)) _)) by lia. cbn [orb].
  eexists. split; [reflexivity|]. split.
  - eexists. cbn. split; [reflexivity|]. rewrite put_length. auto.
  - intros k l [Hk Hl]. unfold el. cbn. rewrite D.
    pose proof (pos_bound t _ _ Hk Hl) as B2.
    destruct (Z.eqb_spec k (clampZ i (rows t))) as [E1|E1]; cbn [andb];
      [destruct (Z.eqb_spec l (clampZ j (columns t))) as [E2|E2]|].
    + rewrite E1, E2. apply put_same. lia.
    + apply put_other. rewrite E1. lia.
    + apply put_other. intros E. apply E1.
      assert (k * columns t + l = clampZ i (rows t) * columns t + clampZ j (columns t))%Z by lia. nia.
Qed.

(* ---- Table_Interp1d ---- *)
Lemma interp_chord x x1 y1 x2 y2 : x1 <> x2 -> on_chord x1 y1 x2 y2 x (Table_Interp1d x x1 y1 x2 y2).
Proof.
  intros H. unfold Table_Interp1d, on_chord. destruct (Reqb x2 x1) eqn:E; [apply Reqb_true in E; congruence|].
  destruct (Reqb y1 y2) eqn:F.
  - apply Reqb_true in F. subst. ring.
  - field. lra.
Qed.

Lemma chord_fun x1 y1 x2 y2 x y y' : x1 <> x2 -> on_chord x1 y1 x2 y2 x y -> on_chord x1 y1 x2 y2 x y' -> y = y'.
Proof. unfold on_chord. intros H A B. apply (Rmult_eq_reg_r (x2 - x1)); [lra|]. intros E. apply H. lra. Qed.

(* ---- Table_Value2d ---- *)
Lemma floor_between (k : Z) (u : R) : 0 <= u < 1 -> floorZ (IZR k + u) = k.
Proof.
  intros H. unfold floorZ. pose proof (base_Int_part (IZR k + u)) as [A B]. set (n := Int_part (IZR k + u)) in *.
  assert (P : IZR n < IZR (k + 1)) by (rewrite plus_IZR; lra).
  assert (Q : IZR (k - 1) < IZR n) by (rewrite minus_IZR; lra). apply lt_IZR in P. apply lt_IZR in Q. lia.
Qed.

Lemma floor_spec x : IZR (floorZ x) <= x < IZR (floorZ x) + 1.
Proof. unfold floorZ. pose proof (base_Int_part x). lra. Qed.

Lemma izr_succ k : IZR (k + 1) = IZR k + 1.
Proof. now rewrite plus_IZR. Qed.

Lemma eq_f a b : a <> b -> Reqb a b = false.
Proof. intros H. destruct (Reqb a b) eqn:E; auto. apply Reqb_true in E. congruence. Qed.
Lemma eq_t a : Reqb a a = true.
Proof. now apply Reqb_true. Qed.

Lemma interp2_cell x y i j z11 z12 z21 z22 :
  Table_Interp2d (IZR i + x) (IZR j + y) (IZR i) (IZR j) (IZR (i + 1)) (IZR (j + 1)) z11 z12 z21 z22
  = (1 - x) * ((1 - y) * z11 + y * z12) + x * ((1 - y) * z21 + y * z22).
Proof.
  unfold Table_Interp2d. rewrite !izr_succ, eq_f, eq_f by lra. cbv zeta.
  replace ((IZR i + x - IZR i) / (IZR i + 1 - IZR i)) with x by (field; lra).
  replace ((IZR j + y - IZR j) / (IZR j + 1 - IZR j)) with y by (field; lra). ring.
Qed.

(* The entry is read with clamped indices. *)
Definition elc (t : table) (i j : Z) : R := el t (clampZ i (rows t)) (clampZ j (columns t)).

(* All cases of Table_Value2d at once: X and Y in the cell with lower corner
   floor X, floor Y, the indices clamped. *)
Lemma value2d t X Y : shaped t -> (2 <= rows t)%Z -> (2 <= columns t)%Z -> tmethod t = Linear ->
  let i := floorZ X in let j := floorZ Y in
  Table_Value2d t X Y = Ok ((1 - (X - IZR i)) * ((1 - (Y - IZR j)) * elc t i j + (Y - IZR j) * elc t i (j + 1))
    + (X - IZR i) * ((1 - (Y - IZR j)) * elc t (i + 1) j + (Y - IZR j) * elc t (i + 1) (j + 1))).
Proof.
  intros S HR HC M i j. unfold Table_Value2d. fold i j. cbv zeta.
  rewrite !(index_clamp t _ _ S HR HC), M. cbn [bind]. f_equal. unfold elc.
  assert (EX : forall k, ((rows t - 1 <? i)%Z || (i <? 0)%Z)%bool = true ->
     clampZ (i + 1) (rows t) = clampZ i (rows t) \/ k = 0%Z).
  { intros k H. left. apply orb_true_iff in H. destruct H as [H|H]; apply Z.ltb_lt in H; unfold clampZ; lia. }
  assert (EY : ((columns t - 1 <? j)%Z || (j <? 0)%Z)%bool = true -> clampZ (j + 1) (columns t) = clampZ j (columns t)).
  { intros H. apply orb_true_iff in H. destruct H as [H|H]; apply Z.ltb_lt in H; unfold clampZ; lia. }
  assert (EX' : ((rows t - 1 <? i)%Z || (i <? 0)%Z)%bool = true -> clampZ (i + 1) (rows t) = clampZ i (rows t)).
  { intros H. destruct (EX 1%Z H); [assumption|lia]. }
  clear EX.
  destruct ((rows t - 1 <? i)%Z || (i <? 0)%Z) eqn:A; destruct ((columns t - 1 <? j)%Z || (j <? 0)%Z) eqn:B.
  - rewrite (EX' eq_refl), (EY eq_refl). unfold Table_Interp2d, Table_Interp1d. rewrite !eq_t. lra.
  - rewrite (EX' eq_refl). unfold Table_Interp2d. rewrite eq_t.
    assert (N : IZR j <> IZR (j + 1)) by (rewrite izr_succ; lra).
    pose proof (interp_chord Y (IZR j) (el t (clampZ i (rows t)) (clampZ j (columns t))) (IZR (j + 1))
      (el t (clampZ i (rows t)) (clampZ (j + 1) (columns t))) N) as C.
    unfold on_chord in C. rewrite izr_succ in *. nra.
  - rewrite (EY eq_refl). unfold Table_Interp2d.
    assert (N : IZR i <> IZR (i + 1)) by (rewrite izr_succ; lra).
    rewrite (eq_f (IZR (i + 1))) by (intros E; now apply N). rewrite eq_t.
    pose proof (interp_chord X (IZR i) (el t (clampZ i (rows t)) (clampZ j (columns t))) (IZR (i + 1))
      (el t (clampZ (i + 1) (rows t)) (clampZ j (columns t))) N) as C.
    unfold on_chord in C. rewrite izr_succ in *. nra.
  - transitivity (Table_Interp2d (IZR i + (X - IZR i)) (IZR j + (Y - IZR j)) (IZR i) (IZR j) (IZR (i + 1)) (IZR (j + 1))
      (el t (clampZ i (rows t)) (clampZ j (columns t))) (el t (clampZ i (rows t)) (clampZ (j + 1) (columns t)))
      (el t (clampZ (i + 1) (rows t)) (clampZ j (columns t))) (el t (clampZ (i + 1) (rows t)) (clampZ (j + 1) (columns t)))).
    + f_equal; ring.
    + apply interp2_cell.
Qed.

Lemma floor_unit (k : Z) (u : R) : 0 <= u <= 1 -> (floorZ (IZR k + u) = k /\ u < 1) \/ (floorZ (IZR k + u) = (k + 1)%Z /\ u = 1).
Proof.
  intros H. destruct (Rlt_dec u 1).
  - left. split; [apply floor_between; lra|assumption].
  - right. assert (u = 1) by lra. subst. split; [|reflexivity]. rewrite <- izr_succ.
    rewrite <- (Rplus_0_r (IZR (k + 1))). apply floor_between. lra.
Qed.

Lemma value2d_in t i j u v : shaped t -> tmethod t = Linear ->
  (0 <= i)%Z -> (i + 1 < rows t)%Z -> (0 <= j)%Z -> (j + 1 < columns t)%Z -> 0 <= u <= 1 -> 0 <= v <= 1 ->
  Table_Value2d t (IZR i + u) (IZR j + v) = Ok (cell t i j u v).
Proof.
  intros S M Hi Hi' Hj Hj' Hu Hv. rewrite (value2d t _ _ S) by (lia || assumption). cbv zeta. f_equal. unfold cell.
  destruct (floor_unit i u Hu) as [[-> _]|[-> ->]]; destruct (floor_unit j v Hv) as [[-> _]|[-> ->]]; unfold elc;
    rewrite ?izr_succ.
  - rewrite !clamp_id by lia. ring.
  - rewrite (clamp_id i), (clamp_id (i + 1)), (clamp_id (j + 1)) by lia. ring.
  - rewrite (clamp_id j), (clamp_id (i + 1)), (clamp_id (j + 1)) by lia. ring.
  - rewrite (clamp_id (i + 1)), (clamp_id (j + 1)) by lia. ring.
Qed.

Lemma clampR_le0 x n : (2 <= n)%Z -> x <= 0 -> clampR x n = 0.
Proof.
  intros Hn H. pose proof (IZR_le 1 (n - 1) ltac:(lia)). unfold clampR.
  rewrite Rmin_left by lra. apply Rmax_left. lra.
Qed.
Lemma clampR_in x n : (2 <= n)%Z -> 0 <= x <= IZR (n - 1) -> clampR x n = x.
Proof. intros Hn H. unfold clampR. rewrite Rmin_left by lra. apply Rmax_right. lra. Qed.
Lemma clampR_ge x n : (2 <= n)%Z -> IZR (n - 1) <= x -> clampR x n = IZR (n - 1).
Proof.
  intros Hn H. pose proof (IZR_le 1 (n - 1) ltac:(lia)). unfold clampR.
  rewrite Rmin_right by lra. apply Rmax_right. lra.
Qed.

(* One direction: the weights of f at clamped indices are those at the clamped
   argument. *)
Lemma lin_clamp (f : Z -> R) x n : (2 <= n)%Z ->
  let i := floorZ x in let y := clampR x n in let k := floorZ y in
  (1 - (x - IZR i)) * f (clampZ i n) + (x - IZR i) * f (clampZ (i + 1) n)
  = (1 - (y - IZR k)) * f (clampZ k n) + (y - IZR k) * f (clampZ (k + 1) n).
Proof.
  intros Hn. cbv zeta. pose proof (floor_spec x) as F. set (i := floorZ x) in *.
  destruct (Rle_dec x 0) as [L|L].
  - rewrite clampR_le0 by assumption.
    replace (floorZ 0) with 0%Z by (symmetry; replace 0 with (IZR 0 + 0) at 1 by ring; apply floor_between; lra).
    replace (clampZ 0 n) with 0%Z by (unfold clampZ; lia).
    destruct (Req_dec x 0) as [E|E].
    + subst x. assert (i = 0)%Z.
      { apply eq_IZR. assert (Q : IZR i < 1) by lra. assert (Q' : -1 < IZR i) by lra.
        apply lt_IZR in Q. apply lt_IZR in Q'. f_equal. lia. }
      subst i. rewrite H. replace (clampZ 0 n) with 0%Z by (unfold clampZ; lia). ring.
    + assert (IZR i < 0) by lra. apply lt_IZR in H.
      replace (clampZ i n) with 0%Z by (unfold clampZ; lia).
      replace (clampZ (i + 1) n) with 0%Z by (unfold clampZ; lia). ring.
  - destruct (Rle_dec x (IZR (n - 1))) as [U|U].
    + rewrite clampR_in by (try assumption; lra). reflexivity.
    + rewrite clampR_ge by (try assumption; lra).
      replace (floorZ (IZR (n - 1))) with (n - 1)%Z by (symmetry; rewrite <- (Rplus_0_r (IZR (n - 1))); apply floor_between; lra).
      assert (IZR (n - 1) < IZR (i + 1)) by (rewrite izr_succ; lra). apply lt_IZR in H.
      replace (clampZ i n) with (n - 1)%Z by (unfold clampZ; lia).
      replace (clampZ (i + 1) n) with (n - 1)%Z by (unfold clampZ; lia).
      replace (clampZ (n - 1) n) with (n - 1)%Z by (unfold clampZ; lia). ring.
Qed.

Lemma value2d_out t X Y : shaped t -> (2 <= rows t)%Z -> (2 <= columns t)%Z -> tmethod t = Linear ->
  Table_Value2d t X Y = Table_Value2d t (clampR X (rows t)) (clampR Y (columns t)).
Proof.
  intros S HR HC M. rewrite !(value2d t _ _ S HR HC M). cbv zeta. f_equal. unfold elc.
  pose proof (lin_clamp (fun a => (1 - (Y - IZR (floorZ Y))) * el t a (clampZ (floorZ Y) (columns t))
     + (Y - IZR (floorZ Y)) * el t a (clampZ (floorZ Y + 1) (columns t))) X (rows t) HR) as L1. cbv zeta beta in L1.
  rewrite L1. clear L1.
  pose proof (fun a => lin_clamp (fun b => el t a b) Y (columns t) HC) as L2. cbv zeta beta in L2.
  now rewrite !L2.
Qed.

(* Nearest entry. *)
Lemma near_one (x : R) (k n : Z) : (0 <= k < n)%Z -> Rabs (x - IZR k) < 1 / 2 ->
  let x1 := floorZ x in
  let x2 := if ((n - 1 <? x1)%Z || (x1 <? 0)%Z)%bool then x1 else (x1 + 1)%Z in
  clampZ (if Rltb (Rabs (x - IZR x1)) (Rabs (x - IZR x2)) then x1 else x2) n = k.
Proof.
  intros Hk H. cbv zeta. apply Rabs_def2 in H. pose proof (floor_spec x) as F. set (i := floorZ x) in *.
  assert (Hi : (i = k \/ i = k - 1)%Z).
  { assert (A : IZR i < IZR (k + 1)) by (rewrite plus_IZR; lra).
    assert (B : IZR (k - 2) < IZR i) by (rewrite minus_IZR; lra). apply lt_IZR in A. apply lt_IZR in B. lia. }
  destruct Hi as [E|E].
  - rewrite E in *. rewrite (proj2 (Z.ltb_ge (n - 1) k)), (proj2 (Z.ltb_ge k 0)) by lia. cbn [orb].
    destruct (Rltb (Rabs (x - IZR k)) (Rabs (x - IZR (k + 1)))) eqn:L; [apply clamp_id; lia|].
    exfalso. apply Rltb_f in L. rewrite plus_IZR in L. rewrite (Rabs_right (x - IZR k)), Rabs_left in L by lra. lra.
  - assert (Kx : IZR k = IZR i + 1) by (rewrite <- izr_succ; f_equal; lia).
    destruct (Z.ltb_spec i 0).
    + replace ((n - 1 <? i)%Z || true)%bool with true by now rewrite orb_true_r.
      destruct (Rltb _ _); unfold clampZ; lia.
    + rewrite (proj2 (Z.ltb_ge (n - 1) i)) by lia. cbn [orb].
      destruct (Rltb (Rabs (x - IZR i)) (Rabs (x - IZR (i + 1)))) eqn:L; [|unfold clampZ; lia].
      exfalso. apply Rltb_t in L. rewrite plus_IZR in L. rewrite (Rabs_right (x - IZR i)), Rabs_left in L by lra. lra.
Qed.

Lemma value2d_near t X Y k l : shaped t -> (2 <= rows t)%Z -> (2 <= columns t)%Z -> tmethod t <> Linear ->
  in_range t k l -> Rabs (X - IZR k) < 1 / 2 -> Rabs (Y - IZR l) < 1 / 2 ->
  Table_Value2d t X Y = Ok (el t k l).
Proof.
  intros S HR HC M [Hk Hl] HX HY. pose proof (near_one X k _ Hk HX) as A. pose proof (near_one Y l _ Hl HY) as B.
  cbv zeta in A, B. unfold Table_Value2d. cbv zeta. rewrite !(index_clamp t _ _ S HR HC). cbn [bind].
  destruct (tmethod t); [congruence| |]; f_equal;
    destruct (Rltb (Rabs (X - _)) _); destruct (Rltb (Rabs (Y - _)) _); now rewrite A, B.
Qed.

(* ---- Table_Value ---- *)
Lemma look_at t X k : shaped t -> (2 <= rows t)%Z ->
  el t k 0 <= X -> X < el t (k + 1) 0 -> (0 <= k)%Z -> (k + 1 < rows t - 1)%Z ->
  (forall i, (0 <= i < k)%Z -> el t (i + 1) 0 <= X) ->
  forall n i xs, (1 <= i <= k + 1)%Z -> Z.of_nat n = (rows t - 1 - i)%Z ->
  look t X n i xs = Ok ((k + 1)%Z, Some (el t k 0, el t (k + 1) 0)).
Proof.
  intros S HR HX HX' Hk Hk' HB. induction n as [|n IH]; intros i xs Hi Hn; [lia|]. cbn [look].
  rewrite !(index_rows t _ 0 S HR) by (destruct S as (?&?&?&?&?); lia). rewrite !clamp_id by lia. cbn [bind].
  destruct (Z.eq_dec i (k + 1)) as [E|E].
  - subst i. replace (k + 1 - 1)%Z with k by lia.
    rewrite (proj2 (Rleb_true _ _) HX), (proj2 (Rltb_t _ _) HX'). reflexivity.
  - replace (Rltb X (el t i 0)) with false.
    + rewrite andb_false_r. apply IH; lia.
    + symmetry. apply Rltb_f. replace i with (i - 1 + 1)%Z by lia. apply HB. lia.
Qed.

Lemma look_S t X n i xs : look t X (S n) i xs =
  bind (Table_Index t i 0) (fun X2 => bind (Table_Index t (i - 1) 0) (fun X1 =>
    if Rleb X1 X && Rltb X X2 then Ok (i, Some (X1, X2)) else look t X n (i + 1)%Z (Some (X1, X2)))).
Proof. reflexivity. Qed.

Lemma look_end t X : shaped t -> (2 <= rows t)%Z -> (forall i, (0 <= i < rows t - 1)%Z -> el t i 0 <= X) ->
  forall n i xs, (1 <= i)%Z -> Z.of_nat (S n) = (rows t - 1 - i)%Z ->
  look t X (S n) i xs = Ok ((rows t - 1)%Z, Some (el t (rows t - 3) 0, el t (rows t - 2) 0)).
Proof.
  intros S HR HB. induction n as [|n IH]; intros i xs Hi Hn; rewrite look_S;
  rewrite !(index_rows t _ 0 S HR) by (destruct S as (?&?&?&?&?); lia); rewrite !clamp_id by lia; cbn [bind];
  (replace (Rltb X (el t i 0)) with false by (symmetry; apply Rltb_f; apply HB; lia)); rewrite andb_false_r.
  - cbn [look]. replace (i + 1)%Z with (rows t - 1)%Z by lia. replace (i - 1)%Z with (rows t - 3)%Z by lia.
    now replace i with (rows t - 2)%Z by lia.
  - apply IH; lia.
Qed.

Lemma rising_lt t : rising t -> forall n i, (0 <= i)%Z -> (i + Z.of_nat (S n) < rows t)%Z -> el t i 0 < el t (i + Z.of_nat (S n)) 0.
Proof.
  intros HR. induction n; intros i Hi Hn.
  - apply (HR i). lia.
  - apply Rlt_trans with (el t (i + Z.of_nat (S n)) 0); [apply IHn; lia|].
    replace (i + Z.of_nat (S (S n)))%Z with (i + Z.of_nat (S n) + 1)%Z by lia. apply HR. lia.
Qed.
Lemma rising_le t i k : rising t -> (0 <= i <= k)%Z -> (k < rows t)%Z -> el t i 0 <= el t k 0.
Proof.
  intros HR Hi Hk. destruct (Z.eq_dec i k) as [->|E]; [lra|].
  replace k with (i + Z.of_nat (S (Z.to_nat (k - i - 1))))%Z by lia. left. apply rising_lt; [assumption|lia..].
Qed.

Lemma value_step t X k j : shaped t -> described t -> constantstep t = false ->
  (0 <= k)%Z -> (k + 1 < rows t - 1)%Z -> (0 <= j < columns t)%Z -> el t k 0 <= X < el t (k + 1) 0 ->
  Table_Value t X j = match tmethod t with
    | Linear => Ok (Table_Interp1d X (el t k 0) (el t k j) (el t (k + 1) 0) (el t (k + 1) j))
    | Nearest => Ok (Table_Interp1d_nearest X (el t k 0) (el t k j) (el t (k + 1) 0) (el t (k + 1) j))
    | OtherMethod => Ok 0 end.
Proof.
  intros S (HR & HM & HX) HC Hk Hk' Hj [H1 H2]. unfold Table_Value. rewrite HM, HX, HC.
  pose proof (rising_le t 0 k HR) as A. pose proof (rising_le t (k + 1) (rows t - 1) HR) as B.
  replace (Rltb (el t (rows t - 1) 0) X) with false by (symmetry; apply Rltb_f; specialize (B ltac:(lia) ltac:(lia)); lra).
  replace (Rltb X (el t 0 0)) with false by (symmetry; apply Rltb_f; specialize (A ltac:(lia) ltac:(lia)); lra).
  cbn [negb]. rewrite (look_at t X k S) by
    (try assumption; try lia; intros i Hi; (apply Rle_trans with (el t k 0); [apply rising_le; (assumption || lia)|assumption])).
  cbn [bind]. rewrite !(index_rows t _ j S) by lia. rewrite !clamp_id by lia. cbn [bind].
  replace (k + 1 - 1)%Z with k by lia. now destruct (tmethod t).
Qed.

Lemma value_last t X j : shaped t -> described t -> constantstep t = false -> tmethod t = Linear ->
  (3 <= rows t)%Z -> (0 <= j < columns t)%Z -> el t (rows t - 2) 0 <= X <= el t (rows t - 1) 0 ->
  Table_Value t X j = Ok (Table_Interp1d X (el t (rows t - 3) 0) (el t (rows t - 2) j) (el t (rows t - 2) 0) (el t (rows t - 1) j)).
Proof.
  intros S (HR & HM & HX) HC M H3 Hj [H1 H2]. unfold Table_Value. rewrite HM, HX, HC.
  pose proof (rising_le t 0 (rows t - 2) HR ltac:(lia) ltac:(lia)) as A.
  replace (Rltb (el t (rows t - 1) 0) X) with false by (symmetry; apply Rltb_f; lra).
  replace (Rltb X (el t 0 0)) with false by (symmetry; apply Rltb_f; lra).
  cbn [negb]. replace (Z.to_nat (rows t - 2)) with (Datatypes.S (Z.to_nat (rows t - 3))) by lia.
  rewrite (look_end t X S) by
    (try lia; intros i Hi; (apply Rle_trans with (el t (rows t - 2) 0); [apply rising_le; (assumption || lia)|assumption])).
  cbn [bind]. rewrite !(index_rows t _ j S) by lia. rewrite !clamp_id by lia. cbn [bind].
  rewrite M. replace (rows t - 1 - 1)%Z with (rows t - 2)%Z by lia. reflexivity.
Qed.

Lemma value_out t X j : shaped t -> (2 <= rows t)%Z -> (0 <= j < columns t)%Z ->
  (max_x t < X -> Table_Value t X j = Ok (el t (rows t - 1) j))
  /\ (X < min_x t -> min_x t <= max_x t -> Table_Value t X j = Ok (el t 0 j)).
Proof.
  intros S HR Hj. split; intros H; unfold Table_Value.
  - rewrite (proj2 (Rltb_t _ _) H). rewrite (index_rows t _ j S) by lia. now rewrite clamp_id by lia.
  - intros L. rewrite (proj2 (Rltb_f (max_x t) X)) by lra. rewrite (proj2 (Rltb_t _ _) H).
    rewrite (index_rows t _ j S) by lia. now rewrite clamp_id by lia.
Qed.
