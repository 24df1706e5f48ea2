From Coq Require Import Reals List ZArith Lia Lra Bool Psatz.
From Verif Require Import Base RotModel ShapeModel ShapeProofs ShapeProofs2 ChanModel ChanProofs TabModel TabSpec TabProofs TabProofs2 TabProofs3.
Import ListNotations.
Local Open Scope R_scope.

(* Entries of concrete tables. *)
Ltac ev := unfold cell, step_at, el in *; cbn in *; unfold Pos.to_nat in *; cbn [Pos.iter_op Nat.add nth] in *.

(* C79.  McStas tables. *)

(* Entries in range are found; other indices are moved to the closest one. *)
Theorem C79_index : forall t i j, shaped t ->
  (in_range t i j -> Table_Index t i j = Ok (el t i j))
  /\ ((2 <= rows t)%Z -> (2 <= columns t)%Z -> Table_Index t i j = Ok (el t (clampZ i (rows t)) (clampZ j (columns t)))).
Proof. intros t i j S. split; [now apply index_in|now apply index_clamp]. Qed.

(* A table of 3 rows (x = 0, 1, 3) and 2 columns. *)
Definition ex_t : table := mkT (Some [0; 1; 1; 1; 3; 0]) 3 2 3 0 1 true false Linear.
Example ex_shaped : shaped ex_t.
Proof. exists [0; 1; 1; 1; 3; 0]. cbn. repeat split; reflexivity. Qed.
Example C79_index_ex : Table_Index ex_t 7 (-4) = Ok 3.
Proof. reflexivity. Qed.

(* Setting an entry changes that entry and no other. *)
Theorem C79_set : forall t i j v, shaped t ->
  exists t', Table_SetElement t i j v = Ok (1%Z, t') /\ shaped t'
    /\ forall k l, in_range t k l ->
       el t' k l = if ((k =? clampZ i (rows t)) && (l =? clampZ j (columns t)))%Z then v else el t k l.
Proof. intros. now apply set_ok. Qed.
Example C79_set_ex : exists t', Table_SetElement ex_t 1 1 (1 / 2) = Ok (1%Z, t') /\ Table_Index t' 1 1 = Ok (1 / 2) /\ Table_Index t' 1 0 = Ok 1.
Proof. eexists. split; [reflexivity|]. split; reflexivity. Qed.

(* Two indices: bilinear interpolation, constant outside. *)
Theorem C79_two_indices : forall t i j u v, shaped t -> tmethod t = Linear ->
  (0 <= i)%Z -> (i + 1 < rows t)%Z -> (0 <= j)%Z -> (j + 1 < columns t)%Z -> 0 <= u <= 1 -> 0 <= v <= 1 ->
  Table_Value2d t (IZR i + u) (IZR j + v) = Ok (cell t i j u v).
Proof. intros. now apply value2d_in. Qed.
Theorem C79_two_indices_outside : forall t X Y, shaped t -> (2 <= rows t)%Z -> (2 <= columns t)%Z -> tmethod t = Linear ->
  Table_Value2d t X Y = Table_Value2d t (clampR X (rows t)) (clampR Y (columns t)).
Proof. intros. now apply value2d_out. Qed.
Theorem C79_two_indices_nearest : forall t X Y k l, shaped t -> (2 <= rows t)%Z -> (2 <= columns t)%Z -> tmethod t <> Linear ->
  in_range t k l -> Rabs (X - IZR k) < 1 / 2 -> Rabs (Y - IZR l) < 1 / 2 -> Table_Value2d t X Y = Ok (el t k l).
Proof. intros. now apply value2d_near. Qed.
Example C79_two_indices_ex : Table_Value2d ex_t (1 + 1 / 2) (0 + 1 / 4) = Ok (cell ex_t 1 0 (1 / 2) (1 / 4)) /\ cell ex_t 1 0 (1 / 2) (1 / 4) = 13 / 8.
Proof.
  split.
  - apply (C79_two_indices ex_t 1 0); [exact ex_shaped|reflexivity|cbn; lia..|lra|lra].
  - ev. lra.
Qed.
Example C79_two_indices_nearest_ex : Table_Value2d (mkT (data ex_t) 3 2 3 0 1 true false Nearest) (9 / 5) (1 / 4) = Ok 3.
Proof.
  rewrite (C79_two_indices_nearest _ _ _ 2 0); [reflexivity|exists [0; 1; 1; 1; 3; 0]; cbn; repeat split; reflexivity|cbn; lia|cbn; lia|discriminate| | |].
  - split; cbn; lia.
  - rewrite Rabs_left; lra.
  - rewrite Rabs_right; lra.
Qed.

(* Statistics of a table with rising first column. *)
Theorem C79_stat : forall t, shaped t -> (2 <= rows t)%Z -> rising t -> bounded t -> min_x t <= max_x t ->
  exists t', Table_Stat t = Ok t' /\ same_content t t' /\ described t' /\ monotonic t' = true
    /\ (forall k, (0 <= k < rows t - 1)%Z -> step_x t' <= step_at t k)
    /\ (exists k, (0 <= k < rows t - 1)%Z /\ step_x t' = step_at t k)
    /\ (constantstep t' = true <-> forall k, (0 <= k < rows t - 1)%Z -> step_at t k < step_x t' * (102 / 100)).
Proof. intros. now apply stat_rising. Qed.

(* As Table_Init leaves it, with the data of ex_t. *)
Definition ex_new : table := mkT (data ex_t) 3 2 0 0 0 false false Linear.
Lemma three (P : Z -> Prop) : P 0%Z -> P 1%Z -> P 2%Z -> forall i, (0 <= i < 3)%Z -> P i.
Proof. intros A B C i H. assert (i = 0 \/ i = 1 \/ i = 2)%Z as [->|[->| ->]] by lia; assumption. Qed.
Lemma ex_rising t : data t = data ex_t -> rows t = 3%Z -> columns t = 2%Z -> rising t.
Proof.
  intros D R C i Hi. rewrite R in Hi. unfold el. rewrite D, C.
  assert (i = 0 \/ i = 1)%Z as [->| ->] by lia; ev; lra.
Qed.
Lemma ex_bounded t : data t = data ex_t -> rows t = 3%Z -> columns t = 2%Z -> bounded t.
Proof.
  intros D R C. unfold bounded. rewrite R. unfold el. rewrite D, C.
  assert (F : 3 <= FLT_MAX) by (apply IZR_le; lia).
  apply three; ev; rewrite Rabs_right; lra.
Qed.
Example C79_stat_ex : shaped ex_new /\ (2 <= rows ex_new)%Z /\ rising ex_new /\ bounded ex_new /\ min_x ex_new <= max_x ex_new
  /\ step_at ex_new 0 = 1 /\ step_at ex_new 1 = 2.
Proof.
  split; [exact ex_shaped|]. split; [cbn; lia|]. split; [now apply ex_rising|]. split; [now apply ex_bounded|].
  split; [cbn; lra|]. ev; lra.
Qed.

(* A table that has just been read is always reported to be monotonic. *)
Theorem C79_monotonic_refuted : forall t, shaped t -> (2 <= rows t)%Z -> max_x t = min_x t ->
  exists t', Table_Stat t = Ok t' /\ monotonic t' = true.
Proof.
  intros t S H2 E. destruct (stat_some t S H2) as [t' A]. exists t'. split; [assumption|].
  destruct (shaped_pos t S). apply (stat_mono t t' E); [lia|lia|assumption].
Qed.
(* 0, 5, 1 as Table_Init and Table_Read leave it. *)
Example C79_monotonic_ex : exists t', Table_Stat (mkT (Some [0; 5; 1]) 3 1 0 0 0 false false Linear) = Ok t' /\ monotonic t' = true.
Proof. apply C79_monotonic_refuted; [exists [0; 5; 1]; cbn; repeat split; reflexivity|cbn; lia|reflexivity]. Qed.

(* Between two rows, but the last two: linear interpolation, or the nearer row.
   Outside: the first or last row. *)
Theorem C79_value : forall t X k j, shaped t -> described t -> constantstep t = false -> tmethod t = Linear ->
  (0 <= k)%Z -> (k + 1 < rows t - 1)%Z -> (0 <= j < columns t)%Z -> el t k 0 <= X < el t (k + 1) 0 ->
  exists y, Table_Value t X j = Ok y /\ on_chord (el t k 0) (el t k j) (el t (k + 1) 0) (el t (k + 1) j) X y.
Proof.
  intros t X k j S D C M Hk Hk' Hj HX. rewrite (value_step t X k j S D C Hk Hk' Hj HX), M.
  eexists. split; [reflexivity|]. apply interp_chord. lra.
Qed.
Theorem C79_value_nearest : forall t X k j, shaped t -> described t -> constantstep t = false -> tmethod t = Nearest ->
  (0 <= k)%Z -> (k + 1 < rows t - 1)%Z -> (0 <= j < columns t)%Z -> el t k 0 <= X < el t (k + 1) 0 ->
  Table_Value t X j = Ok (if Rlt_dec (2 * X) (el t k 0 + el t (k + 1) 0) then el t k j else el t (k + 1) j).
Proof.
  intros t X k j S D C M Hk Hk' Hj HX. rewrite (value_step t X k j S D C Hk Hk' Hj HX), M. f_equal.
  unfold Table_Interp1d_nearest. rewrite (Rabs_right (X - el t k 0)), (Rabs_left (X - el t (k + 1) 0)) by lra.
  destruct (Rlt_dec _ _); [rewrite (proj2 (Rltb_t _ _)) by lra|rewrite (proj2 (Rltb_f _ _)) by lra]; reflexivity.
Qed.
Theorem C79_value_outside : forall t X j, shaped t -> (2 <= rows t)%Z -> described t -> (0 <= j < columns t)%Z ->
  (el t (rows t - 1) 0 < X -> Table_Value t X j = Ok (el t (rows t - 1) j))
  /\ (X < el t 0 0 -> Table_Value t X j = Ok (el t 0 j)).
Proof.
  intros t X j S H2 (R & A & B) Hj. pose proof (value_out t X j S H2 Hj) as V. rewrite A, B in V.
  split; [apply V|]. intros H. apply (proj2 V H). apply rising_le; (assumption || lia).
Qed.

Lemma ex_described : described ex_t.
Proof. split; [now apply ex_rising|]. split; reflexivity. Qed.
Example C79_value_ex : exists y, Table_Value ex_t (1 / 4) 0 = Ok y /\ on_chord 0 0 1 1 (1 / 4) y.
Proof.
  apply (C79_value ex_t (1 / 4) 0 0 ex_shaped ex_described eq_refl eq_refl); [lia|cbn; lia|cbn; lia|ev; lra].
Qed.
Example C79_value_outside_ex : Table_Value ex_t 4 1 = Ok 0 /\ Table_Value ex_t (-1) 1 = Ok 1.
Proof.
  split.
  - rewrite (proj1 (C79_value_outside ex_t 4 1 ex_shaped ltac:(cbn; lia) ex_described ltac:(cbn; lia))); [reflexivity|ev; lra].
  - rewrite (proj2 (C79_value_outside ex_t (-1) 1 ex_shaped ltac:(cbn; lia) ex_described ltac:(cbn; lia))); [reflexivity|ev; lra].
Qed.

(* Between the last two rows the values of X are those of the rows before: the
   result is never the interpolated one, and lies beyond the last row. *)
Theorem C79_last_refuted : forall t X j, shaped t -> described t -> constantstep t = false -> tmethod t = Linear ->
  (3 <= rows t)%Z -> (0 <= j < columns t)%Z -> el t (rows t - 2) 0 <= X <= el t (rows t - 1) 0 ->
  el t (rows t - 2) j <> el t (rows t - 1) j ->
  exists y, Table_Value t X j = Ok y
    /\ ~ on_chord (el t (rows t - 2) 0) (el t (rows t - 2) j) (el t (rows t - 1) 0) (el t (rows t - 1) j) X y
    /\ 0 <= (y - el t (rows t - 1) j) * (el t (rows t - 1) j - el t (rows t - 2) j).
Proof.
  intros t X j S D C M H3 Hj HX HN. rewrite (value_last t X j S D C M H3 Hj HX). eexists. split; [reflexivity|].
  pose proof (proj1 D (rows t - 3)%Z ltac:(lia)) as R1. replace (rows t - 3 + 1)%Z with (rows t - 2)%Z in R1 by lia.
  pose proof (proj1 D (rows t - 2)%Z ltac:(lia)) as R2. replace (rows t - 2 + 1)%Z with (rows t - 1)%Z in R2 by lia.
  pose proof (interp_chord X (el t (rows t - 3) 0) (el t (rows t - 2) j) (el t (rows t - 2) 0) (el t (rows t - 1) j) ltac:(lra)) as I.
  set (y := Table_Interp1d _ _ _ _ _) in *. clearbody y.
  set (a := el t (rows t - 3) 0) in *. set (b := el t (rows t - 2) 0) in *. set (c := el t (rows t - 1) 0) in *.
  set (u := el t (rows t - 2) j) in *. set (v := el t (rows t - 1) j) in *. unfold on_chord in *.
  (* y - u = (v - u) * w with w = (X - a) / (b - a) >= 1 *)
  assert (W : exists w, X - a = w * (b - a)) by (exists ((X - a) / (b - a)); field; lra). destruct W as [w W].
  assert (w1 : 1 <= w) by (apply Rmult_le_reg_r with (b - a); lra).
  rewrite W in I. assert (I' : y - u = (v - u) * w) by (apply Rmult_eq_reg_r with (b - a); lra).
  split.
  - rewrite I'. intros H.
    assert (E : w * (c - b) = X - b) by (apply Rmult_eq_reg_l with (v - u); [lra|intros Z; apply HN; lra]).
    assert (w = 1) by nra. subst w. lra.
  - replace (y - v) with ((v - u) * (w - 1)) by lra. replace ((v - u) * (w - 1) * (v - u)) with (((v - u) * (v - u)) * (w - 1)) by ring.
    apply Rmult_le_pos; [apply Rle_0_sqr|lra].
Qed.
(* x = 0, 1, 3 with values 1, 1, 0: at 2 the result is -1, not 1/2. *)
Example C79_last_ex : Table_Value ex_t 2 1 = Ok (-1).
Proof.
  rewrite (value_last ex_t 2 1 ex_shaped ex_described eq_refl eq_refl); [|cbn; lia|cbn; lia|ev; lra].
  unfold Table_Interp1d; ev. rewrite !eq_f by lra. f_equal. lra.
Qed.

(* Evenly spaced tables: at every inner row the value is that of the row before. *)
Theorem C79_even_refuted : forall t x0 h, shaped t -> (2 <= rows t)%Z -> bounded t -> even t x0 h -> 0 < h ->
  exists t', Table_Stat t = Ok t' /\ same_content t t'
    /\ forall k j, tmethod t <> OtherMethod -> (0 < k < rows t - 1)%Z -> (0 <= j < columns t)%Z ->
       Table_Value t' (el t k 0) j = Ok (el t (k - 1) j).
Proof.
  intros t x0 h S H2 B E Hh. destruct (stat_even t x0 h S H2 B E Hh) as (t' & A & C & D & F).
  exists t'. split; [assumption|]. split; [assumption|]. intros k j M Hk Hj.
  pose proof (same_el t t' C) as EL. rewrite <- !EL. pose proof C as (_ & C2 & C3 & C4).
  apply (value_even t' x0 h); try assumption.
  - now apply (same_shaped t t').
  - intros i Hi. rewrite EL. apply E. now rewrite <- C2.
  - now rewrite C4.
  - now rewrite C2.
  - now rewrite C3.
Qed.
(* x = 0, 1, 2 with values 1, 1/2, 0: at 1 the result is 1. *)
Definition ex_even : table := mkT (Some [0; 1; 1; 1 / 2; 2; 0]) 3 2 0 0 0 false false Linear.
Example C79_even_ex : exists t', Table_Stat ex_even = Ok t' /\ Table_Value t' 1 1 = Ok 1.
Proof.
  destruct (C79_even_refuted ex_even 0 1) as (t' & A & _ & V).
  - exists [0; 1; 1; 1 / 2; 2; 0]. cbn. repeat split; reflexivity.
  - cbn. lia.
  - assert (F : 3 <= FLT_MAX) by (apply IZR_le; lia). intros i Hi; cbn in Hi; revert i Hi; apply three; ev; rewrite Rabs_right; lra.
  - intros i Hi; cbn in Hi; revert i Hi; apply three; ev; lra.
  - lra.
  - exists t'. split; [assumption|]. apply (V 1%Z 1%Z); [discriminate|cbn; lia|cbn; lia].
Qed.

(* Rebinned tables: evenly spaced from the first X in steps of the least step,
   as far as these are below the last X, which is not in the table. *)
Theorem C79_rebin : forall t s, shaped t -> (2 <= rows t)%Z -> rising t -> bounded t -> min_x t <= max_x t -> step_x t <> 0 ->
  tmethod t = Linear -> Table_Stat t = Ok s -> constantstep s = false ->
  exists t', Table_Rebin t = Ok ((rows t' * columns t')%Z, t') /\ shaped t' /\ columns t' = columns t
    /\ (forall i, (0 <= i < rows t')%Z -> el t' i 0 = el t 0 0 + IZR i * step_x s /\ el t' i 0 < el t (rows t - 1) 0)
    /\ el t (rows t - 1) 0 <= el t 0 0 + IZR (rows t') * step_x s
    /\ (forall i j, (0 <= i < rows t')%Z -> (1 <= j < columns t)%Z -> Table_Value s (el t' i 0) j = Ok (el t' i j))
    /\ constantstep t' = false /\ max_x t' = el t (rows t - 1) 0.
Proof. intros t s. apply rebin_rising. Qed.
Example C79_rebin_ex : shaped ex_t /\ rising ex_t /\ bounded ex_t /\ step_x ex_t <> 0
  /\ exists s, Table_Stat ex_t = Ok s /\ constantstep s = false.
Proof.
  split; [exact ex_shaped|]. split; [now apply ex_rising|]. split; [now apply ex_bounded|]. split; [cbn; lra|].
  destruct (C79_stat ex_t ex_shaped ltac:(cbn; lia) (ex_rising ex_t eq_refl eq_refl eq_refl)
    (ex_bounded ex_t eq_refl eq_refl eq_refl) ltac:(cbn; lra)) as (s & A & _ & _ & _ & B & _ & C).
  exists s. split; [assumption|]. destruct (constantstep s); [|reflexivity]. exfalso.
  pose proof (proj1 C eq_refl 1%Z ltac:(cbn; lia)) as C1. pose proof (B 0%Z ltac:(cbn; lia)) as B0.
  ev. lra.
Qed.

(* A table with falling first column stays as it is but is said to be evenly
   spaced; above its largest X the row of the smallest X is used. *)
Theorem C79_falling_refuted : forall t, shaped t -> (2 <= rows t)%Z -> falling t -> min_x t < max_x t -> step_x t <> 0 ->
  (exists t', Table_Rebin t = Ok ((rows t * columns t)%Z, t') /\ same_content t t' /\ constantstep t' = true)
  /\ (forall X j, (0 <= j < columns t)%Z -> max_x t < X -> Table_Value t X j = Ok (el t (rows t - 1) j)).
Proof.
  intros t S H2 F M Hs. split; [now apply rebin_falling|]. intros X j Hj HX. now apply (value_out t X j S H2 Hj).
Qed.
Example C79_falling_ex : let t := mkT (Some [3; 0; 1; 1; 0; 1]) 3 2 3 0 (-1) true false Linear in
  shaped t /\ falling t /\ Table_Value t 4 1 = Ok 1.
Proof.
  cbv zeta. split; [exists [3; 0; 1; 1; 0; 1]; cbn; repeat split; reflexivity|]. split.
  - intros i Hi. cbn in Hi. unfold el. cbn. assert (i = 0 \/ i = 1)%Z as [->| ->] by lia; ev; lra.
  - apply value_out; [exists [3; 0; 1; 1; 0; 1]; cbn; repeat split; reflexivity|cbn; lia|cbn; lia|cbn; lra].
Qed.

(* C80.  McStas mirrors. *)

(* The mirror of the default guide of McStas. *)
Definition ex_m : mirror := mkMir 0.99 0.0219 6.07 2 0.003.
Example ex_reflecting : reflecting ex_m.
Proof. unfold reflecting; cbn; lra. Qed.

(* Full reflectivity up to the critical value, none beyond the cut-off, half of
   the sloped value at m Qc; q and -q alike. *)
Theorem C80_edges : forall p q, reflecting p ->
  StdReflecFunc (- q) p = StdReflecFunc q p
  /\ (Rabs q <= critical p -> StdReflecFunc q p = R0 p)
  /\ (cutoff p < Rabs q -> StdReflecFunc q p = 0)
  /\ (1 < m_value p -> StdReflecFunc (m_value p * Qc p) p = R0 p / 2 * (1 - alpha p * (m_value p - 1) * Qc p)).
Proof.
  intros p q P. split; [apply std_even|]. destruct (std_cases p q P) as (A & _ & C).
  split; [assumption|]. split; [assumption|now apply std_half].
Qed.
Example C80_edges_ex : StdReflecFunc 0.02 ex_m = 0.99 /\ StdReflecFunc 0.1 ex_m = 0.
Proof.
  destruct (C80_edges ex_m 0.02 ex_reflecting) as (_ & A & _). destruct (C80_edges ex_m 0.1 ex_reflecting) as (_ & _ & B & _). split.
  - apply A. rewrite Rabs_right by lra. unfold critical. cbn. rewrite Rmin_left by lra. lra.
  - apply B. rewrite Rabs_right by lra. unfold cutoff. cbn. lra.
Qed.

(* Between 0 and R0 and falling, if the slope does not reach 0 before the
   cut-off. *)
Theorem C80_range : forall p q1 q2, reflecting p -> 0 <= alpha p -> alpha p * (cutoff p - critical p) <= 1 ->
  0 <= StdReflecFunc q1 p <= R0 p /\ (Rabs q1 <= Rabs q2 -> StdReflecFunc q2 p <= StdReflecFunc q1 p).
Proof. intros p q1 q2 P A C. split; [now apply std_range|now apply std_mono]. Qed.
Example C80_range_ex : 0 <= alpha ex_m /\ alpha ex_m * (cutoff ex_m - critical ex_m) <= 1.
Proof. unfold cutoff, critical. cbn. rewrite Rmin_left by lra. lra. Qed.

(* Otherwise the reflectivity is negative. *)
Theorem C80_negative_refuted : forall p q, reflecting p -> 0 < alpha p ->
  critical p + 1 / alpha p < Rabs q <= cutoff p -> StdReflecFunc q p < 0.
Proof. exact std_negative. Qed.
Example C80_negative_ex : StdReflecFunc 0.19 (mkMir 0.99 0.0219 6.07 8 0.003) < 0.
Proof.
  apply C80_negative_refuted; [unfold reflecting; cbn; lra|cbn; lra|]. rewrite Rabs_right by lra.
  unfold critical, cutoff. cbn. rewrite Rmin_left by lra. split; [|lra].
  assert (1 / 6.07 < 0.165) by (apply Rmult_lt_reg_r with 6.07; [lra|]; unfold Rdiv; rewrite Rmult_assoc, Rinv_l by lra; lra). lra.
Qed.

(* Nothing is reflected for m = 0, and, with a slope, for W = 0. *)
Theorem C80_absorbing : forall p q, W p <> 0 \/ alpha p <> 0 ->
  m_value p <= 0 \/ Qc p <= 0 \/ R0 p <= 0 \/ W p <= 0 -> StdReflecFunc q p = 0.
Proof. exact std_absorbing. Qed.
Example C80_absorbing_ex : StdReflecFunc 0.01 (mkMir 0.99 0.0219 6.07 0 0.003) = 0 /\ StdReflecFunc 0.01 (mkMir 0.99 0.0219 6.07 2 0) = 0.
Proof. split; apply C80_absorbing; cbn; try (left; lra); right; try lra; right; right; lra. Qed.

(* Estimated coefficients (W = 0 and alpha = 0). *)
Theorem C80_estimated : forall p q, W p = 0 -> alpha p = 0 -> 0 < R0 p -> 0 < Qc p ->
  let m := est_m (m_value p) in
  (0 < m <= 3 -> StdReflecFunc q p = StdReflecFunc q (mkMir (R0 p) (Qc p) m m (est_W m)))
  /\ (3 < m < 11 ->
      (Rabs q <= Qc p -> StdReflecFunc q p = R0 p)
      /\ (m * Qc p + 10 * est_W m < Rabs q -> StdReflecFunc q p = 0)
      /\ (q = m * Qc p -> StdReflecFunc q p
            = R0 p / 2 * (1 - est_alpha m * (m - 1) * Qc p + est_beta m * ((m - 1) * Qc p) ^ 2)))
  /\ (Qc p <= 3 / 100 -> m_value p <= 69 / 10 -> 0 <= StdReflecFunc q p <= R0 p).
Proof.
  intros p q HW Ha H0 H1 m. split; [now apply est_low|]. split.
  - intros Hm. destruct (est_outer p q HW Ha H0 H1 Hm) as [A B]. split; [assumption|]. split; [assumption|].
    intros ->. rewrite (est_high p _ HW Ha H0 H1) by (try exact Hm; fold m; rewrite Rabs_right by nra; unfold est_W; split; nra).
    fold m. rewrite Rabs_right by nra.
    replace ((m * Qc p - m * Qc p) / est_W m) with 0 by (field; unfold est_W; lra). rewrite tanh_0'. field.
  - intros. now apply est_range.
Qed.
Example C80_estimated_ex : let p := mkMir 0.99 0.0219 0 4 0 in 3 < est_m (m_value p) < 11 /\ Qc p <= 3 / 100 /\ m_value p <= 69 / 10.
Proof. cbn. unfold est_m. lra. Qed.

(* m = 0 is documented as completely absorbing. *)
Theorem C80_zero_refuted : forall p q, W p = 0 -> alpha p = 0 -> m_value p = 0 -> 0 < R0 p -> 0 < Qc p ->
  Rabs q <= 0.1978 * Qc p -> StdReflecFunc q p = R0 p.
Proof. exact est_zero. Qed.
Example C80_zero_ex : StdReflecFunc 0.001 (mkMir 0.99 0.0219 0 0 0) = 0.99.
Proof. apply C80_zero_refuted; cbn; try lra. rewrite Rabs_right; lra. Qed.

(* Reflectivities from a table with values in [0,1]. *)
Theorem C80_table : forall t q k, shaped t -> described t -> constantstep t = false -> tmethod t = Linear -> (2 <= columns t)%Z ->
  (0 <= k)%Z -> (k + 1 < rows t - 1)%Z -> el t k 0 <= q < el t (k + 1) 0 -> 0 <= el t k 1 <= 1 -> 0 <= el t (k + 1) 1 <= 1 ->
  exists r, TableReflecFunc q t = Ok r /\ on_chord (el t k 0) (el t k 1) (el t (k + 1) 0) (el t (k + 1) 1) q r.
Proof. exact table_below. Qed.
Theorem C80_table_limit : forall t q r, TableReflecFunc q t = Ok r -> r <= 1.
Proof.
  intros t q r. unfold TableReflecFunc. destruct (Table_Value t q 1) as [w|]; cbn [bind]; [|discriminate].
  intros H. injection H as <-. destruct (Rltb 1 w) eqn:E; [lra|]. now apply Rltb_f.
Qed.
Theorem C80_table_refuted : exists t q r, shaped t /\ described t /\ constantstep t = false /\ tmethod t = Linear
  /\ (forall i, (0 <= i < rows t)%Z -> 0 <= el t i 1 <= 1) /\ TableReflecFunc q t = Ok r /\ r < 0.
Proof.
  exists ex_t, 2, (-1). split; [exact ex_shaped|]. split; [exact ex_described|]. split; [reflexivity|]. split; [reflexivity|].
  split; [intros i Hi; cbn in Hi; revert i Hi; apply three; ev; lra|]. split; [|lra]. unfold TableReflecFunc. rewrite C79_last_ex. cbn [bind].
  now rewrite (proj2 (Rltb_f 1 (-1))) by lra.
Qed.
Example C80_table_ex : exists r, TableReflecFunc (1 / 2) ex_t = Ok r /\ on_chord 0 1 1 1 (1 / 2) r.
Proof.
  apply (C80_table ex_t (1 / 2) 0 ex_shaped ex_described eq_refl eq_refl); [cbn; lia|lia|cbn; lia|ev; lra..].
Qed.
Print Assumptions C79_index.
Print Assumptions C79_set.
Print Assumptions C79_two_indices.
Print Assumptions C79_two_indices_outside.
Print Assumptions C79_two_indices_nearest.
Print Assumptions C79_stat.
Print Assumptions C79_monotonic_refuted.
Print Assumptions C79_value.
Print Assumptions C79_value_nearest.
Print Assumptions C79_value_outside.
Print Assumptions C79_last_refuted.
Print Assumptions C79_even_refuted.
Print Assumptions C79_rebin.
Print Assumptions C79_falling_refuted.
Print Assumptions C80_edges.
Print Assumptions C80_range.
Print Assumptions C80_negative_refuted.
Print Assumptions C80_absorbing.
Print Assumptions C80_estimated.
Print Assumptions C80_zero_refuted.
Print Assumptions C80_table.
Print Assumptions C80_table_limit.
Print Assumptions C80_table_refuted.
