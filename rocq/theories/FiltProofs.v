From Coq Require Import Reals Lra Lia ZArith String Ascii.
From Verif Require Import Base RotModel ChanModel ShapeModel ChanProofs GridProofs OptModel OptSpec BmonModel BmonSpec BmonProofs BmonProofs2 TabModel TabSpec TabProps FiltModel FiltSpec.
Open Scope R_scope.

Lemma index_at t i j : even_table t -> (j = 0 \/ j = 1)%Z -> Table_Index t i j = Ok (el t (clampZ i (rows t)) j).
Proof.
  intros (S & R2 & C2 & _) J. destruct (C79_index t i j S) as [_ H]. rewrite (H R2 C2). do 2 f_equal. unfold clampZ. lia.
Qed.
Lemma value_reads t X : even_table t -> exists y, filter_value t X = Ok y /\ reads t X y.
Proof.
  intros E. pose proof E as (S & R2 & C2 & Hp & Ev). unfold filter_value, quot. rewrite (proj2 (Reqb_f (step_x t) 0)) by lra. cbn [bind]. set (q := (X - min_x t) / step_x t). set (I := floorZ q).
  rewrite !(index_at t) by (auto || lia). cbn [bind]. set (h := step_x t) in *. set (x0 := min_x t) in *. assert (Xq : X = x0 + q * h) by (unfold q; field; lra).
  destruct (floor_bounds q) as [F1 F2]. fold I in F1, F2. eexists. split; [reflexivity|].
  assert (E0 : el t 0 0 = x0) by (rewrite Ev by lia; lra). assert (En : el t (rows t - 1) 0 = x0 + IZR (rows t - 1) * h) by (apply Ev; lia).
  unfold reads. rewrite E0, En. clearbody q. assert (Iz : forall k, (k < I)%Z -> IZR k + 1 <= IZR I) by (intros k K; rewrite <- plus_IZR; apply IZR_le; lia).
  assert (Iz' : forall k, (I < k)%Z -> IZR I + 1 <= IZR k) by (intros k K; rewrite <- plus_IZR; apply IZR_le; lia).
  (* the value, by the position of the index *)
  destruct (Z_lt_le_dec I 0) as [Neg|Pos].
  - replace (clampZ I (rows t)) with 0%Z by (unfold clampZ; lia). replace (clampZ (I + 1) (rows t)) with 0%Z by (unfold clampZ; lia).
    replace (el t 0 1 + (X - el t 0 0) * (el t 0 1 - el t 0 1) / h) with (el t 0 1) by (field; lra). pose proof (Iz' 0%Z Neg) as B. assert (Xn : X < x0) by nra.
    split; [reflexivity|]. split; [intros K; exfalso; assert (0 <= IZR (rows t - 1)) by (apply IZR_le; lia); nra|]. intros k K [A _]. exfalso. rewrite Ev in A by lia. assert (0 <= IZR k) by (apply IZR_le; lia). nra.
  - destruct (Z_lt_le_dec I (rows t - 1)) as [In|Ab].
    + replace (clampZ I (rows t)) with I by (unfold clampZ; lia). replace (clampZ (I + 1) (rows t)) with (I + 1)%Z by (unfold clampZ; lia).
      assert (P0 : 0 <= IZR I) by (apply IZR_le; lia). rewrite (Ev I) by lia. split; [|split].
      * intros K. assert (Q0 : q = 0) by nra. assert (I0 : I = 0%Z). { assert (IZR I <= 0) by lra. apply le_IZR in H. lia. } rewrite I0, Xq, Q0. field. lra.
      * intros K. exfalso. pose proof (Iz' (rows t - 1)%Z In). nra.
      * intros k K [A B]. rewrite (Ev k), (Ev (k + 1)%Z) in * by lia. rewrite plus_IZR in *. assert (A' : IZR k <= q) by nra. assert (B' : q <= IZR k + 1) by nra.
        destruct (Z.lt_trichotomy k I) as [L|[L|L]].
        -- pose proof (Iz k L). assert (Q : q = IZR k + 1) by lra. assert (I = k + 1)%Z. { assert (IZR I <= IZR (k + 1)) by (rewrite plus_IZR; lra). apply le_IZR in H0. lia. } subst I. rewrite H0, Xq, Q, !plus_IZR. unfold on_chord. field. lra.
        -- subst k. unfold on_chord. rewrite Xq. field. lra.
        -- pose proof (Iz' k L). lra.
    + replace (clampZ I (rows t)) with (rows t - 1)%Z by (unfold clampZ; lia). replace (clampZ (I + 1) (rows t)) with (rows t - 1)%Z by (unfold clampZ; lia).
      set (l := (rows t - 1)%Z) in *. replace (el t l 1 + (X - el t l 0) * (el t l 1 - el t l 1) / h) with (el t l 1) by (field; lra). assert (Le : IZR l <= IZR I) by (apply IZR_le; lia). assert (P1 : 1 <= IZR l) by (apply IZR_le; lia).
      split; [intros K; exfalso; nra|]. split; [reflexivity|]. intros k K [A B]. rewrite (Ev k), (Ev (k + 1)%Z) in * by lia. rewrite plus_IZR in *. assert (B' : q <= IZR k + 1) by nra.
      assert (Kl : IZR k + 1 <= IZR l) by (rewrite <- plus_IZR; apply IZR_le; lia). assert (Q : q = IZR k + 1) by lra. assert (k + 1 = l)%Z. { assert (IZR l <= IZR (k + 1)) by (rewrite plus_IZR; lra). apply le_IZR in H. lia. }
      rewrite H. unfold on_chord. rewrite Xq, Q. ring.
Qed.
Lemma pow_thicker a e : (e = 1 \/ 0 < a \/ a = 0 /\ 0 < e) -> exists b, (if Reqb e 1 then Ok a else cpow a e) = Ok b /\ thicker a e b.
Proof.
  intros H. destruct (Reqb e 1) eqn:E; [apply Reqb_t in E; exists a; split; [reflexivity|left; tauto]|]. apply Reqb_f in E. unfold cpow. destruct (Rltb 0 a) eqn:A.
  - apply Rltb_t in A. exists (Rpower a e). split; [reflexivity|]. right. left. split; [exact A|]. unfold Rpower. split; [apply exp_pos|apply ln_exp].
  - apply Rltb_f in A. destruct H as [H|[H|[H1 H2]]]; [contradiction|lra|]. rewrite (proj2 (Reqb_t _ _) H1), (proj2 (Rltb_t _ _) H2). exists 0. split; [reflexivity|]. right. right. tauto.
Qed.
Definition is_X (ty : quantity) (r : ray) (X : R) : Prop :=
  ty = Energy /\ X = neutron_energy r \/ ty = Wavevector /\ X = wavevector r \/ ty = Wavelength /\ X = wavelength r.
Lemma X_of ty r X : moving r -> is_X ty r X -> filter_X ty (prop_z0 None r) = Ok X.
Proof.
  intros M H. fields r M. unfold filter_X. cbv zeta. rewrite (v2_speed r _ V). pose proof (speed_pos r M) as S.
  assert (Q : sqrt (speed r ^ 2) = speed r) by (replace (speed r ^ 2) with (speed r * speed r) by ring; apply sqrt_square; lra). rewrite Q.
  destruct H as [[-> ->]|[[-> ->]|[-> ->]]]; [reflexivity|reflexivity|]. unfold quot. rewrite (proj2 (Reqb_f _ _)); [reflexivity|]. assert (0 < V2K) by (unfold V2K; lra). nra.
Qed.
Lemma filter_run o th sc mode ty t r X : even_table t -> moving r -> through o r -> is_X ty r X -> exists y, reads t X y /\
  ((th = 1 \/ 0 < sc * y \/ sc * y = 0 /\ 0 < th) -> exists b, thicker (sc * y) th b /\
    filter_trace None o th sc mode ty (Some t) r = Ok (with_p (prop_z0 None r) (match mode with AdaptMult => r_p r * b | _ => b end))).
Proof.
  intros E M T HX. destruct (value_reads t X E) as (y & Ey & Ry). exists y. split; [exact Ry|]. intros H. destruct (pow_thicker (sc * y) th H) as (b & Eb & Tb). exists b. split; [exact Tb|].
  unfold filter_trace. cbv zeta. assert (A : in_area o (prop_z0 None r) = true) by now apply area_through. rewrite A, (X_of ty r X M HX). cbn [bind]. rewrite Ey. cbn [bind]. rewrite Eb. cbn [bind].
  assert (P : r_p (prop_z0 None r) = r_p r) by apply (z0_fields r M). rewrite P. destruct HX as [[-> _]|[[-> _]|[-> _]]]; destruct mode; reflexivity.
Qed.
Lemma prefix_iff s : forall str, String.prefix s str = true <-> exists b, str = (s ++ b)%string.
Proof.
  induction s as [|c s IH]; intros str; [cbn; split; [intros _; now exists str|destruct str; reflexivity]|]. destruct str as [|d str]; cbn.
  - split; [discriminate|intros (b & H); discriminate].
  - destruct (ascii_dec c d) as [-> |N].
    + rewrite IH. split; intros (b & H); exists b; [now rewrite H|now injection H].
    + split; [discriminate|]. intros (b & H). injection H as H _. congruence.
Qed.
Lemma strstr_iff s : forall str, strstr str s = true <-> contains str s.
Proof.
  induction str as [|c str IH]; cbn [strstr]; rewrite Bool.orb_true_iff, prefix_iff.
  - split; [intros [(b & H)|H]; [exists ""%string, b; exact H|discriminate]|]. intros (a & b & H). destruct a; [left; exists b; exact H|discriminate].
  - rewrite IH. split.
    + intros [(b & H)|(a & b & H)]; [exists ""%string, b; exact H|exists (String c a), b; cbn; now rewrite H].
    + intros (a & b & H). destruct a as [|d a]; [left; exists b; exact H|right; exists a, b; now injection H].
Qed.
Lemma strstr_no s str : strstr str s = false <-> ~ contains str s.
Proof. rewrite <- strstr_iff. destruct (strstr str s); split; congruence. Qed.
