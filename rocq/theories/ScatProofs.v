(** Proofs for C38: attenuation. *)
From Coq Require Import Reals Lra Psatz Sorted.
From Coquelicot Require Import Coquelicot.
From Verif Require Import Base RotModel RotSpec ChanModel ChanProofs ShapeModel ShapeSpec ShapeProofs ShapeProofs2 ScatModel ScatSpec.
Open Scope R_scope.

Lemma ind_1 (P : Prop) : P -> indicator P = 1.
Proof. intros H. unfold indicator. destruct (ClassicalDedekindReals.sig_not_dec P); [reflexivity|contradiction]. Qed.
Lemma ind_0 (P : Prop) : ~ P -> indicator P = 0.
Proof. intros H. unfold indicator. destruct (ClassicalDedekindReals.sig_not_dec P); [contradiction|reflexivity]. Qed.
Lemma len_vnorm a : len a = vnorm a.
Proof. reflexivity. Qed.

(** ** a line without border points stays inside or outside *)
Lemma near_line r v t : forall e, 0 < e -> exists d, 0 < d /\ forall u, Rabs (u - t) < d -> near e (on_line r v t) (on_line r v u).
Proof.
  intros e He. exists (e / (1 + norm2 v)). unfold norm2, sdot. assert (N : 0 <= vx v * vx v + vy v * vy v + vz v * vz v) by nra.
  set (n := vx v * vx v + vy v * vy v + vz v * vz v) in *. assert (D : 0 < e / (1 + n)) by (apply Rdiv_lt_0_compat; lra).
  split; [exact D|]. intros u Hu. unfold near, norm2, sdot, on_line, vsub; cbn.
  replace (_ + _) with ((u - t) * (u - t) * n) by (unfold n; ring).
  assert (A : (u - t) * (u - t) < e / (1 + n) * (e / (1 + n))).
  { apply (Rsqr_lt_abs_1 (u - t) (e / (1 + n))). rewrite (Rabs_pos_eq (e / (1 + n))) by lra. exact Hu. }
  assert (B : e / (1 + n) * (1 + n) = e) by (field; lra).
  set (k := e / (1 + n)) in *. set (w := (u - t) * (u - t)) in *. assert (0 <= w) by apply Rle_0_sqr. clearbody w k n.
  rewrite <- B. assert (w * n <= k * k * n) by (apply Rmult_le_compat_r; lra). assert (0 < k * k) by (apply Rmult_lt_0_compat; lra). assert (0 <= k * k * n) by (apply Rmult_le_pos; lra). assert (0 <= k * k * (n * n)) by (apply Rmult_le_pos; [lra|apply Rmult_le_pos; lra]). lra.
Qed.
Lemma locally_core s r v t : wf s -> core s (on_line r v t) -> exists d, 0 < d /\ forall u, Rabs (u - t) < d -> core s (on_line r v u).
Proof.
  intros W H. destruct (proj1 (body_open s W) _ H) as (e & He & K). destruct (near_line r v t e He) as (d & Hd & L).
  exists d. split; [exact Hd|]. intros u Hu. apply K, L, Hu.
Qed.
Lemma locally_out s r v t : wf s -> ~ solid s (on_line r v t) -> exists d, 0 < d /\ forall u, Rabs (u - t) < d -> ~ core s (on_line r v u).
Proof.
  intros W H. destruct (proj2 (body_open s W) _ H) as (e & He & K). destruct (near_line r v t e He) as (d & Hd & L).
  exists d. split; [exact Hd|]. intros u Hu C. apply (K _ (L u Hu)). now apply core_solid.
Qed.
Lemma ind_flat s r v t : wf s -> ~ border s (on_line r v t) -> is_derive (fun t => indicator (core s (on_line r v t))) t 0.
Proof.
  intros W B. apply is_derive_ext_loc with (f := fun _ => indicator (core s (on_line r v t))); [|exact (@is_derive_const R_AbsRing R_NormedModule _ t)].
  destruct (core_dec s (on_line r v t) W) as [C|C].
  - destruct (locally_core s r v t W C) as (d & Hd & K). exists (mkposreal d Hd). intros y Hy. rewrite ind_1 by exact C. rewrite ind_1; [reflexivity|]. apply K. exact Hy.
  - assert (~ solid s (on_line r v t)) as NS by (intros S; apply B; split; assumption).
    destruct (locally_out s r v t W NS) as (d & Hd & K). exists (mkposreal d Hd). intros y Hy. rewrite ind_0 by exact C. rewrite ind_0; [reflexivity|]. apply K. exact Hy.
Qed.
Lemma ind_const s r v a b t1 t2 : wf s -> (forall t, a < t < b -> ~ border s (on_line r v t)) -> a < t1 < b -> a < t2 < b ->
  indicator (core s (on_line r v t1)) = indicator (core s (on_line r v t2)).
Proof.
  intros W B H1 H2. set (f := fun t => indicator (core s (on_line r v t))).
  destruct (MVT_gen f t2 t1 (fun _ => 0)) as (c & _ & E).
  - intros x Hx. apply ind_flat; [exact W|]. apply B. unfold Rmin, Rmax in Hx. destruct (Rle_dec t2 t1); lra.
  - intros x Hx. apply continuity_pt_filterlim, (ex_derive_continuous f). exists 0. apply ind_flat; [exact W|]. apply B. unfold Rmin, Rmax in Hx. destruct (Rle_dec t2 t1); lra.
  - unfold f in E. lra.
Qed.
Lemma stays_in s r v a b m : wf s -> (forall t, a < t < b -> ~ border s (on_line r v t)) -> a < m < b ->
  core s (on_line r v m) -> forall t, a < t < b -> core s (on_line r v t).
Proof.
  intros W B M C t Ht. destruct (core_dec s (on_line r v t) W) as [K|K]; [exact K|].
  pose proof (ind_const s r v a b t m W B Ht M) as E. rewrite (ind_0 _ K), (ind_1 _ C) in E. lra.
Qed.
Lemma stays_out s r v a b m : wf s -> (forall t, a < t < b -> ~ border s (on_line r v t)) -> a < m < b ->
  ~ core s (on_line r v m) -> forall t, a < t < b -> ~ core s (on_line r v t).
Proof. intros W B M C t Ht K. apply C. now apply (stays_in s r v a b t). Qed.

(** ** bodies are bounded *)
Definition bounded (s : shape) : Prop := exists B, 0 <= B /\ forall p, solid s p -> norm2 p <= B.
Lemma sq_abs_le a X : 2 * Rabs a <= X -> a * a <= X * X.
Proof. intros H. unfold Rabs in H. destruct (Rcase_abs a); nra. Qed.
Lemma members_list l : fold_right and True (map members l) <-> Forall members l.
Proof. apply fold_and_map. Qed.
Lemma body_bounded s : wf s -> members s -> bounded s.
Proof.
  induction s using shape_ind2; intros W M.
  - exists (X * X + Y * Y + Z * Z). split; [nra|]. intros p (A & B & C). unfold norm2, sdot. apply sq_abs_le in A, B, C. nra.
  - exists (r * r + h * h). split; [nra|]. intros p (A & B). unfold norm2, sdot. apply sq_abs_le in B. nra.
  - cbn in W. destruct W as (HX & HY & Hh). exists (X * X + Y * Y + h * h). split; [nra|]. intros p (A & B & C & D). unfold norm2, sdot.
    assert (Rabs (vx p) * 2 <= X) by (apply Rmult_le_reg_l with h; nra). assert (Rabs (vy p) * 2 <= Y) by (apply Rmult_le_reg_l with h; nra).
    assert (vx p * vx p <= X * X) by (apply sq_abs_le; lra). assert (vy p * vy p <= Y * Y) by (apply sq_abs_le; lra). nra.
  - cbn in W. destruct W as (Hr & Hh). exists (r * r + h * h). split; [nra|]. intros p (A & B & C). unfold norm2, sdot.
    assert (vx p * vx p + vy p * vy p <= r * r).
    { apply Rmult_le_reg_l with (h * h); [nra|]. apply Rle_trans with (1 := C). rewrite (Rmult_comm (h * h)). apply Rmult_le_compat_l; nra. }
    nra.
  - exists (r * r). split; [nra|]. intros p A. exact A.
  - cbn in W, M. destruct (IHs1 (proj1 W) M) as (B & HB & K). exists B. split; [exact HB|]. intros p Hp. apply solid_diff in Hp. apply K, Hp.
  - cbn in W, M. rewrite wf_list in W. rewrite members_list in M. destruct M as (NE & M). destruct l as [|a l]; [contradiction|].
    inversion H; inversion W; inversion M; subst. destruct (H2 H6 H10) as (B & HB & K). exists B. split; [exact HB|].
    intros p Hp. apply solid_inter in Hp. inversion Hp; subst. now apply K.
  - cbn in W, M. rewrite wf_list in W. rewrite members_list in M. destruct M as (_ & M).
    assert (E : exists B, 0 <= B /\ forall p, Exists (fun s => solid s p) l -> norm2 p <= B).
    { clear - H W M. induction l as [|a l IH]; [exists 0; split; [lra|intros p Hp; inversion Hp]|].
      inversion H; inversion W; inversion M; subst. destruct (H2 H6 H10) as (B & HB & K). destruct (IH H3 H7 H11) as (B' & HB' & K').
      exists (Rmax B B'). pose proof (Rmax_l B B'). pose proof (Rmax_r B B'). split; [lra|]. intros p Hp. inversion Hp; subst; [specialize (K p ltac:(assumption))|specialize (K' p ltac:(assumption))]; lra. }
    destruct E as (B & HB & K). exists B. split; [exact HB|]. intros p Hp. apply solid_union in Hp. now apply K.
  - cbn in W, M. destruct W as (W & Hk). destruct (IHs W M) as (B & HB & K). exists (k * k * B). split; [nra|]. intros p Hp. apply solid_dil in Hp; [|exact Hk].
    specialize (K _ Hp). rewrite <- (vscale_inv k p Hk). set (q := vscale (1 / k) p) in *. clearbody q. unfold norm2, sdot, vscale in *; cbn.
    replace (_ + _) with (k * k * (vx q * vx q + vy q * vy q + vz q * vz q)) by ring. apply Rmult_le_compat_l; [nra|exact K].
  - cbn in W, M. destruct (IHs W M) as (B & HB & K). exists (2 * B + 2 * norm2 v). split; [unfold norm2, sdot; nra|]. intros p Hp. apply solid_tr in Hp.
    specialize (K _ Hp). rewrite <- (vadd_vsub p v). set (q := vsub p v) in *. clearbody q. unfold norm2, sdot, vadd in *; cbn.
    pose proof (Rle_0_sqr (vx q - vx v)); pose proof (Rle_0_sqr (vy q - vy v)); pose proof (Rle_0_sqr (vz q - vz v)); unfold Rsqr in *. lra.
  - cbn in W, M. destruct W as (W & O). destruct (IHs W M) as (B & HB & K). exists B. split; [exact HB|]. intros p Hp. apply solid_rot in Hp; [|exact O].
    specialize (K _ Hp). rewrite <- (orth_right m p O). unfold norm2 in *. rewrite O. exact K.
Qed.
Lemma far_out s r v : wf s -> members s -> v <> mkV 0 0 0 -> forall a, exists t, a < t /\ ~ solid s (on_line r v t).
Proof.
  intros W M V a. destruct (body_bounded s W M) as (B & HB & K). pose proof (dot_pos v V) as D.
  set (b := sdot r v). set (n := vdot v v) in *. set (t := Rmax (a + 1) ((Rabs b * 2 + B + 1 + n) / n)). exists t.
  assert (T1 : a + 1 <= t) by apply Rmax_l. assert (T2 : (Rabs b * 2 + B + 1 + n) / n <= t) by apply Rmax_r. split; [lra|].
  assert (T3 : Rabs b * 2 + B + 1 + n <= t * n). { apply Rmult_le_reg_r with (/ n); [apply Rinv_0_lt_compat, D|]. rewrite Rmult_assoc, Rinv_r by lra. unfold Rdiv in T2. lra. }
  intros S. specialize (K _ S). unfold norm2, sdot, on_line in K; cbn in K.
  assert (E : (vx r + t * vx v) * (vx r + t * vx v) + (vy r + t * vy v) * (vy r + t * vy v) + (vz r + t * vz v) * (vz r + t * vz v) = norm2 r + 2 * t * b + t * t * n).
  { unfold norm2, sdot, b, sdot, n, vdot. ring. }
  rewrite E in K. assert (0 <= norm2 r) by (unfold norm2, sdot; nra). clearbody b n t. clear E S T1 T2.
  pose proof (Rabs_pos b). pose proof (Rle_abs (- b)) as Q. rewrite Rabs_Ropp in Q.
  assert (1 <= t) by nra. nra.
Qed.

(** ** the loop *)
Lemma seg_integral s r v a b c : a <= b -> (forall t, a < t < b -> indicator (core s (on_line r v t)) = c) ->
  is_RInt (fun t => indicator (core s (on_line r v t))) a b ((b - a) * c).
Proof.
  intros H E. apply is_RInt_ext with (f := fun _ => c).
  - intros x Hx. rewrite Rmin_left, Rmax_right in Hx by exact H. symmetry. now apply E.
  - apply (is_RInt_const a b c).
Qed.
Lemma loop_end tol s r v k T : forall l len, inside_length tol s r v k T T len (filter (fun t => negb (Rltb t T)) l) = len.
Proof.
  induction l as [|t l IH]; intros len0; [reflexivity|]. cbn. destruct (Rltb t T) eqn:E; cbn; [apply IH|].
  assert (T <= t) by (apply Rltb_f in E; lra).
  replace (if Rltb T t then T else t) with T. 2:{ destruct (Rltb T t) eqn:E2; [reflexivity|]. apply Rltb_f in E2. lra. }
  replace (Rltb T T) with false. 2:{ symmetry. apply Rltb_f. lra. }
  rewrite IH. destruct (loc_eqb _ _); lra.
Qed.
Lemma loop_end2 tol s r v k T l len : Forall (fun t => T <= t) l -> inside_length tol s r v k T T len l = len.
Proof.
  intros H. assert (E : filter (fun t => negb (Rltb t T)) l = l).
  { induction H as [|t l Ht _ IH]; [reflexivity|]. cbn. replace (Rltb t T) with false; [cbn; now rewrite IH|]. symmetry. apply Rltb_f. lra. }
  rewrite <- E at 1. apply loop_end.
Qed.
Lemma loop_right tol s r v k T : 0 < tol -> wf s -> members s -> v <> mkV 0 0 0 -> clear tol s r v T ->
  forall l prev len0, StronglySorted Rle l -> Forall (fun t => prev <= t) l -> 0 <= prev <= T -> stop_at tol s r v T prev ->
  (forall t, In t l -> In t (intersect tol s r v)) ->
  (forall t, prev < t -> In t (intersect tol s r v) -> In t l) ->
  (forall t, prev < t -> border s (on_line r v t) -> In t l) ->
  exists d, is_RInt (fun t => indicator (core s (on_line r v t))) prev T d /\ inside_length tol s r v k T prev len0 l = len0 + d * k.
Proof.
  intros Ht W M V CL. induction l as [|t l IH]; intros prev len0 SO FO HP SP IN CO BO.
  - exists 0. split; [|cbn; lra]. replace 0 with ((T - prev) * 0) by ring. apply seg_integral; [lra|]. intros t Htt. apply ind_0.
    destruct (far_out s r v W M V T) as (u & Hu & NS). apply (stays_out s r v prev (u + 1) u W); [|lra| |lra].
    + intros x Hx B. apply (BO x (proj1 Hx) B).
    + intros C. apply NS. now apply core_solid.
  - cbn [inside_length]. rewrite arrow_line. inversion SO; subst. inversion FO; subst. rename H1 into SO', H2 into LE, H4 into FO'. clear SO FO.
    set (tof := if Rltb T t then T else t). assert (TF : tof <= t /\ tof <= T /\ (tof = T \/ tof = t) /\ prev <= tof).
    { unfold tof. destruct (Rltb T t) eqn:E; [apply Rltb_t in E|apply Rltb_f in E]; lra. }
    assert (TF1 : tof <= t) by apply TF. assert (TF2 : tof <= T) by apply TF.
    replace (Rltb T tof) with false by (symmetry; apply Rltb_f; lra).
    assert (NB : forall x, prev < x < tof -> ~ border s (on_line r v x)).
    { intros x Hx B. destruct (BO x (proj1 Hx) B) as [K|K]; [lra|]. rewrite Forall_forall in LE. specialize (LE x K). lra. }
    set (len1 := if loc_eqb (locate tol s (on_line r v ((tof + prev) / 2))) Inside then len0 + (tof - prev) * k else len0).
    assert (SEG : exists d, is_RInt (fun t => indicator (core s (on_line r v t))) prev tof d /\ len1 = len0 + d * k).
    { destruct (Rle_lt_or_eq_dec prev tof) as [L|L]; [lra| |].
      - assert (ST : stop_at tol s r v T tof). { destruct TF as (_ & _ & [E|E] & _); [right; left; exact E|]. destruct (Req_dec tof T) as [Q|Q]; [right; left; exact Q|]. right; right. split; [lra|]. rewrite E. apply IN. now left. }
        assert (NOB : locate tol s (on_line r v ((prev + tof) / 2)) <> Onborder).
        { apply CL; [exact SP|exact ST|exact L|]. intros c [C|[C|(C & I)]] Hc; [lra|lra|]. destruct (CO c (proj1 Hc) I) as [K|K]; [lra|]. rewrite Forall_forall in LE. specialize (LE c K). lra. }
        rewrite (Rplus_comm prev tof) in NOB. unfold len1. destruct (locate_right tol s (on_line r v ((tof + prev) / 2)) W Ht) as (LI & LO & _).
        destruct (locate tol s (on_line r v ((tof + prev) / 2))); [| contradiction |]; cbn [loc_eqb].
        + exists ((tof - prev) * 1). split; [|ring]. apply seg_integral; [lra|]. intros x Hx. apply ind_1. apply (stays_in s r v prev tof ((tof + prev) / 2) W NB); [lra| |exact Hx]. now apply LI.
        + exists ((tof - prev) * 0). split; [|ring]. apply seg_integral; [lra|]. intros x Hx. apply ind_0. apply (stays_out s r v prev tof ((tof + prev) / 2) W NB); [lra| |exact Hx]. intros C. apply (proj1 (LO eq_refl)). now apply core_solid.
      - exists 0. split; [rewrite <- L; apply (is_RInt_point (fun t => indicator (core s (on_line r v t))) prev)|]. unfold len1. destruct (loc_eqb _ _); [rewrite <- L|]; ring. }
    destruct SEG as (d1 & I1 & E1).
    destruct (Rlt_le_dec T t) as [A|A].
    + assert (ET : tof = T) by (unfold tof; destruct (Rltb T t) eqn:E; [reflexivity|apply Rltb_f in E; lra]).
      exists d1. split; [rewrite <- ET; exact I1|]. rewrite ET. rewrite loop_end2; [exact E1|].
      rewrite Forall_forall in *. intros x Hx. specialize (LE x Hx). lra.
    + assert (ET : tof = t) by (unfold tof; destruct (Rltb T t) eqn:E; [apply Rltb_t in E; lra|reflexivity]).
      destruct (IH tof len1) as (d2 & I2 & E2).
      * exact SO'.
      * rewrite ET. exact LE.
      * lra.
      * destruct TF as (_ & _ & _ & L). destruct (Req_dec tof T) as [Q|Q]; [right; left; exact Q|]. destruct (Req_dec tof 0) as [Q0|Q0]; [left; exact Q0|]. right; right. split; [lra|]. rewrite ET. apply IN. now left.
      * intros x Hx. apply IN. now right.
      * intros x Hx I. destruct (CO x) as [K|K]; [lra|exact I|lra|exact K].
      * intros x Hx B. destruct (BO x) as [K|K]; [lra|exact B|lra|exact K].
      * exists (plus d1 d2). split; [apply (is_RInt_Chasles _ prev tof T d1 d2 I1 I2)|]. rewrite E2, E1. unfold plus; cbn. ring.
Qed.

Lemma fwd_in tol s r v t : In t (forward_intersect tol s r v) <-> In t (intersect tol s r v) /\ 0 <= t.
Proof.
  unfold forward_intersect. rewrite filter_In. split; intros (A & B); (split; [exact A|]).
  - destruct (Rltb t 0) eqn:E; [discriminate|]. apply Rltb_f in E. lra.
  - destruct (Rltb t 0) eqn:E; [|reflexivity]. apply Rltb_t in E. lra.
Qed.
Lemma fwd_sorted tol s r v : StronglySorted Rle (forward_intersect tol s r v).
Proof.
  unfold forward_intersect. pose proof (intersect_sorted_all tol s r v) as S. induction S as [|a l S IH F]; [constructor|].
  cbn. destruct (negb (Rltb a 0)); [|exact IH]. constructor; [exact IH|]. rewrite Forall_forall in *. intros x Hx. apply filter_In in Hx. apply F, Hx.
Qed.
Lemma length_right tol s r v T : 0 < tol -> wf s -> members s -> v <> mkV 0 0 0 -> 0 <= T -> clear tol s r v T ->
  (forall t, 0 < t -> border s (on_line r v t) -> In t (intersect tol s r v)) ->
  exists d, time_inside s r v T d /\ inside_length tol s r v (vnorm v) T 0 0 (forward_intersect tol s r v) = len v * d.
Proof.
  intros Ht W M V HT CL SEEN. destruct (loop_right tol s r v (vnorm v) T Ht W M V CL (forward_intersect tol s r v) 0 0) as (d & I & E).
  - apply fwd_sorted.
  - apply Forall_forall. intros t I. now apply fwd_in in I.
  - lra.
  - now left.
  - intros t I. now apply fwd_in in I.
  - intros t Hp I. apply fwd_in. split; [exact I|lra].
  - intros t Hp B. apply fwd_in. split; [apply SEEN; assumption|lra].
  - exists d. split; [exact I|]. rewrite E. change (len v) with (vnorm v). ring.
Qed.
