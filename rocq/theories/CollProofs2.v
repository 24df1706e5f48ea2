(** Proofs for C74: the path between the cylinders. *)
From Coq Require Import Reals Lra Psatz Sorting.
From Verif Require Import Base RotModel RotProofs ChanModel ChanProofs ShapeModel ShapeProofs UnitModel UnitSpec UnitProofs GridProofs CollModel CollSpec CollProofs.
Open Scope R_scope.

Lemma leaves_in_turn ev r1 r2 t1 t2 : 0 < r1 < r2 -> leaves ev r1 t1 -> leaves ev r2 t2 -> t1 < t2.
Proof.
  intros [A B] [L M] [N O]. destruct (Rlt_le_dec t1 t2) as [H|H]; [exact H|]. destruct (Req_dec t1 t2) as [->|D]; [rewrite L in N; nra|]. specialize (O t1 ltac:(lra)). rewrite L in O. nra.
Qed.
Lemma leaves_later ev r t : dist2 (e_r ev) < r ^ 2 -> leaves ev r t -> 0 < t.
Proof.
  intros I [L M]. destruct (Rlt_le_dec 0 t) as [H|H]; [exact H|]. assert (E : dist2 (where_at ev 0) = dist2 (e_r ev)) by (unfold dist2, where_at; cbn [vx vy vz]; ring).
  destruct (Req_dec t 0) as [->|D]; [lra|]. specialize (M 0 ltac:(lra)). lra.
Qed.
Lemma leaves_some ev r : dist2 (e_r ev) < r ^ 2 -> qa ev <> 0 -> exists t, leaves ev r t.
Proof.
  intros I A. destruct (intersectCylinder (seen (e_r ev)) (seen (e_v ev)) r) as [p|] eqn:E.
  - apply intersect_some in E. destruct E as (t & L & _). now exists t.
  - exfalso. unfold intersectCylinder, seen in E. cbn [vx vy vz] in E. fold (qa ev) (qb ev) (qc ev r) in E. unfold fsqrt in E.
    assert (C : qc ev r < 0) by (unfold qc, dist2 in *; nra). pose proof (qa_nonneg ev).
    rewrite (proj2 (Rltb_f _ _)) in E by nra. rewrite (proj2 (Reqb_f _ _)) in E by exact A. discriminate.
Qed.

Lemma wedge rho1 rho2 a b l : 0 < rho1 -> 0 < rho2 -> a <= b < a + PI -> 0 <= l <= 1 ->
  exists rho phi, 0 < rho /\ a <= phi <= b /\ (1 - l) * (rho1 * cos a) + l * (rho2 * cos b) = rho * cos phi /\ (1 - l) * (rho1 * sin a) + l * (rho2 * sin b) = rho * sin phi.
Proof.
  intros P1 P2 [AB BA] L. destruct (Req_dec a b) as [<-|N].
  { exists ((1 - l) * rho1 + l * rho2), a. split; [nra|]. split; [lra|]. split; ring. }
  set (d := b - a). assert (SD : 0 < sin d) by (apply sin_gt_0; unfold d; lra).
  set (x := (1 - l) * rho1 + l * rho2 * cos d). set (y := l * rho2 * sin d).
  assert (Y0 : 0 <= y) by (unfold y; apply Rmult_le_pos; [nra|lra]).
  assert (NZ : x <> 0 \/ y <> 0).
  { destruct (Req_dec l 0) as [->|L0]; [left; unfold x; nra|right; unfold y]. assert (0 < l * rho2) by (apply Rmult_lt_0_compat; lra). intros Z. assert (0 < l * rho2 * sin d) by (apply Rmult_lt_0_compat; lra). lra. }
  destruct (arctan2_range y x NZ) as (R & EY & EX). set (al := arctan2 y x) in *. set (rho := sqrt (x * x + y * y)) in *.
  assert (RP : 0 < rho). { apply sqrt_lt_R0. destruct NZ; nra. }
  assert (A0 : 0 <= al).
  { destruct (Rle_lt_dec 0 al) as [H|H]; [exact H|]. exfalso. assert (0 < sin (- al)) by (apply sin_gt_0; lra). rewrite sin_neg in H0. nra. }
  assert (AD : al <= d).
  { destruct (Rle_lt_dec al d) as [H|H]; [exact H|]. exfalso. assert (G : 0 < sin (al - d)) by (apply sin_gt_0; unfold d in *; lra).
    assert (E : rho * sin (al - d) = - ((1 - l) * rho1 * sin d)).
    { rewrite sin_minus. replace (rho * (sin al * cos d - cos al * sin d)) with (rho * sin al * cos d - rho * cos al * sin d) by ring. rewrite <- EY, <- EX. unfold x, y. ring. }
    assert (0 < rho * sin (al - d)) by (apply Rmult_lt_0_compat; lra). assert (0 <= (1 - l) * rho1 * sin d) by (apply Rmult_le_pos; [nra|lra]). lra. }
  exists rho, (a + al). split; [exact RP|]. split; [unfold d in *; lra|].
  assert (CB : b = a + d) by (unfold d; ring). rewrite CB, !cos_plus, !sin_plus. split.
  - replace (rho * (cos a * cos al - sin a * sin al)) with (cos a * (rho * cos al) - sin a * (rho * sin al)) by ring. rewrite <- EX, <- EY. unfold x, y. ring.
  - replace (rho * (sin a * cos al + cos a * sin al)) with (sin a * (rho * cos al) + cos a * (rho * sin al)) by ring. rewrite <- EX, <- EY. unfold x, y. ring.
Qed.
Lemma wedge_back rho1 rho2 a b phi : 0 < rho1 -> 0 < rho2 -> a <= phi <= b -> b < a + PI ->
  exists rho l, 0 < rho /\ 0 <= l <= 1 /\ (1 - l) * (rho1 * cos a) + l * (rho2 * cos b) = rho * cos phi /\ (1 - l) * (rho1 * sin a) + l * (rho2 * sin b) = rho * sin phi.
Proof.
  intros P1 P2 B BA. destruct (Req_dec a b) as [E|N].
  { exists rho1, 0. assert (phi = a) by lra. subst phi. split; [exact P1|]. split; [lra|]. split; ring. }
  assert (SD : 0 < sin (b - a)) by (apply sin_gt_0; lra). assert (S1 : 0 <= sin (phi - a)) by (apply sin_ge_0; lra). assert (S2 : 0 <= sin (b - phi)) by (apply sin_ge_0; lra).
  set (p := rho1 * sin (phi - a)). set (q := rho2 * sin (b - phi)). assert (0 <= p) by (unfold p; nra). assert (0 <= q) by (unfold q; nra).
  assert (PQ : 0 < p + q).
  { destruct (Req_dec phi a) as [->|F].
    - assert (0 < q) by (unfold q; nra). lra.
    - assert (0 < sin (phi - a)) by (apply sin_gt_0; lra). assert (0 < p) by (unfold p; nra). lra. }
  exists (rho1 * rho2 * sin (b - a) / (p + q)), (p / (p + q)). split; [|split; [|split]].
  - apply Rdiv_lt_0_compat; [|exact PQ]. apply Rmult_lt_0_compat; [nra|exact SD].
  - split; [apply Rmult_le_pos; [assumption|left; apply Rinv_0_lt_compat; exact PQ]|]. apply Rmult_le_reg_r with (p + q); [exact PQ|]. unfold Rdiv. rewrite Rmult_assoc, Rinv_l by lra. lra.
  - transitivity (rho1 * rho2 * (sin (b - phi) * cos a + sin (phi - a) * cos b) / (p + q)); [unfold p, q in *; field; lra|].
    replace (sin (b - phi) * cos a + sin (phi - a) * cos b) with (sin (b - a) * cos phi) by (rewrite !sin_minus; ring). field. lra.
  - transitivity (rho1 * rho2 * (sin (b - phi) * sin a + sin (phi - a) * sin b) / (p + q)); [unfold p, q in *; field; lra|].
    replace (sin (b - phi) * sin a + sin (phi - a) * sin b) with (sin (b - a) * sin phi) by (rewrite !sin_minus; ring). field. lra.
Qed.
Lemma at_between ev t1 t2 t : t1 < t2 -> let l := (t - t1) / (t2 - t1) in
  vx (where_at ev t) = (1 - l) * vx (where_at ev t1) + l * vx (where_at ev t2) /\ vz (where_at ev t) = (1 - l) * vz (where_at ev t1) + l * vz (where_at ev t2).
Proof. intros H l. unfold l, where_at. cbn [vx vy vz]. split; field; lra. Qed.
Lemma path_between ev t1 t2 a b t : t1 < t2 -> azimuth (where_at ev t1) a -> azimuth (where_at ev t2) b -> Rabs (a - b) < PI -> t1 <= t <= t2 ->
  exists phi, azimuth (where_at ev t) phi /\ Rmin a b <= phi <= Rmax a b.
Proof.
  intros T (r1 & P1 & A1 & B1) (r2 & P2 & A2 & B2) D BT. destruct (at_between ev t1 t2 t T) as [X Z]. set (l := (t - t1) / (t2 - t1)) in *.
  assert (L : 0 <= l <= 1). { unfold l. split; [apply Rmult_le_pos; [lra|left; apply Rinv_0_lt_compat; lra]|]. apply Rmult_le_reg_r with (t2 - t1); [lra|]. unfold Rdiv. rewrite Rmult_assoc, Rinv_l by lra. lra. }
  rewrite A1, A2 in Z. rewrite B1, B2 in X. apply Rabs_def2 in D. destruct (Rle_lt_dec a b) as [H|H].
  - destruct (wedge r1 r2 a b l P1 P2 ltac:(lra) L) as (rho & phi & RP & BW & C & S). exists phi. split; [|rewrite Rmin_left, Rmax_right by lra; exact BW]. exists rho. split; [exact RP|]. split; [rewrite Z; exact C|rewrite X; exact S].
  - destruct (wedge r2 r1 b a (1 - l) P2 P1 ltac:(lra) ltac:(lra)) as (rho & phi & RP & BW & C & S). exists phi. split; [|rewrite Rmin_right, Rmax_left by lra; exact BW]. exists rho. split; [exact RP|]. split; [rewrite Z, <- C; ring|rewrite X, <- S; ring].
Qed.
Lemma path_meets ev t1 t2 a b phi : t1 < t2 -> azimuth (where_at ev t1) a -> azimuth (where_at ev t2) b -> Rabs (a - b) < PI -> Rmin a b <= phi <= Rmax a b ->
  exists t, t1 <= t <= t2 /\ azimuth (where_at ev t) phi.
Proof.
  intros T (r1 & P1 & A1 & B1) (r2 & P2 & A2 & B2) D BW. apply Rabs_def2 in D.
  assert (K : exists rho l, 0 < rho /\ 0 <= l <= 1 /\ (1 - l) * (r1 * cos a) + l * (r2 * cos b) = rho * cos phi /\ (1 - l) * (r1 * sin a) + l * (r2 * sin b) = rho * sin phi).
  { destruct (Rle_lt_dec a b) as [H|H].
    - rewrite Rmin_left, Rmax_right in BW by lra. apply wedge_back; lra.
    - rewrite Rmin_right, Rmax_left in BW by lra. destruct (wedge_back r2 r1 b a phi P2 P1 BW ltac:(lra)) as (rho & l & RP & L & C & S). exists rho, (1 - l). split; [exact RP|]. split; [lra|]. split; [rewrite <- C; ring|rewrite <- S; ring]. }
  destruct K as (rho & l & RP & L & C & S). exists (t1 + l * (t2 - t1)). split; [nra|]. destruct (at_between ev t1 t2 (t1 + l * (t2 - t1)) T) as [X Z]. replace ((t1 + l * (t2 - t1) - t1) / (t2 - t1)) with l in X, Z by (field; lra).
  exists rho. split; [exact RP|]. rewrite X, Z, A1, A2, B1, B2. split; assumption.
Qed.
Lemma gap_between blade a b x : in_gap blade a b -> Rmin a b <= x <= Rmax a b -> in_gap blade a x.
Proof.
  intros G B y Y. specialize (G y Y). destruct (Rle_lt_dec a b) as [H|H].
  - rewrite Rmin_left, Rmax_right in B by lra. split; [lra|]. intros L. apply G. lra.
  - rewrite Rmin_right, Rmax_left in B by lra. split; [|lra]. intros L. apply G in L. lra.
Qed.
Lemma even_gap_width lo d a b : 0 < d -> in_gap (at_blade_even lo d) a b -> Rabs (a - b) < d.
Proof.
  intros D G. apply gap_even in G; [|exact D]. destruct (floor_bounds ((a - lo) / d)) as [A B], (floor_bounds ((b - lo) / d)) as [C E]. rewrite G in *.
  assert (F : Rabs ((a - b) / d) < 1) by (replace ((a - b) / d) with ((a - lo) / d - (b - lo) / d) by (field; lra); apply Rabs_def1; lra).
  unfold Rdiv in F. rewrite Rabs_mult, (Rabs_right (/ d)) in F by (apply Rle_ge; left; apply Rinv_0_lt_compat; exact D).
  apply (Rmult_lt_compat_r d) in F; [|exact D]. rewrite Rmult_assoc, Rinv_l in F by lra. lra.
Qed.
(** the whole path between the cylinders is in one gap *)
Lemma through_path r1 h1 r2 h2 lo hi blade s ev t1 t2 a b : 0 < r1 < r2 -> through r1 h1 r2 h2 lo hi blade s ev ->
  leaves ev r1 t1 -> leaves ev r2 t2 -> principal (where_at ev t1) a -> principal (where_at ev t2) b -> Rabs (a - b) < PI ->
  forall t, t1 <= t <= t2 -> exists phi, azimuth (where_at ev t) phi /\ lo < phi + s < hi /\ in_gap blade (a + s) (phi + s).
Proof.
  intros R (u1 & u2 & a' & b' & M1 & M2 & _ & _ & Q1 & Q2 & A & B & G) L1 L2 P1 P2 D t T.
  assert (u1 = t1) by (apply (leaves_unique ev _ _ _ M1 L1)). assert (u2 = t2) by (apply (leaves_unique ev _ _ _ M2 L2)). subst u1 u2.
  pose proof (principal_unique _ _ _ Q1 P1) as ->. pose proof (principal_unique _ _ _ Q2 P2) as ->.
  pose proof (leaves_in_turn ev r1 r2 t1 t2 R L1 L2) as T12. destruct (path_between ev t1 t2 a b t T12 (proj1 P1) (proj1 P2) D T) as (phi & AZ & BW).
  exists phi. split; [exact AZ|]. assert (RM : Rmin (a + s) (b + s) <= phi + s <= Rmax (a + s) (b + s)).
  { destruct (Rle_lt_dec a b) as [H|H]; [rewrite Rmin_left, Rmax_right in * by lra; lra|rewrite Rmin_right, Rmax_left in * by lra; lra]. }
  split; [|now apply (gap_between _ _ (b + s))]. split.
  - apply Rlt_le_trans with (Rmin (a + s) (b + s)); [apply Rmin_glb_lt; lra|lra].
  - apply Rle_lt_trans with (Rmax (a + s) (b + s)); [lra|apply Rmax_lub_lt; lra].
Qed.
(** what is not in one gap meets a blade *)
Lemma not_gap_even lo d a b : 0 < d -> ~ in_gap (at_blade_even lo d) a b -> exists x, at_blade_even lo d x /\ Rmin a b <= x <= Rmax a b.
Proof.
  intros D N. assert (F : floorZ ((a - lo) / d) <> floorZ ((b - lo) / d)) by (intros E; apply N; now apply gap_even).
  assert (K : forall x y, (floorZ ((x - lo) / d) < floorZ ((y - lo) / d))%Z -> x <= lo + IZR (floorZ ((y - lo) / d)) * d <= y).
  { intros x y L. destruct (floor_bounds ((x - lo) / d)) as [_ A], (floor_bounds ((y - lo) / d)) as [B _]. set (m := floorZ ((x - lo) / d)) in *. set (n := floorZ ((y - lo) / d)) in *.
    assert (IZR m + 1 <= IZR n) by (rewrite <- plus_IZR; apply IZR_le; lia).
    assert (EX : x - lo = (x - lo) / d * d) by (field; lra). assert (EY : y - lo = (y - lo) / d * d) by (field; lra). split; nra. }
  destruct (Z_lt_le_dec (floorZ ((a - lo) / d)) (floorZ ((b - lo) / d))) as [L|L].
  - specialize (K a b L). exists (lo + IZR (floorZ ((b - lo) / d)) * d). split; [constructor|]. rewrite Rmin_left, Rmax_right by lra. exact K.
  - specialize (K b a ltac:(lia)). exists (lo + IZR (floorZ ((a - lo) / d)) * d). split; [constructor|]. rewrite Rmin_right, Rmax_left by lra. exact K.
Qed.
Lemma not_gap_listed l a b : ~ in_gap (fun x => In x l) a b -> exists x, In x l /\ Rmin a b <= x <= Rmax a b.
Proof.
  intros N. assert (H : exists x, In x l /\ ~ (x <= a <-> x <= b)).
  { clear - N. induction l as [|y l IH]; [exfalso; apply N; intros x []|]. destruct (Rle_lt_dec y a) as [A|A], (Rle_lt_dec y b) as [B|B].
    2,3: exists y; split; [now left|]; intros E; lra.
    all: destruct IH as (x & I & X); [intros G; apply N; intros z [<-|Z]; [split; lra|now apply G]|exists x; split; [now right|exact X]]. }
  destruct H as (x & I & X). exists x. split; [exact I|]. destruct (Rle_lt_dec x a) as [A|A], (Rle_lt_dec x b) as [B|B]; try (exfalso; apply X; split; lra).
  - rewrite Rmin_right, Rmax_left by lra. lra.
  - rewrite Rmin_left, Rmax_right by lra. lra.
Qed.
Lemma refused_meets r1 h1 r2 h2 lo hi (blade : R -> Prop) s ev t1 t2 a b : 0 < r1 < r2 -> (forall x y, ~ in_gap blade x y -> exists z, blade z /\ Rmin x y <= z <= Rmax x y) ->
  leaves ev r1 t1 -> leaves ev r2 t2 -> principal (where_at ev t1) a -> principal (where_at ev t2) b -> Rabs (vy (where_at ev t1)) < h1 / 2 -> Rabs (vy (where_at ev t2)) < h2 / 2 ->
  lo < a + s < hi -> lo < b + s < hi -> Rabs (a - b) < PI -> ~ through r1 h1 r2 h2 lo hi blade s ev ->
  exists x t, blade x /\ lo < x < hi /\ t1 <= t <= t2 /\ azimuth (where_at ev t) (x - s).
Proof.
  intros R NG L1 L2 P1 P2 H1 H2 A B D N. assert (G : ~ in_gap blade (a + s) (b + s)) by (intros G; apply N; exists t1, t2, a, b; tauto).
  destruct (NG _ _ G) as (x & X & BW). pose proof (leaves_in_turn ev r1 r2 t1 t2 R L1 L2) as T12.
  assert (BW' : Rmin a b <= x - s <= Rmax a b /\ lo < x < hi).
  { destruct (Rle_lt_dec a b) as [H|H]; [rewrite Rmin_left, Rmax_right in * by lra; lra|rewrite Rmin_right, Rmax_left in * by lra; lra]. }
  destruct (path_meets ev t1 t2 a b (x - s) T12 (proj1 P1) (proj1 P2) D (proj1 BW')) as (t & T & AZ). exists x, t. tauto.
Qed.
