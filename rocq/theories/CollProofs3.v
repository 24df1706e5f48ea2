(** Proofs for C74: oscillating collimators, wrong lists, and examples. *)
From Coq Require Import Reals Lra Psatz Sorting.
From Coquelicot Require Import Coquelicot.
From Verif Require Import Base RotModel RotProofs ChanModel ChanProofs ShapeModel ShapeProofs ScatSpec UnitModel UnitSpec UnitProofs GridProofs CollModel CollSpec CollProofs CollProofs2.
Open Scope R_scope.

Lemma int_const f p q x : p <= q -> (forall u, p < u < q -> f u = x) -> is_RInt f p q ((q - p) * x).
Proof.
  intros L H. apply (@is_RInt_ext R_NormedModule (fun _ => x)).
  - intros u. rewrite Rmin_left, Rmax_right by lra. intros U. symmetry. now apply H.
  - pose proof (@is_RInt_const R_NormedModule p q x) as K. exact K.
Qed.
Lemma int_steps f p q x y z : 0 <= p <= q -> q <= 1 -> (forall u, 0 < u < p -> f u = x) -> (forall u, p < u < q -> f u = y) -> (forall u, q < u < 1 -> f u = z) ->
  is_RInt f 0 1 (p * x + (q - p) * y + (1 - q) * z).
Proof.
  intros P Q A B C. apply (@is_RInt_Chasles R_NormedModule f 0 q 1).
  - apply (@is_RInt_Chasles R_NormedModule f 0 p q).
    + replace (p * x) with ((p - 0) * x) by ring. apply int_const; [lra|exact A].
    + apply int_const; [lra|exact B].
  - apply int_const; [lra|exact C].
Qed.
Lemma int_eq (f : R -> R) (v w : R) : is_RInt f 0 1 v -> v = w -> is_RInt f 0 1 w. Proof. now intros H <-. Qed.
Lemma floor_shift n f u : 0 <= f < 1 -> 0 < u < 1 -> (u < 1 - f -> floorZ (IZR n + f + u) = n) /\ (1 - f <= u -> floorZ (IZR n + f + u) = (n + 1)%Z).
Proof. intros F U. split; intros H; apply floor_unique; rewrite ?plus_IZR; lra. Qed.
Lemma mean_same_le A B : A <= B -> is_RInt (fun u => if Z.eqb (floorZ (A + u)) (floorZ (B + u)) then 1 else 0) 0 1 (Rmax 0 (1 - (B - A))).
Proof.
  intros L. destruct (floor_bounds A) as [A1 A2], (floor_bounds B) as [B1 B2]. set (m := floorZ A) in *. set (n := floorZ B) in *.
  set (f := A - IZR m). set (g := B - IZR n). assert (EA : A = IZR m + f) by (unfold f; ring). assert (EB : B = IZR n + g) by (unfold g; ring).
  assert (F : 0 <= f < 1) by (unfold f; lra). assert (G : 0 <= g < 1) by (unfold g; lra). clearbody f g. clearbody m n. subst A B.
  pose proof (fun u => floor_shift m f u F) as SM. pose proof (fun u => floor_shift n g u G) as SN.
  assert (MN : (m <= n)%Z). { destruct (Z_le_gt_dec m n) as [H|H]; [exact H|]. assert (IZR n + 1 <= IZR m) by (rewrite <- plus_IZR; apply IZR_le; lia). lra. }
  destruct (Z.eq_dec m n) as [<-|N1]; [|destruct (Z.eq_dec n (m + 1)) as [->|N2]].
  - rewrite Rmax_right by lra. replace (1 - (IZR m + g - (IZR m + f))) with ((1 - g) * 1 + ((1 - f) - (1 - g)) * 0 + (1 - (1 - f)) * 1) by ring.
    apply int_steps; try lra; intros u U; destruct (SM u ltac:(lra)) as [SM1 SM2], (SN u ltac:(lra)) as [SN1 SN2].
    + rewrite SM1, SN1 by lra. now rewrite Z.eqb_refl.
    + rewrite SM1, SN2 by lra. destruct (Z.eqb_spec m (m + 1)); [lia|reflexivity].
    + rewrite SM2, SN2 by lra. now rewrite Z.eqb_refl.
  - pose proof (plus_IZR m 1) as PM. destruct (Rle_lt_dec f g) as [H|H].
    + rewrite Rmax_left by lra. apply (int_eq _ ((1 - g) * 0 + ((1 - f) - (1 - g)) * 0 + (1 - (1 - f)) * 0)); [|ring].
      apply int_steps; try lra; intros u U; destruct (SM u ltac:(lra)) as [SM1 SM2], (SN u ltac:(lra)) as [SN1 SN2].
      * rewrite SM1, SN1 by lra. destruct (Z.eqb_spec m (m + 1)); [lia|reflexivity].
      * rewrite SM1, SN2 by lra. destruct (Z.eqb_spec m (m + 1 + 1)); [lia|reflexivity].
      * rewrite SM2, SN2 by lra. destruct (Z.eqb_spec (m + 1) (m + 1 + 1)); [lia|reflexivity].
    + rewrite Rmax_right by lra. apply (int_eq _ ((1 - f) * 0 + ((1 - g) - (1 - f)) * 1 + (1 - (1 - g)) * 0)); [|rewrite PM; ring].
      apply int_steps; try lra; intros u U; destruct (SM u ltac:(lra)) as [SM1 SM2], (SN u ltac:(lra)) as [SN1 SN2].
      * rewrite SM1, SN1 by lra. destruct (Z.eqb_spec m (m + 1)); [lia|reflexivity].
      * rewrite SM2, SN1 by lra. now rewrite Z.eqb_refl.
      * rewrite SM2, SN2 by lra. destruct (Z.eqb_spec (m + 1) (m + 1 + 1)); [lia|reflexivity].
  - assert (IZR m + 2 <= IZR n) by (rewrite <- plus_IZR; apply IZR_le; lia). rewrite Rmax_left by lra. pose proof (int_const (fun u => if Z.eqb (floorZ (IZR m + f + u)) (floorZ (IZR n + g + u)) then 1 else 0) 0 1 0 ltac:(lra)) as K.
    rewrite Rmult_0_r in K. apply K. intros u U. destruct (Z.eqb_spec (floorZ (IZR m + f + u)) (floorZ (IZR n + g + u))) as [E|E]; [|reflexivity]. exfalso.
    destruct (SM u U) as [SM1 SM2], (SN u U) as [SN1 SN2]. destruct (Rlt_le_dec u (1 - f)), (Rlt_le_dec u (1 - g)); rewrite ?SM1, ?SM2, ?SN1, ?SN2 in E by lra; lia.
Qed.
Lemma mean_same A B : is_RInt (fun u => if Z.eqb (floorZ (A + u)) (floorZ (B + u)) then 1 else 0) 0 1 (Rmax 0 (1 - Rabs (B - A))).
Proof.
  destruct (Rle_lt_dec A B) as [L|L].
  - rewrite Rabs_right by lra. now apply mean_same_le.
  - rewrite Rabs_left1 by lra. replace (- (B - A)) with (A - B) by ring. apply (@is_RInt_ext R_NormedModule (fun u => if Z.eqb (floorZ (B + u)) (floorZ (A + u)) then 1 else 0)).
    + intros u _. now rewrite Z.eqb_sym.
    + apply mean_same_le. lra.
Qed.
Lemma one_those P u ev out : those P [u] [ev] out -> (P u ev /\ out = [ev]) \/ (~ P u ev /\ out = []).
Proof. intros H. inversion H as [|? ? ? ? A B|? ? ? ? A B]; subst; inversion B; subst; [left|right]; split; trivial. Qed.
Lemma one_kept (P : R -> event -> Prop) c u ev : (exists out, collimate c [u] [ev] = Ok out /\ those P [u] [ev] out) -> P u ev -> collimate c [u] [ev] = Ok [ev].
Proof. intros (out & E & T) H. apply one_those in T. destruct T as [[_ ->]|[N _]]; [exact E|contradiction]. Qed.
Lemma one_lost (P : R -> event -> Prop) c u ev : (exists out, collimate c [u] [ev] = Ok out /\ those P [u] [ev] out) -> ~ P u ev -> collimate c [u] [ev] = Ok [].
Proof. intros (out & E & T) H. apply one_those in T. destruct T as [[N _]|[_ ->]]; [contradiction|exact E]. Qed.
Lemma mean_through r1 h1 r2 h2 lo hi d c ev t1 t2 a b : new_coll r1 h1 r2 h2 (Some lo) (Some hi) (Some d) None d = Ok c -> 0 < r1 -> 0 < r2 -> 0 < d ->
  leaves ev r1 t1 -> leaves ev r2 t2 -> principal (where_at ev t1) a -> principal (where_at ev t2) b -> Rabs (vy (where_at ev t1)) < h1 / 2 -> Rabs (vy (where_at ev t2)) < h2 / 2 ->
  lo < a -> a + d <= hi -> lo < b -> b + d <= hi ->
  mean1 (fun u => match collimate c [u] [ev] with Ok l => INR (List.length l) | Err _ => 0 end) (Rmax 0 (1 - Rabs (b - a) / d)).
Proof.
  intros NC R1 R2 D L1 L2 P1 P2 H1 H2 A1 A2 B1 B2. unfold mean1.
  replace (Rabs (b - a) / d) with (Rabs ((b - lo) / d - (a - lo) / d)).
  2:{ replace ((b - lo) / d - (a - lo) / d) with ((b - a) * / d) by (field; lra). rewrite Rabs_mult, (Rabs_right (/ d)); [reflexivity|]. apply Rle_ge; left; now apply Rinv_0_lt_compat. }
  eapply is_RInt_ext; [|apply mean_same]. intros u. rewrite Rmin_left, Rmax_right by lra. intros U.
  pose proof (even_process _ _ _ _ _ _ _ _ _ [u] [ev] NC R1 R2 D) as EP.
  assert (DU : 0 < d * u < d) by nra.
  replace ((a - lo) / d + u) with ((a + d * u - lo) / d) by (field; lra). replace ((b - lo) / d + u) with ((b + d * u - lo) / d) by (field; lra).
  destruct (Z.eqb_spec (floorZ ((a + d * u - lo) / d)) (floorZ ((b + d * u - lo) / d))) as [E|E].
  - rewrite (one_kept _ _ _ _ EP); [cbn; ring|]. cbn [hd]. exists t1, t2, a, b. apply gap_even in E; [|exact D]. repeat split; try assumption; try lra; try apply L1; try apply L2; try apply P1; try apply P2; try (now apply E).
  - rewrite (one_lost _ _ _ _ EP); [reflexivity|]. intros (u1 & u2 & a' & b' & M1 & M2 & _ & _ & Q1 & Q2 & _ & _ & G). assert (u1 = t1) by (apply (leaves_unique ev _ _ _ M1 L1)). assert (u2 = t2) by (apply (leaves_unique ev _ _ _ M2 L2)). subst u1 u2.
    pose proof (principal_unique _ _ _ Q1 P1) as ->. pose proof (principal_unique _ _ _ Q2 P2) as ->. apply E. now apply gap_even.
Qed.

(** lists that are not in order *)
Lemma unordered c us ev ns r1 h1 r2 h2 l osc : new_coll r1 h1 r2 h2 None None None (Some l) osc = Ok c -> ~ in_order l -> ~ in_order (rev l) -> collimate c us (ev :: ns) = Err ValueError.
Proof.
  intros N A B. destruct l as [|x l]; [discriminate|]. assert (EC : c = mkColl r1 h1 r2 h2 (Listed x (last (x :: l) 0) (x :: l)) osc) by (unfold new_coll in N; congruence). rewrite EC. clear N EC.
  assert (S : forall a b, same_cell (Listed x (last (x :: l) 0) (x :: l)) a b = Err ValueError).
  { intros a b. cbn [same_cell]. unfold digitize. destruct (non_decreasing (x :: l)) eqn:E; [exfalso; apply A; now apply test_ordered|]. destruct (non_decreasing (rev (x :: l))) eqn:F; [exfalso; apply B; now apply test_ordered|]. reflexivity. }
  cbn [collimate select]. unfold good. cbn [c_blades range]. destruct (intersectCylinder _ _ _); [destruct (intersectCylinder _ _ _)|]; rewrite S; reflexivity.
Qed.
Lemma decreasing c us ns r1 h1 r2 h2 l osc : new_coll r1 h1 r2 h2 None None None (Some l) osc = Ok c -> in_order (rev l) -> last l 0 < hd 0 l -> collimate c us ns = Ok [].
Proof.
  intros N A B. destruct l as [|x l]; [discriminate|]. assert (EC : c = mkColl r1 h1 r2 h2 (Listed x (last (x :: l) 0) (x :: l)) osc) by (unfold new_coll in N; congruence). rewrite EC. clear N EC.
  assert (S : exists f, forall a b, same_cell (Listed x (last (x :: l) 0) (x :: l)) a b = Ok (f a b)).
  { cbn [same_cell]. unfold digitize. rewrite (ordered_test _ A). destruct (non_decreasing (x :: l)); eexists; intros a b; cbn [bind]; reflexivity. }
  destruct S as [f S]. set (hi := last (x :: l) 0) in *. change (hi < x) in B. set (c' := mkColl r1 h1 r2 h2 (Listed x hi (x :: l)) osc) in *.
  assert (G : forall u ev, good c' u ev = Ok false).
  { intros u ev. unfold good. cbn [c_blades c' range]. destruct (intersectCylinder _ _ _) as [p1|]; [destruct (intersectCylinder _ _ _) as [p2|]|]; rewrite !S; cbn [bind]; try reflexivity.
    f_equal.
    destruct (Rltb x (arctan2 (vy p1) (vx p1) + c_oscillation c' * u)) eqn:E1; [|now rewrite ?Bool.andb_false_r]. apply Rltb_t in E1.
    rewrite (proj2 (Rltb_f (arctan2 (vy p1) (vx p1) + c_oscillation c' * u) hi)) by lra. now rewrite ?Bool.andb_false_r. }
  assert (Q : forall ns us, select c' us ns = Ok []) by (induction ns0 as [|ev l' IH]; intros us0; [reflexivity|cbn [select]; rewrite G, IH; reflexivity]).
  unfold collimate. destruct ns; [reflexivity|apply Q].
Qed.

(** a neutron one metre off the axis *)
Definition off_axis (z0 : R) : event := RotModel.mkE (mkV 1 0 z0) (mkV 0 0 1) 0 1 0 1.
Lemma off_dist z0 t : dist2 (where_at (off_axis z0) t) = 1 + (z0 + t) ^ 2.
Proof. unfold dist2, where_at, off_axis. cbn [RotModel.e_r RotModel.e_v vx vy vz]. ring. Qed.
Lemma off_height z0 t : vy (where_at (off_axis z0) t) = 0.
Proof. unfold where_at, off_axis. cbn [RotModel.e_r RotModel.e_v vx vy vz]. ring. Qed.
Lemma off_first z0 : leaves (off_axis z0) (sqrt 2) (1 - z0).
Proof. split; [|intros t' L]; rewrite off_dist; rewrite pow2_sqrt by lra; [ring|nra]. Qed.
Lemma off_second z0 : leaves (off_axis z0) 2 (sqrt 3 - z0).
Proof.
  assert (S : sqrt 3 * sqrt 3 = 3) by (apply sqrt_sqrt; lra). assert (P : 0 < sqrt 3) by (apply sqrt_lt_R0; lra). split; [|intros t' L]; rewrite off_dist.
  - replace (z0 + (sqrt 3 - z0)) with (sqrt 3) by ring. lra.
  - nra.
Qed.
Lemma off_angle1 z0 : principal (where_at (off_axis z0) (1 - z0)) (PI / 4).
Proof.
  split; [|pose proof PI_RGT_0; lra]. exists (sqrt 2). rewrite sin_PI4, cos_PI4. assert (P : 0 < sqrt 2) by (apply sqrt_lt_R0; lra). unfold where_at, off_axis. cbn [RotModel.e_r RotModel.e_v vx vy vz].
  split; [exact P|]. split; field; lra.
Qed.
Lemma off_angle2 z0 : principal (where_at (off_axis z0) (sqrt 3 - z0)) (PI / 6).
Proof.
  split; [|pose proof PI_RGT_0; lra]. exists 2. rewrite sin_PI6, cos_PI6. unfold where_at, off_axis. cbn [RotModel.e_r RotModel.e_v vx vy vz].
  split; [lra|]. split; field.
Qed.
Lemma sqrt2_range : 0 < sqrt 2 < 2.
Proof. split; [apply sqrt_lt_R0; lra|]. assert (0 < sqrt 2) by (apply sqrt_lt_R0; lra). assert (sqrt 2 * sqrt 2 = 2) by (apply sqrt_sqrt; lra). nra. Qed.
Lemma off_through lo hi blade s z0 : lo < PI / 4 + s < hi -> lo < PI / 6 + s < hi -> in_gap blade (PI / 4 + s) (PI / 6 + s) -> through (sqrt 2) 1 2 1 lo hi blade s (off_axis z0).
Proof.
  intros A B G. exists (1 - z0), (sqrt 3 - z0), (PI / 4), (PI / 6). pose proof (off_height z0) as H.
  split; [apply off_first|]. split; [apply off_second|]. split; [rewrite H, Rabs_R0; lra|]. split; [rewrite H, Rabs_R0; lra|]. split; [apply off_angle1|]. split; [apply off_angle2|]. tauto.
Qed.
Lemma off_not_through lo hi blade s z0 : ~ in_gap blade (PI / 4 + s) (PI / 6 + s) -> ~ through (sqrt 2) 1 2 1 lo hi blade s (off_axis z0).
Proof.
  intros N (u1 & u2 & a & b & M1 & M2 & _ & _ & Q1 & Q2 & _ & _ & G). assert (u1 = 1 - z0) by (apply (leaves_unique _ _ _ _ M1 (off_first z0))). assert (u2 = sqrt 3 - z0) by (apply (leaves_unique _ _ _ _ M2 (off_second z0))). subst u1 u2.
  rewrite (principal_unique _ _ _ Q1 (off_angle1 z0)), (principal_unique _ _ _ Q2 (off_angle2 z0)) in G. contradiction.
Qed.
(** a neutron that flies back *)
Definition backward : event := RotModel.mkE (mkV 0 0 0) (mkV (- (1 / 2)) 0 (- (sqrt 3 / 2))) 0 1 0 1.
Lemma back_azimuth t : 0 < t -> azimuth (where_at backward t) (7 * (PI / 6)).
Proof.
  intros T. exists t. replace (7 * (PI / 6)) with (PI / 6 + PI) by field. rewrite neg_sin, neg_cos, sin_PI6, cos_PI6. unfold where_at, backward. cbn [RotModel.e_r RotModel.e_v vx vy vz].
  split; [exact T|]. split; field.
Qed.
Lemma back_principal t : 0 < t -> principal (where_at backward t) (- (5 * (PI / 6))).
Proof.
  intros T. split; [|pose proof PI_RGT_0; lra]. destruct (back_azimuth t T) as (rho & P & A & B). exists rho. replace (7 * (PI / 6)) with (- (5 * (PI / 6)) + 2 * PI) in A, B by field.
  rewrite cos_plus, cos_2PI, sin_2PI in A. rewrite sin_plus, cos_2PI, sin_2PI in B. split; [exact P|]. split; [rewrite A; ring|rewrite B; ring].
Qed.
Lemma back_leaves r : 0 < r -> leaves backward r r.
Proof.
  intros R. assert (S : sqrt 3 * sqrt 3 = 3) by (apply sqrt_sqrt; lra).
  assert (D : forall t, dist2 (where_at backward t) = t ^ 2). { intros t. unfold dist2, where_at, backward. cbn [RotModel.e_r RotModel.e_v vx vy vz]. replace ((0 + t * - (1 / 2)) ^ 2 + (0 + t * - (sqrt 3 / 2)) ^ 2) with (t ^ 2 * (1 + sqrt 3 * sqrt 3) / 4) by field. rewrite S. field. }
  split; [apply D|]. intros t' L. rewrite D. nra.
Qed.
