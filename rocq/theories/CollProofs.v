(** Proofs for C74. *)
From Coq Require Import Reals Lra Psatz Sorting.
From Verif Require Import Base RotModel RotProofs ChanModel ChanProofs ShapeModel ShapeProofs UnitModel UnitSpec UnitProofs GridProofs CollModel CollSpec.
Open Scope R_scope.

(** as the component sees the position: z, x, y *)
Definition seen (p : vec3) : vec3 := mkV (vz p) (vx p) (vy p).
Definition qa (ev : event) := vz (e_v ev) * vz (e_v ev) + vx (e_v ev) * vx (e_v ev).
Definition qb (ev : event) := 2 * (vz (e_r ev) * vz (e_v ev) + vx (e_r ev) * vx (e_v ev)).
Definition qc (ev : event) (r : R) := vz (e_r ev) * vz (e_r ev) + vx (e_r ev) * vx (e_r ev) - r * r.
Lemma dist2_at ev r t : dist2 (where_at ev t) - r ^ 2 = qa ev * t * t + qb ev * t + qc ev r.
Proof. unfold dist2, where_at, qa, qb, qc. cbn [vx vy vz]. ring. Qed.
Lemma qa_nonneg ev : 0 <= qa ev. Proof. unfold qa. nra. Qed.
Lemma qa_zero ev : qa ev = 0 -> qb ev = 0. Proof. unfold qa, qb. intros H. assert (vz (e_v ev) = 0) by nra. assert (vx (e_v ev) = 0) by nra. nra. Qed.
Lemma leaves_unique ev r t t' : leaves ev r t -> leaves ev r t' -> t = t'.
Proof.
  intros [A B] [C D]. destruct (Rtotal_order t t') as [H|[H|H]]; [|exact H|].
  - specialize (B _ H). lra.
  - specialize (D _ H). lra.
Qed.
Lemma disc_nonneg a b c t : a * t * t + b * t + c = 0 -> 0 <= b * b - 4 * a * c.
Proof. intros H. replace (b * b - 4 * a * c) with ((2 * a * t + b) ^ 2 - 4 * a * (a * t * t + b * t + c)) by ring. rewrite H. pose proof (pow2_ge_0 (2 * a * t + b)). lra. Qed.
Lemma leaves_moves ev r t : leaves ev r t -> qa ev <> 0.
Proof.
  intros [A B] Z. pose proof (dist2_at ev r t) as D. pose proof (dist2_at ev r (t + 1)) as D1. specialize (B (t + 1) ltac:(lra)). rewrite Z, (qa_zero _ Z) in *. lra.
Qed.
Lemma intersect_some ev r p : intersectCylinder (seen (e_r ev)) (seen (e_v ev)) r = Some p -> exists t, leaves ev r t /\ p = seen (where_at ev t).
Proof.
  unfold intersectCylinder, seen. cbn [vx vy vz]. fold (qa ev) (qb ev) (qc ev r). unfold fsqrt.
  destruct (Rltb (qb ev * qb ev - 4 * qa ev * qc ev r) 0) eqn:N; [discriminate|]. apply Rltb_f in N. destruct (Reqb (qa ev) 0) eqn:Z; [discriminate|]. apply Reqb_f in Z.
  intros H; injection H as <-. set (s := sqrt _). assert (S0 : 0 <= s) by apply sqrt_pos. assert (SS : s * s = qb ev * qb ev - 4 * qa ev * qc ev r) by (apply sqrt_sqrt; lra).
  pose proof (qa_nonneg ev) as Q. exists ((s - qb ev) / 2 / qa ev). split.
  - assert (F : forall t, qa ev * t * t + qb ev * t + qc ev r = qa ev * (t - (s - qb ev) / 2 / qa ev) * (t - (- s - qb ev) / 2 / qa ev)).
    { intros t. replace (qc ev r) with ((qb ev * qb ev - s * s) / 4 / qa ev) by (rewrite SS; field; lra). field; lra. }
    split.
    + pose proof (dist2_at ev r ((s - qb ev) / 2 / qa ev)) as D. rewrite F in D. lra.
    + intros t' L. pose proof (dist2_at ev r t') as D. rewrite F in D. assert (0 <= s / qa ev) by (apply Rmult_le_pos; [lra|left; apply Rinv_0_lt_compat; lra]).
      assert (E : (s - qb ev) / 2 / qa ev = (- s - qb ev) / 2 / qa ev + s / qa ev) by (field; lra).
      assert (0 < (t' - (s - qb ev) / 2 / qa ev) * (t' - (- s - qb ev) / 2 / qa ev)) by (apply Rmult_lt_0_compat; lra).
      assert (0 < qa ev) by lra. rewrite Rmult_assoc in D. assert (0 < qa ev * ((t' - (s - qb ev) / 2 / qa ev) * (t' - (- s - qb ev) / 2 / qa ev))) by (apply Rmult_lt_0_compat; lra). lra.
  - unfold where_at. cbn [vx vy vz]. f_equal; ring.
Qed.
Lemma intersect_none ev r : intersectCylinder (seen (e_r ev)) (seen (e_v ev)) r = None -> forall t, ~ leaves ev r t.
Proof.
  unfold intersectCylinder, seen. cbn [vx vy vz]. fold (qa ev) (qb ev) (qc ev r). unfold fsqrt. intros H t L.
  pose proof (leaves_moves _ _ _ L) as Z. destruct L as [A B]. pose proof (dist2_at ev r t) as D. assert (DN := disc_nonneg (qa ev) (qb ev) (qc ev r) t ltac:(lra)).
  rewrite (proj2 (Rltb_f _ _)) in H by lra. rewrite (proj2 (Reqb_f _ _)) in H by exact Z. discriminate.
Qed.

(** angles *)
Lemma azimuth_far p phi : azimuth p phi -> 0 < dist2 p.
Proof. intros (rho & P & A & B). unfold dist2. rewrite A, B. pose proof (sin2_cos2 phi) as C. unfold Rsqr in C. assert ((rho * sin phi) ^ 2 + (rho * cos phi) ^ 2 = rho * rho) by (replace (rho * rho) with (rho * rho * (sin phi * sin phi + cos phi * cos phi)) by (rewrite C; ring); ring). nra. Qed.
Lemma principal_theta p phi : principal p phi -> arctan2 (vx p) (vz p) = phi.
Proof. intros [(rho & P & A & B) R]. rewrite A, B. apply arctan2_dir; assumption. Qed.
Lemma theta_principal p : 0 < dist2 p -> principal p (arctan2 (vx p) (vz p)).
Proof.
  intros P. unfold dist2 in P. assert (N : vz p <> 0 \/ vx p <> 0). { destruct (Req_dec (vz p) 0) as [Z|Z]; [right; intros Z'; rewrite Z, Z' in P; lra|now left]. }
  destruct (arctan2_range (vx p) (vz p) N) as (R & A & B). split; [|exact R]. exists (sqrt (vz p * vz p + vx p * vx p)). split; [apply sqrt_lt_R0; nra|]. split; assumption.
Qed.
Lemma principal_unique p a b : principal p a -> principal p b -> a = b.
Proof. intros A B. apply principal_theta in A, B. congruence. Qed.

(** cells *)
Lemma gap_even lo d a b : 0 < d -> (floorZ ((a - lo) / d) = floorZ ((b - lo) / d) <-> in_gap (at_blade_even lo d) a b).
Proof.
  intros D.
  assert (K : forall k x, lo + IZR k * d <= x <-> (k <= floorZ ((x - lo) / d))%Z).
  { intros k x. split.
    - intros H. apply floor_ge. apply Rmult_le_reg_r with d; [exact D|]. unfold Rdiv. rewrite Rmult_assoc, Rinv_l by lra. lra.
    - intros H. destruct (floor_bounds ((x - lo) / d)) as [F _]. apply IZR_le in H. assert (G : IZR k <= (x - lo) / d) by lra.
      apply (Rmult_le_compat_r d) in G; [|lra]. unfold Rdiv in G. rewrite Rmult_assoc, Rinv_l in G by lra. lra. }
  split.
  - intros E x [k]. rewrite !K, E. reflexivity.
  - intros G. set (m := floorZ ((a - lo) / d)). set (n := floorZ ((b - lo) / d)).
    pose proof (G _ (at_even lo d m)) as G1. pose proof (G _ (at_even lo d n)) as G2. rewrite !K in G1, G2. fold m n in G1, G2. lia.
Qed.
Lemma above_le l a b : a <= b -> (not_above a l <= not_above b l)%nat.
Proof.
  intros H. unfold not_above. induction l as [|x l IH]; [cbn; lia|]. cbn [filter]. destruct (Rleb x a) eqn:A.
  - apply Rleb_true in A. rewrite (proj2 (Rleb_true x b)) by lra. cbn [List.length]. lia.
  - destruct (Rleb x b); cbn [List.length]; lia.
Qed.
Lemma above_eq l a b : a <= b -> not_above a l = not_above b l -> forall x, In x l -> x <= b -> x <= a.
Proof.
  intros H. unfold not_above. induction l as [|y l IH]; [intros _ x []|]. intros E x [->|I] B.
  - cbn [filter] in E. rewrite (proj2 (Rleb_true x b)) in E by exact B. destruct (Rleb x a) eqn:A; [now apply Rleb_true|].
    pose proof (above_le l a b H) as L. unfold not_above in L. cbn [List.length] in E. lia.
  - apply IH; [|exact I|exact B]. pose proof (above_le l a b H) as L. unfold not_above in L. cbn [filter] in E. destruct (Rleb y a) eqn:A.
    + apply Rleb_true in A. rewrite (proj2 (Rleb_true y b)) in E by lra. cbn [List.length] in E. lia.
    + destruct (Rleb y b); cbn [List.length] in E; lia.
Qed.
Lemma gap_listed l a b : not_above a l = not_above b l <-> in_gap (fun x => In x l) a b.
Proof.
  split.
  - intros E x I. destruct (Rle_lt_dec a b) as [H|H].
    + split; [lra|]. now apply (above_eq l).
    + split; [|lra]. apply (above_eq l); [lra|now symmetry|exact I].
  - intros G. unfold not_above. f_equal. apply filter_ext_in. intros x I. specialize (G x I). destruct (Rleb x a) eqn:A, (Rleb x b) eqn:B; try reflexivity.
    + apply Rleb_true in A. apply Rleb_false in B. apply G in A. lra.
    + apply Rleb_true in B. apply Rleb_false in A. apply G in B. lra.
Qed.
Lemma ordered_test l : in_order l -> non_decreasing l = true.
Proof.
  induction 1 as [|x l S IH F]; [reflexivity|]. destruct l as [|y l]; [reflexivity|]. cbn [non_decreasing] in *. rewrite IH, Bool.andb_true_r. apply Rleb_true. apply (Forall_inv F).
Qed.
Lemma test_ordered l : non_decreasing l = true -> in_order l.
Proof.
  induction l as [|x l IH]; [constructor|]. destruct l as [|y l]; [constructor; [constructor|constructor]|]. cbn [non_decreasing]. intros H. apply andb_prop in H. destruct H as [A B]. specialize (IH B).
  constructor; [exact IH|]. apply Rleb_true in A. constructor; [exact A|]. inversion IH as [|? ? S F]; subst. revert F. apply Forall_impl. intros z. lra.
Qed.

(** the test of one neutron *)
Lemma good_iff c u ev lo hi blade (same : R -> R -> bool) :
  0 < c_radius1 c -> 0 < c_radius2 c -> range (c_blades c) = (lo, hi) ->
  (forall a b, same_cell (c_blades c) a b = Ok (same a b)) -> (forall a b, same a b = true <-> in_gap blade a b) ->
  exists g, good c u ev = Ok g /\ (g = true <-> through (c_radius1 c) (c_height1 c) (c_radius2 c) (c_height2 c) lo hi blade (c_oscillation c * u) ev).
Proof.
  intros R1 R2 RG SC SG. unfold good. change (mkV (vz (e_r ev)) (vx (e_r ev)) (vy (e_r ev))) with (seen (e_r ev)). change (mkV (vz (e_v ev)) (vx (e_v ev)) (vy (e_v ev))) with (seen (e_v ev)).
  destruct (intersectCylinder (seen (e_r ev)) (seen (e_v ev)) (c_radius1 c)) as [p1|] eqn:I1.
  2:{ rewrite SC. exists false. split; [reflexivity|]. split; [discriminate|]. intros (t1 & t2 & a & b & L & _). now apply (intersect_none _ _ I1) in L. }
  destruct (intersectCylinder (seen (e_r ev)) (seen (e_v ev)) (c_radius2 c)) as [p2|] eqn:I2.
  2:{ rewrite SC. exists false. split; [reflexivity|]. split; [discriminate|]. intros (t1 & t2 & a & b & _ & L & _). now apply (intersect_none _ _ I2) in L. }
  rewrite RG, SC. cbn [bind].
  apply intersect_some in I1, I2. destruct I1 as (t1 & L1 & ->), I2 as (t2 & L2 & ->). unfold seen at 1 2 3 4 5 6 7 8 9 10 11 12 13 14 15 16. cbn [vx vy vz].
  set (q1 := where_at ev t1) in *. set (q2 := where_at ev t2) in *. set (s := c_oscillation c * u). eexists. split; [reflexivity|].
  assert (P1 : principal q1 (arctan2 (vx q1) (vz q1))). { apply theta_principal. unfold q1. rewrite (proj1 L1). nra. }
  assert (P2 : principal q2 (arctan2 (vx q2) (vz q2))). { apply theta_principal. unfold q2. rewrite (proj1 L2). nra. }
  unfold seen; cbn [vx vy vz]. rewrite !Bool.andb_true_iff, !Rltb_t, SG. split.
  - intros ((((((((A & B) & C) & D) & E) & F) & G) & H) & K). exists t1, t2, (arctan2 (vx q1) (vz q1)), (arctan2 (vx q2) (vz q2)).
    fold q1 q2. split; [exact L1|]. split; [exact L2|]. split; [apply Rabs_def1; lra|]. split; [apply Rabs_def1; lra|]. split; [exact P1|]. split; [exact P2|]. split; [lra|]. split; [lra|]. exact K.
  - intros (u1 & u2 & a & b & M1 & M2 & H1 & H2 & Q1 & Q2 & A & B & K). assert (u1 = t1) by (apply (leaves_unique ev _ _ _ M1 L1)). assert (u2 = t2) by (apply (leaves_unique ev _ _ _ M2 L2)). subst u1 u2. fold q1 in H1, Q1. fold q2 in H2, Q2.
    pose proof (principal_unique _ _ _ Q1 P1) as ->. pose proof (principal_unique _ _ _ Q2 P2) as ->. apply Rabs_def2 in H1, H2. split; [repeat split; lra|exact K].
Qed.
Lemma select_those c us l P : (forall u ev, exists g, good c u ev = Ok g /\ (g = true <-> P u ev)) -> exists out, collimate c us l = Ok out /\ those P us l out.
Proof.
  intros H. assert (E : collimate c us l = select c us l) by (destruct l; reflexivity). rewrite E. clear E. revert us. induction l as [|ev l IH]; intros us; [exists []; split; [reflexivity|constructor]|].
  cbn [select]. destruct (H (hd 0 us) ev) as (g & -> & G). destruct (IH (tl us)) as (out & -> & T). cbn [bind]. destruct g.
  - exists (ev :: out). split; [reflexivity|]. constructor; [now apply G|exact T].
  - exists out. split; [reflexivity|]. constructor; [|exact T]. intros X. apply G in X. discriminate.
Qed.
Lemma even_process r1 h1 r2 h2 lo hi d osc c us l : new_coll r1 h1 r2 h2 (Some lo) (Some hi) (Some d) None osc = Ok c -> 0 < r1 -> 0 < r2 -> 0 < d ->
  exists out, collimate c us l = Ok out /\ those (fun u => through r1 h1 r2 h2 lo hi (at_blade_even lo d) (osc * u)) us l out.
Proof.
  cbn. intros E R1 R2 D. injection E as <-. apply select_those. intros u ev.
  apply (good_iff (mkColl r1 h1 r2 h2 (Even lo hi d) osc) u ev lo hi (at_blade_even lo d) (fun a b => Z.eqb (floorZ ((a - lo) / d)) (floorZ ((b - lo) / d)))); cbn; try assumption; try reflexivity.
  - intros a b. rewrite (proj2 (Reqb_f d 0)) by lra. reflexivity.
  - intros a b. rewrite Z.eqb_eq. now apply gap_even.
Qed.
Lemma listed_process r1 h1 r2 h2 lo l hi osc c us ns : new_coll r1 h1 r2 h2 None None None (Some (lo :: l)) osc = Ok c -> last (lo :: l) 0 = hi -> 0 < r1 -> 0 < r2 -> in_order (lo :: l) ->
  exists out, collimate c us ns = Ok out /\ those (fun u => through r1 h1 r2 h2 lo hi (fun x => In x (lo :: l)) (osc * u)) us ns out.
Proof.
  unfold new_coll. intros E EH R1 R2 D. rewrite EH in E. assert (EC : c = mkColl r1 h1 r2 h2 (Listed lo hi (lo :: l)) osc) by congruence. rewrite EC. clear E EC. apply select_those. intros u ev.
  apply (good_iff (mkColl r1 h1 r2 h2 (Listed lo hi (lo :: l)) osc) u ev lo hi (fun x => In x (lo :: l)) (fun a b => Nat.eqb (not_above a (lo :: l)) (not_above b (lo :: l)))); cbn [c_radius1 c_radius2 c_blades range]; try assumption; try reflexivity.
  - intros a b. cbn [same_cell]. unfold digitize. rewrite (ordered_test _ D). reflexivity.
  - intros a b. rewrite Nat.eqb_eq. apply gap_listed.
Qed.
