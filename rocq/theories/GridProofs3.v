(** Proofs for C42. *)
From Coq Require Import Reals Lra Psatz.
From Verif Require Import Base RotModel DetModel ChanModel ShapeModel GridModel GridSpec ChanProofs ShapeProofs GridProofs GridProofs2.
Open Scope R_scope.

Definition vol (b1 b2 b3 : vec3) : R := vdot b1 (vcross b2 b3).
Lemma inversions b1 b2 b3 : vol b1 b2 b3 <> 0 ->
  get_inversions b1 b2 b3 = Some (vscale (1 / vol b1 b2 b3) (vcross b2 b3), vscale (1 / vol b1 b2 b3) (vcross b3 b1), vscale (1 / vol b1 b2 b3) (vcross b1 b2)).
Proof. intros V. unfold get_inversions. fold (vol b1 b2 b3). rewrite (proj2 (Reqb_f _ _) V). reflexivity. Qed.
(* the coordinates of a vector *)
Definition co1 (b1 b2 b3 Q : vec3) : R := vdot (vscale (1 / vol b1 b2 b3) (vcross b2 b3)) Q.
Definition co2 (b1 b2 b3 Q : vec3) : R := vdot (vscale (1 / vol b1 b2 b3) (vcross b3 b1)) Q.
Definition co3 (b1 b2 b3 Q : vec3) : R := vdot (vscale (1 / vol b1 b2 b3) (vcross b1 b2)) Q.
Lemma co_comb b1 b2 b3 x y z : vol b1 b2 b3 <> 0 ->
  co1 b1 b2 b3 (comb b1 b2 b3 x y z) = x /\ co2 b1 b2 b3 (comb b1 b2 b3 x y z) = y /\ co3 b1 b2 b3 (comb b1 b2 b3 x y z) = z.
Proof.
  intros V. unfold co1, co2, co3, comb, vol, vdot, vscale, vcross in *. cbn [vx vy vz] in *.
  repeat split; field; exact V.
Qed.
Lemma comb_co b1 b2 b3 Q : vol b1 b2 b3 <> 0 -> comb b1 b2 b3 (co1 b1 b2 b3 Q) (co2 b1 b2 b3 Q) (co3 b1 b2 b3 Q) = Q.
Proof.
  intros V. unfold co1, co2, co3, comb, vol, vdot, vscale, vcross in *. cbn [vx vy vz] in *. destruct Q as [q1 q2 q3]. cbn [vx vy vz].
  f_equal; field; exact V.
Qed.
Lemma comb_add b1 b2 b3 x y z x' y' z' : vadd (comb b1 b2 b3 x y z) (comb b1 b2 b3 x' y' z') = comb b1 b2 b3 (x + x') (y + y') (z + z').
Proof. unfold vadd, comb. cbn [vx vy vz]. f_equal; ring. Qed.
Lemma vol_indep b1 b2 b3 : vol b1 b2 b3 <> 0 -> independent b1 b2 b3.
Proof.
  intros V x y z E. destruct (co_comb b1 b2 b3 x y z V) as (A & B & C). rewrite E in A, B, C.
  unfold co1, co2, co3, vdot in *. cbn [vx vy vz] in *. lra.
Qed.
Lemma indep_vol b1 b2 b3 : independent b1 b2 b3 -> vol b1 b2 b3 <> 0.
Proof.
  intros I V.
  assert (W : forall w, vdot w (vcross b2 b3) = 0 /\ vdot w (vcross b3 b1) = 0 /\ vdot w (vcross b1 b2) = 0).
  { intros w. apply I. unfold vol, comb, vdot, vcross in *. cbn [vx vy vz] in *.
    f_equal.
    - transitivity (vx w * (vx b1 * (vy b2 * vz b3 - vz b2 * vy b3) + vy b1 * (vz b2 * vx b3 - vx b2 * vz b3) + vz b1 * (vx b2 * vy b3 - vy b2 * vx b3))); [ring|rewrite V; ring].
    - transitivity (vy w * (vx b1 * (vy b2 * vz b3 - vz b2 * vy b3) + vy b1 * (vz b2 * vx b3 - vx b2 * vz b3) + vz b1 * (vx b2 * vy b3 - vy b2 * vx b3))); [ring|rewrite V; ring].
    - transitivity (vz w * (vx b1 * (vy b2 * vz b3 - vz b2 * vy b3) + vy b1 * (vz b2 * vx b3 - vx b2 * vz b3) + vz b1 * (vx b2 * vy b3 - vy b2 * vx b3))); [ring|rewrite V; ring]. }
  assert (C : vcross b1 b2 = mkV 0 0 0).
  { destruct (W (mkV 1 0 0)) as (_ & _ & A). destruct (W (mkV 0 1 0)) as (_ & _ & B). destruct (W (mkV 0 0 1)) as (_ & _ & D).
    unfold vdot in *. cbn [vx vy vz] in A, B, D. unfold vcross in *. cbn [vx vy vz] in *. f_equal; lra. }
  assert (Z : forall w, vdot w b1 = 0).
  { intros w. destruct (I (vdot w b2) (- vdot w b1) 0) as (_ & A & _); [|lra].
    unfold vcross in C. injection C as Cx Cy Cz. unfold comb, vdot. cbn [vx vy vz].
    f_equal.
    - transitivity (vy w * (vx b1 * vy b2 - vy b1 * vx b2) - vz w * (vz b1 * vx b2 - vx b1 * vz b2)); [ring|]. rewrite Cy, Cz. ring.
    - transitivity (vz w * (vy b1 * vz b2 - vz b1 * vy b2) - vx w * (vx b1 * vy b2 - vy b1 * vx b2)); [ring|]. rewrite Cx, Cz. ring.
    - transitivity (vx w * (vz b1 * vx b2 - vx b1 * vz b2) - vy w * (vy b1 * vz b2 - vz b1 * vy b2)); [ring|]. rewrite Cx, Cy. ring. }
  assert (A := Z (mkV 1 0 0)). assert (B := Z (mkV 0 1 0)). assert (D := Z (mkV 0 0 1)). unfold vdot in A, B, D. cbn [vx vy vz] in A, B, D.
  destruct (I 1 0 0) as (E & _ & _); [|lra]. unfold comb. f_equal; lra.
Qed.
Lemma indep_iff b1 b2 b3 : independent b1 b2 b3 <-> vol b1 b2 b3 <> 0.
Proof. split; [apply indep_vol|apply vol_indep]. Qed.

Lemma decimal_frac x : frac (decimal_part x).
Proof. unfold frac, decimal_part. pose proof (floor_bounds x). lra. Qed.
Lemma decimal_shift x k : decimal_part (x + IZR k) = decimal_part x.
Proof.
  unfold decimal_part. rewrite (floor_unique (x + IZR k) (floorZ x + k)).
  - rewrite plus_IZR. ring.
  - rewrite plus_IZR. pose proof (floor_bounds x). lra.
Qed.
Lemma decimal_id x : frac x -> decimal_part x = x.
Proof. intros [A B]. unfold decimal_part. rewrite (floor_unique x 0) by lra. lra. Qed.
Lemma decimal_int x : exists k, x = decimal_part x + IZR k.
Proof. exists (floorZ x). unfold decimal_part. ring. Qed.

Lemma reduced_comb b1 b2 b3 x y z : independent b1 b2 b3 ->
  reducedQ b1 b2 b3 (comb b1 b2 b3 x y z) = Some (comb b1 b2 b3 (decimal_part x) (decimal_part y) (decimal_part z)).
Proof.
  intros I. apply indep_vol in I. unfold reducedQ. rewrite inversions by exact I.
  destruct (co_comb b1 b2 b3 x y z I) as (A & B & C). fold (co1 b1 b2 b3 (comb b1 b2 b3 x y z)). fold (co2 b1 b2 b3 (comb b1 b2 b3 x y z)). fold (co3 b1 b2 b3 (comb b1 b2 b3 x y z)).
  rewrite A, B, C. reflexivity.
Qed.
Lemma coordinates b1 b2 b3 Q : independent b1 b2 b3 -> exists x y z, Q = comb b1 b2 b3 x y z.
Proof. intros I. apply indep_vol in I. do 3 eexists. symmetry. apply comb_co. exact I. Qed.

Theorem reduced : forall b1 b2 b3 Q, independent b1 b2 b3 ->
  exists q, reducedQ b1 b2 b3 Q = Some q
    /\ (exists x y z, frac x /\ frac y /\ frac z /\ q = comb b1 b2 b3 x y z)
    /\ (exists h k l, Q = vadd q (comb b1 b2 b3 (IZR h) (IZR k) (IZR l))).
Proof.
  intros b1 b2 b3 Q I. destruct (coordinates b1 b2 b3 Q I) as (x & y & z & ->).
  rewrite reduced_comb by exact I. eexists. split; [reflexivity|]. split.
  - exists (decimal_part x), (decimal_part y), (decimal_part z). repeat (split; [apply decimal_frac|]). reflexivity.
  - destruct (decimal_int x) as [h H]. destruct (decimal_int y) as [k K]. destruct (decimal_int z) as [l L]. exists h, k, l.
    rewrite comb_add, <- H, <- K, <- L. reflexivity.
Qed.
Theorem reduced_shift : forall b1 b2 b3 Q h k l, independent b1 b2 b3 ->
  reducedQ b1 b2 b3 (vadd Q (comb b1 b2 b3 (IZR h) (IZR k) (IZR l))) = reducedQ b1 b2 b3 Q.
Proof.
  intros b1 b2 b3 Q h k l I. destruct (coordinates b1 b2 b3 Q I) as (x & y & z & ->). rewrite comb_add, !reduced_comb by exact I.
  rewrite !decimal_shift. reflexivity.
Qed.
Theorem reduced_inside : forall b1 b2 b3 x y z, independent b1 b2 b3 -> frac x -> frac y -> frac z ->
  reducedQ b1 b2 b3 (comb b1 b2 b3 x y z) = Some (comb b1 b2 b3 x y z).
Proof. intros b1 b2 b3 x y z I X Y Z. rewrite reduced_comb by exact I. rewrite !decimal_id by assumption. reflexivity. Qed.
Theorem periodic_energy : forall core b1 b2 b3, independent b1 b2 b3 ->
  let d := periodic core b1 b2 b3 in
  (forall branch Q h k l, energy d branch (vadd Q (comb b1 b2 b3 (IZR h) (IZR k) (IZR l))) = energy d branch Q)
  /\ (forall branch atom Q h k l, polarization d branch atom (vadd Q (comb b1 b2 b3 (IZR h) (IZR k) (IZR l))) = polarization d branch atom Q)
  /\ (forall branch x y z, frac x -> frac y -> frac z -> energy d branch (comb b1 b2 b3 x y z) = energy core branch (comb b1 b2 b3 x y z))
  /\ (forall branch atom x y z, frac x -> frac y -> frac z ->
        polarization d branch atom (comb b1 b2 b3 x y z) = polarization core branch atom (comb b1 b2 b3 x y z)).
Proof.
  intros core b1 b2 b3 I. cbv zeta. unfold periodic; cbn [energy polarization].
  split; [|split; [|split]]; intros.
  - rewrite reduced_shift by exact I. reflexivity.
  - rewrite reduced_shift by exact I. reflexivity.
  - rewrite reduced_inside by assumption. reflexivity.
  - rewrite reduced_inside by assumption. reflexivity.
Qed.

(** ** the dispersion made from the files *)
Lemma extremum_min : forall l v, extremum Rmin l = Ok v -> In v l /\ forall x, In x l -> v <= x.
Proof.
  assert (H : forall l a, (fold_left Rmin l a = a \/ In (fold_left Rmin l a) l) /\ fold_left Rmin l a <= a /\ forall x, In x l -> fold_left Rmin l a <= x).
  { induction l as [|b l IH]; intros a; cbn [fold_left].
    - split; [left; reflexivity|]. split; [lra|intros x []].
    - destruct (IH (Rmin a b)) as (A & B & C). split; [|split].
      + destruct A as [A|A]; [|right; right; exact A]. rewrite A. assert (E : Rmin a b = a \/ Rmin a b = b) by (unfold Rmin; destruct (Rle_dec a b); auto); destruct E as [E|E]; rewrite E; [left; reflexivity|right; left; reflexivity].
      + eapply Rle_trans; [exact B|apply Rmin_l].
      + intros x [<-|X]; [eapply Rle_trans; [exact B|apply Rmin_r]|apply C; exact X]. }
  intros [|a l] v; [discriminate|]. intros [= <-]. destruct (H l a) as (A & B & C). split.
  - destruct A as [A|A]; [left; symmetry; exact A|right; exact A].
  - intros x [<-|X]; [exact B|apply C; exact X].
Qed.
Lemma extremum_max : forall l v, extremum Rmax l = Ok v -> In v l /\ forall x, In x l -> x <= v.
Proof.
  assert (H : forall l a, (fold_left Rmax l a = a \/ In (fold_left Rmax l a) l) /\ a <= fold_left Rmax l a /\ forall x, In x l -> x <= fold_left Rmax l a).
  { induction l as [|b l IH]; intros a; cbn [fold_left].
    - split; [left; reflexivity|]. split; [lra|intros x []].
    - destruct (IH (Rmax a b)) as (A & B & C). split; [|split].
      + destruct A as [A|A]; [|right; right; exact A]. rewrite A. assert (E : Rmax a b = a \/ Rmax a b = b) by (unfold Rmax; destruct (Rle_dec a b); auto); destruct E as [E|E]; rewrite E; [left; reflexivity|right; left; reflexivity].
      + eapply Rle_trans; [apply Rmax_l|exact B].
      + intros x [<-|X]; [eapply Rle_trans; [apply Rmax_r|exact B]|apply C; exact X]. }
  intros [|a l] v; [discriminate|]. intros [= <-]. destruct (H l a) as (A & B & C). split.
  - destruct A as [A|A]; [left; symmetry; exact A|right; exact A].
  - intros x [<-|X]; [exact B|apply C; exact X].
Qed.
Lemma mapM_nth {A B} (f : A -> result B) : forall l r, mapM f l = Ok r ->
  List.length r = List.length l /\ forall i a, nth_error l i = Some a -> exists b, f a = Ok b /\ nth_error r i = Some b.
Proof.
  induction l as [|a l IH]; intros r H; cbn [mapM] in H.
  - injection H as <-. split; [reflexivity|]. intros [|i] a; discriminate.
  - destruct (f a) as [b|] eqn:F; [|discriminate]. cbn [bind] in H. destruct (mapM f l) as [r'|]; [|discriminate]. cbn [bind] in H. injection H as <-.
    destruct (IH r' eq_refl) as [L N]. split; [cbn; congruence|]. intros [|i] a' E; cbn in *.
    + injection E as <-. eauto.
    + apply N. exact E.
Qed.
Lemma mapM_ok {A B} (f : A -> result B) : forall l, (forall a, In a l -> exists b, f a = Ok b) -> exists r, mapM f l = Ok r.
Proof.
  induction l as [|a l IH]; intros H; [eexists; reflexivity|]. cbn [mapM].
  destruct (H a (or_introl eq_refl)) as [b ->]. destruct IH as [r ->]; [intros; apply H; right; assumption|]. eexists. reflexivity.
Qed.
Lemma in_column e b v : In v (column e b) <-> exists i j k, (i < e0 e)%nat /\ (j < e1 e)%nat /\ (k < e2 e)%nat /\ v = cell4 e i j k b.
Proof.
  unfold column, indices. rewrite in_map_iff. split.
  - intros ([[i j] k] & E & H). apply in_prod_iff in H. destruct H as [H K]. apply in_prod_iff in H. destruct H as [I J].
    apply in_seq in I, J, K. exists i, j, k. repeat split; try lia. symmetry. exact E.
  - intros (i & j & k & I & J & K & ->). exists (i, j, k). split; [reflexivity|]. rewrite !in_prod_iff, !in_seq. lia.
Qed.
Lemma unit_axis_ok n : (2 <= n)%nat -> unit_axis n = Ok (mkAxis 0 (1 / INR (n - 1)) (n - 1)).
Proof. intros H. destruct n as [|[|n]]; [lia|lia|]. cbn [unit_axis]. rewrite Nat.sub_1_r. reflexivity. Qed.
Lemma unit_axis_inv n a : unit_axis n = Ok a -> (2 <= n)%nat /\ a = mkAxis 0 (1 / INR (n - 1)) (n - 1).
Proof. intros H. assert (2 <= n)%nat by (destruct n as [|[|n]]; [discriminate|discriminate|lia]). rewrite unit_axis_ok in H by assumption. injection H as <-. auto. Qed.

Definition uaxis (n : nat) : axis := mkAxis 0 (1 / INR (n - 1)) (n - 1).
Definition reduced_matrix (b1 b2 b3 : vec3) : mat3 :=
  let a1 := vscale (1 / vol b1 b2 b3) (vcross b2 b3) in let a2 := vscale (1 / vol b1 b2 b3) (vcross b3 b1) in let a3 := vscale (1 / vol b1 b2 b3) (vcross b1 b2) in
  mkM (vx a1) (vy a1) (vz a1) (vx a2) (vy a2) (vz a2) (vx a3) (vy a3) (vz a3).
Lemma inverse_ok b1 b2 b3 : independent b1 b2 b3 -> inverse_of_columns b1 b2 b3 = Ok (reduced_matrix b1 b2 b3).
Proof. intros I. apply indep_vol in I. unfold inverse_of_columns. rewrite inversions by exact I. reflexivity. Qed.
Lemma inverse_bad b1 b2 b3 : ~ independent b1 b2 b3 -> inverse_of_columns b1 b2 b3 = Err ValueError.
Proof.
  intros I. rewrite indep_iff in I. unfold inverse_of_columns, get_inversions. fold (vol b1 b2 b3).
  destruct (Reqb (vol b1 b2 b3) 0) eqn:E; [reflexivity|]. apply Reqb_f in E. contradiction.
Qed.
Lemma matrix_comb b1 b2 b3 x y z : independent b1 b2 b3 -> dot_mv (reduced_matrix b1 b2 b3) (comb b1 b2 b3 x y z) = mkV x y z.
Proof.
  intros I. apply indep_vol in I. destruct (co_comb b1 b2 b3 x y z I) as (A & B & C). unfold dot_mv, reduced_matrix. cbv zeta. cbn [m00 m01 m02 m10 m11 m12 m20 m21 m22].
  f_equal; [exact A|exact B|exact C].
Qed.

Theorem made_iff : forall natoms b1 b2 b3 n1 n2 n3 p e,
  (exists d, periodicdispersion_fromidf natoms (b1, n1) (b2, n2) (b3, n3) p e = Ok d) <-> (independent b1 b2 b3 /\ fits natoms n1 n2 n3 p e).
Proof.
  intros natoms b1 b2 b3 n1 n2 n3 p e. unfold periodicdispersion_fromidf, linearlyinterpolateddispersion_3d. cbn [fst snd]. split.
  - intros [d H].
    destruct (unit_axis n1) as [x|] eqn:X; [|discriminate]. destruct (unit_axis n2) as [y|] eqn:Y; [|discriminate]. destruct (unit_axis n3) as [z|] eqn:Z; [|discriminate].
    apply unit_axis_inv in X, Y, Z. destruct X as [N1 ->]. destruct Y as [N2 ->]. destruct Z as [N3 ->].
    cbn [bind] in H. destruct (extrema Rmin e) as [mins|]; [|discriminate]. cbn [bind] in H. destruct (extrema Rmax e) as [maxs|]; [|discriminate]. cbn [bind] in H.
    destruct (dispersion_on_grid _ _ _ _ _ _ _ _) as [core|] eqn:D; [|discriminate]. cbn [bind] in H. split.
    + destruct (inverse_of_columns b1 b2 b3) as [m|] eqn:M; [|discriminate]. apply indep_iff. intros V.
      rewrite inverse_bad in M; [discriminate|]. rewrite indep_iff. tauto.
    + unfold dispersion_on_grid in D. destruct (negb _) eqn:E in D; [discriminate|]. apply negb_false_iff in E. cbn [a_n] in E.
      repeat (apply andb_prop in E; destruct E as [E ?]). repeat match goal with K : Nat.eqb _ _ = true |- _ => apply Nat.eqb_eq in K end.
      unfold fits. lia.
  - intros (I & (N1 & N2 & N3) & (E0 & E1 & E2 & E3) & (P0 & P1 & P2 & P3 & P4 & P5 & P6)).
    rewrite !unit_axis_ok by assumption. cbn [bind].
    assert (NE : forall b, column e b <> []).
    { intros b C. assert (K : In (cell4 e 0 0 0 b) (column e b)) by (apply in_column; exists 0%nat, 0%nat, 0%nat; repeat split; lia). rewrite C in K. destruct K. }
    destruct (mapM_ok (fun b => extremum Rmin (column e b)) (seq 0 (e3 e))) as [mins M].
    { intros b _. specialize (NE b). destruct (column e b); [contradiction|]. eexists. reflexivity. }
    destruct (mapM_ok (fun b => extremum Rmax (column e b)) (seq 0 (e3 e))) as [maxs M'].
    { intros b _. specialize (NE b). destruct (column e b); [contradiction|]. eexists. reflexivity. }
    unfold extrema. rewrite M, M'. cbn [bind]. apply mapM_nth in M, M'. destruct M as [L _]. destruct M' as [L' _]. rewrite seq_length in L, L'.
    unfold dispersion_on_grid. cbn [a_n].
    replace (negb (Nat.eqb (p0 p) (S (n1 - 1)) && Nat.eqb (p1 p) (S (n2 - 1)) && Nat.eqb (p2 p) (S (n3 - 1)) && Nat.eqb (p3 p) (3 * natoms) &&
                   Nat.eqb (p4 p) natoms && Nat.eqb (p5 p) 3 && Nat.eqb (p6 p) 2 && Nat.eqb (e0 e) (S (n1 - 1)) && Nat.eqb (e1 e) (S (n2 - 1)) &&
                   Nat.eqb (e2 e) (S (n3 - 1)) && Nat.eqb (e3 e) (3 * natoms))) with false.
    2: { symmetry. apply negb_false_iff. repeat (apply andb_true_intro; split); apply Nat.eqb_eq; lia. }
    replace (negb (Nat.eqb (List.length mins) (3 * natoms) && Nat.eqb (List.length maxs) (3 * natoms))) with false.
    2: { symmetry. apply negb_false_iff. apply andb_true_intro; split; apply Nat.eqb_eq; lia. }
    cbn [bind]. rewrite inverse_ok by exact I. cbn [bind]. eexists. reflexivity.
Qed.

(* what the made dispersion does, in coordinates *)
Lemma made_is : forall natoms b1 b2 b3 n1 n2 n3 p e d,
  periodicdispersion_fromidf natoms (b1, n1) (b2, n2) (b3, n3) p e = Ok d ->
  (forall branch x y z, (branch < 3 * natoms)%nat ->
     energy d branch (comb b1 b2 b3 x y z) = energy_at (uaxis n1) (uaxis n2) (uaxis n3) e branch (mkV (decimal_part x) (decimal_part y) (decimal_part z)))
  /\ (forall branch atom x y z, (branch < 3 * natoms)%nat -> (atom < natoms)%nat ->
     polarization d branch atom (comb b1 b2 b3 x y z) = polarization_at (uaxis n1) (uaxis n2) (uaxis n3) p branch atom (mkV (decimal_part x) (decimal_part y) (decimal_part z)))
  /\ (forall branch, (branch < 3 * natoms)%nat -> exists lo hi, min_energy d branch = Ok lo /\ max_energy d branch = Ok hi
        /\ In lo (column e branch) /\ In hi (column e branch) /\ forall v, In v (column e branch) -> lo <= v <= hi).
Proof.
  intros natoms b1 b2 b3 n1 n2 n3 p e d H.
  destruct (proj1 (made_iff natoms b1 b2 b3 n1 n2 n3 p e) (ex_intro _ d H)) as [I F].
  unfold periodicdispersion_fromidf, linearlyinterpolateddispersion_3d in H. cbn [fst snd] in H.
  destruct F as ((N1 & N2 & N3) & (E0 & E1 & E2 & E3) & _).
  rewrite !unit_axis_ok in H by assumption. cbn [bind] in H. fold (uaxis n1) (uaxis n2) (uaxis n3) in H.
  destruct (extrema Rmin e) as [mins|] eqn:M; [|discriminate]. cbn [bind] in H. destruct (extrema Rmax e) as [maxs|] eqn:M'; [|discriminate]. cbn [bind] in H.
  destruct (dispersion_on_grid natoms (uaxis n1) (uaxis n2) (uaxis n3) p e mins maxs) as [core|] eqn:D; [|discriminate]. cbn [bind] in H.
  rewrite inverse_ok in H by exact I. cbn [bind] in H. injection H as <-.
  unfold dispersion_on_grid in D. destruct (negb _) in D; [discriminate|]. destruct (negb _) in D; [discriminate|]. injection D as <-.
  split; [|split].
  - intros branch x y z B. cbn [energy periodic change_coordinates]. rewrite reduced_comb by exact I. cbn [at_reduced]. rewrite matrix_comb by exact I.
    rewrite (proj2 (Nat.ltb_lt _ _)) by lia. reflexivity.
  - intros branch atom x y z B A. cbn [polarization periodic change_coordinates]. rewrite reduced_comb by exact I. cbn [at_reduced]. rewrite matrix_comb by exact I.
    rewrite !(proj2 (Nat.ltb_lt _ _)) by lia. reflexivity.
  - intros branch B. cbn [min_energy max_energy periodic change_coordinates].
    unfold extrema in M, M'. apply mapM_nth in M, M'. destruct M as [_ M]. destruct M' as [_ M'].
    assert (Sq : nth_error (seq 0 (e3 e)) branch = Some branch).
    { rewrite (nth_error_nth' _ 0%nat) by (rewrite seq_length; lia). rewrite seq_nth by lia. reflexivity. }
    destruct (M _ _ Sq) as (lo & L & Nl). destruct (M' _ _ Sq) as (hi & Hi & Nh). exists lo, hi. unfold vget. rewrite Nl, Nh.
    apply extremum_min in L. apply extremum_max in Hi. destruct L as [L1 L2]. destruct Hi as [H1 H2].
    repeat (split; [reflexivity||assumption|]). intros v V. split; auto.
Qed.
