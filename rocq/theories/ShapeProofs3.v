(** Proofs for C36 and the two refutations of C35. *)
From Coq Require Import Reals Lra Psatz.
From Verif Require Import Base RotModel RotSpec ChanModel ChanProofs ShapeModel ShapeSpec ShapeProofs ShapeProofs2.
Open Scope R_scope.

Lemma boxable_list l : fold_right and True (map boxable l) <-> Forall boxable l.
Proof. apply fold_and_map. Qed.
Lemma rmin_l a b : Rmin a b <= a. Proof. apply Rmin_l. Qed.
Ltac minmax := unfold Rmin, Rmax in *; repeat match goal with |- context[Rle_dec ?a ?b] => destruct (Rle_dec a b) | H : context[Rle_dec ?a ?b] |- _ => destruct (Rle_dec a b) end.

Lemma unite_within a b p : within a p \/ within b p -> within (uniteBB a b) p.
Proof.
  unfold within, uniteBB. cbn [bcx bcy bcz bsx bsy bsz]. intros K.
  pose proof (Rmin_l (bcx a - bsx a / 2) (bcx b - bsx b / 2)). pose proof (Rmin_r (bcx a - bsx a / 2) (bcx b - bsx b / 2)).
  pose proof (Rmin_l (bcy a - bsy a / 2) (bcy b - bsy b / 2)). pose proof (Rmin_r (bcy a - bsy a / 2) (bcy b - bsy b / 2)).
  pose proof (Rmin_l (bcz a - bsz a / 2) (bcz b - bsz b / 2)). pose proof (Rmin_r (bcz a - bsz a / 2) (bcz b - bsz b / 2)).
  pose proof (Rmax_l (bcx a + bsx a / 2) (bcx b + bsx b / 2)). pose proof (Rmax_r (bcx a + bsx a / 2) (bcx b + bsx b / 2)).
  pose proof (Rmax_l (bcy a + bsy a / 2) (bcy b + bsy b / 2)). pose proof (Rmax_r (bcy a + bsy a / 2) (bcy b + bsy b / 2)).
  pose proof (Rmax_l (bcz a + bsz a / 2) (bcz b + bsz b / 2)). pose proof (Rmax_r (bcz a + bsz a / 2) (bcz b + bsz b / 2)).
  destruct K as [K|K]; lra.
Qed.
Lemma mid_range lo hi x : lo <= x <= hi -> (lo + hi) / 2 - Rmax (hi - lo) 0 / 2 <= x <= (lo + hi) / 2 + Rmax (hi - lo) 0 / 2.
Proof. intros K. rewrite Rmax_left; lra. Qed.
Lemma maxmin_range a b c d x : a <= x <= b -> c <= x <= d -> Rmax a c <= x <= Rmin b d.
Proof. intros [A B] [C D]. split; [apply Rmax_lub|apply Rmin_glb]; assumption. Qed.
Lemma intersect_within a b p : within a p -> within b p -> within (intersectBB a b) p.
Proof.
  unfold within, intersectBB. cbn [bcx bcy bcz bsx bsy bsz]. intros (A1 & A2 & A3) (B1 & B2 & B3).
  repeat split; apply mid_range; apply maxmin_range; assumption.
Qed.

Lemma cone_bound h R0 z x : 0 <= R0 -> 0 < h -> - h <= z <= 0 -> h * h * x <= R0 * R0 * (z * z) -> x <= R0 * R0.
Proof.
  intros HR Hh Hz K. assert (z * z <= h * h) by nra. assert (0 <= R0 * R0) by nra.
  assert (h * h * x <= h * h * (R0 * R0)) by nra. apply Rmult_le_reg_l with (h * h); nra.
Qed.
Lemma sq_range x R0 : 0 <= R0 -> x * x <= R0 * R0 -> - R0 <= x <= R0.
Proof. intros. split; nra. Qed.
Lemma pyr_bound h X z x : 0 <= X -> 0 < h -> - h <= z <= 0 -> 2 * h * Rabs x <= X * - z -> - (X / 2) <= x <= X / 2.
Proof.
  intros HX Hh Hz K. assert (2 * h * Rabs x <= X * h) by nra. assert (2 * Rabs x <= X) by (apply Rmult_le_reg_l with h; lra).
  assert (x <= Rabs x) by apply Rle_abs. assert (- x <= Rabs x) by (rewrite <- Rabs_Ropp; apply Rle_abs). lra.
Qed.
Lemma abs_bound X x : 2 * Rabs x <= X -> - (X / 2) <= x <= X / 2.
Proof. intros K. assert (x <= Rabs x) by apply Rle_abs. assert (- x <= Rabs x) by (rewrite <- Rabs_Ropp; apply Rle_abs). lra. Qed.

Definition holds_box (s : shape) : Prop := exists bb, bounding_box s = Ok bb /\ forall p, solid s p -> within bb p.
Lemma dil_range c s k x : 0 < k -> c - s / 2 <= 1 / k * x <= c + s / 2 -> c * k - s * k / 2 <= x <= c * k + s * k / 2.
Proof.
  intros Hk [A B]. apply (Rmult_le_compat_l k) in A; [|lra]. apply (Rmult_le_compat_l k) in B; [|lra].
  replace (k * (1 / k * x)) with x in A, B by (field; lra). lra.
Qed.
Lemma bb_loop_union l : Forall holds_box l -> forall b0, exists bb, bb_loop uniteBB bounding_box b0 l = Ok bb /\
  forall p, within b0 p \/ Exists (fun s => solid s p) l -> within bb p.
Proof.
  induction 1 as [|s l (b & E & H) _ IH]; intros b0; cbn [bb_loop].
  - exists b0. split; [reflexivity|]. intros p [K|K]; [assumption|inversion K].
  - rewrite E. cbn. destruct (IH (uniteBB b0 b)) as (bb & E' & H'). exists bb. split; [exact E'|].
    intros p [K|K]; apply H'.
    + left. apply unite_within. now left.
    + inversion K; subst; [left; apply unite_within; right; auto|now right].
Qed.
Lemma bb_loop_inter l : Forall holds_box l -> forall b0, exists bb, bb_loop intersectBB bounding_box b0 l = Ok bb /\
  forall p, within b0 p -> Forall (fun s => solid s p) l -> within bb p.
Proof.
  induction 1 as [|s l (b & E & H) _ IH]; intros b0; cbn [bb_loop].
  - exists b0. split; [reflexivity|]. intros p K _. assumption.
  - rewrite E. cbn. destruct (IH (intersectBB b0 b)) as (bb & E' & H'). exists bb. split; [exact E'|].
    intros p K F. inversion F; subst. apply H'; [|assumption]. apply intersect_within; auto.
Qed.
Lemma box_contains s : wf s -> boxable s -> holds_box s.
Proof.
  induction s using shape_ind2; intros W B; unfold holds_box.
  - eexists. split; [reflexivity|]. intros p (A1 & A2 & A3). cbn in *. apply abs_bound in A1, A2, A3. unfold within; cbn; lra.
  - eexists. split; [reflexivity|]. intros p (A1 & A2). cbn in *. apply abs_bound in A2.
    assert (K1 : vx p * vx p <= r * r) by nra. assert (K2 : vy p * vy p <= r * r) by nra.
    apply sq_range in K1, K2; [|tauto..]. unfold within; cbn; lra.
  - eexists. split; [reflexivity|]. intros p (A1 & A2 & A3 & A4). cbn in *.
    apply pyr_bound in A3, A4; [|tauto..]. unfold within; cbn; lra.
  - eexists. split; [reflexivity|]. intros p (A1 & A2 & A3). cbn in *. apply cone_bound in A3; [|tauto..].
    assert (K1 : vx p * vx p <= r * r) by nra. assert (K2 : vy p * vy p <= r * r) by nra.
    apply sq_range in K1, K2; [|tauto..]. unfold within; cbn; lra.
  - eexists. split; [reflexivity|]. intros p A. cbn in *.
    assert (K1 : vx p * vx p <= r * r) by nra. assert (K2 : vy p * vy p <= r * r) by nra. assert (K3 : vz p * vz p <= r * r) by nra.
    apply sq_range in K1, K2, K3; [|tauto..]. unfold within; cbn; lra.
  - destruct W as [W1 W2]. destruct IHs1 as (bb & E & K); [assumption..|]. exists bb. split; [exact E|].
    intros p A. apply solid_diff in A. apply K, A.
  - destruct B as [NE B]. apply boxable_list in B. apply wf_list in W.
    assert (HL : Forall holds_box l). { rewrite Forall_forall in *. intros s Hs. apply H; auto. }
    destruct l as [|s0 rest]; [congruence|]. inversion HL as [|? ? (b0 & E0 & K0) HL']; subst.
    destruct (bb_loop_inter rest HL' b0) as (bb & E & K). exists bb. split; [cbn [bounding_box]; rewrite E0; exact E|].
    intros p A. apply solid_inter in A. inversion A; subst. apply K; auto.
  - destruct B as [NE B]. apply boxable_list in B. apply wf_list in W.
    assert (HL : Forall holds_box l). { rewrite Forall_forall in *. intros s Hs. apply H; auto. }
    destruct l as [|s0 rest]; [congruence|]. pose proof HL as HL0. inversion HL as [|? ? (b0 & E0 & K0) HL']; subst.
    destruct (bb_loop_union (s0 :: rest) HL0 b0) as (bb & E & K). exists bb. split; [cbn [bounding_box]; rewrite E0; exact E|].
    intros p A. apply solid_union in A. apply K. now right.
  - destruct W as [W1 W2], B as [B1 B2]. destruct IHs as (bb & E & K); [assumption..|]. eexists. split; [cbn [bounding_box]; rewrite E; reflexivity|].
    intros p A. apply solid_dil in A; [|lra]. apply K in A. destruct A as (A1 & A2 & A3). cbn in A1, A2, A3.
    unfold within; cbn. repeat split; (eapply dil_range; [exact B2|eassumption]).
  - destruct IHs as (bb & E & K); [assumption..|]. eexists. split; [cbn [bounding_box]; rewrite E; reflexivity|].
    intros p A. apply solid_tr in A. apply K in A. unfold within in *; cbn in *; lra.
  - destruct B.
Qed.
Lemma box_members s : members s <-> exists bb, bounding_box s = Ok bb.
Proof.
  revert s.
  assert (LP : forall f l, Forall (fun s => members s <-> exists bb, bounding_box s = Ok bb) l -> forall b0,
     fold_right and True (map members l) <-> exists bb, bb_loop f bounding_box b0 l = Ok bb).
  { intros f l. induction 1 as [|s l A _ IH]; intros b0; cbn [bb_loop map fold_right].
    - split; eauto.
    - rewrite A. split.
      + intros [[b E] K]. rewrite E. cbn. apply IH. exact K.
      + intros [bb K]. destruct (bounding_box s) as [b|e] eqn:E; [|discriminate]. cbn in K. split; [eauto|]. eapply (IH (f b0 b)). eauto. }
  induction s using shape_ind2; cbn [members bounding_box]; try (split; eauto; fail).
  - exact IHs1.
  - destruct l as [|s0 rest]; [split; [intros [K _]; congruence|intros [bb K]; discriminate]|].
    inversion H; subst. cbn [map fold_right]. split.
    + intros [_ [K1 K2]]. apply H2 in K1 as [b0 E]. rewrite E. cbn. now apply (LP intersectBB).
    + intros [bb K]. split; [discriminate|]. destruct (bounding_box s0) as [b0|] eqn:E; [|discriminate]. cbn in K. split; [apply H2; eauto|].
      eapply (LP intersectBB); eauto.
  - destruct l as [|s0 rest]; [split; [intros [K _]; congruence|intros [bb K]; discriminate]|].
    pose proof H as HA. inversion H; subst. split.
    + intros [_ K]. pose proof K as K0. destruct K0 as [K1 K2]. apply H2 in K1 as [b0 E]. rewrite E. cbn [bind]. now apply (LP uniteBB).
    + intros [bb K]. split; [discriminate|]. destruct (bounding_box s0) as [b0|] eqn:E; [|discriminate]. eapply (LP uniteBB); eauto.
  - rewrite IHs. destruct (bounding_box s); cbn; split; intros [b E]; try discriminate; eauto.
  - rewrite IHs. destruct (bounding_box s); cbn; split; intros [b E]; try discriminate; eauto.
  - rewrite IHs. destruct (bounding_box s); cbn; split; intros [b E]; try discriminate; eauto.
Qed.

(** ** the box is not larger than needed *)
Definition touches (s : shape) (bb : bbox) : Prop :=
  (exists p, solid s p /\ vx p = bcx bb - bsx bb / 2) /\ (exists p, solid s p /\ vx p = bcx bb + bsx bb / 2) /\
  (exists p, solid s p /\ vy p = bcy bb - bsy bb / 2) /\ (exists p, solid s p /\ vy p = bcy bb + bsy bb / 2) /\
  (exists p, solid s p /\ vz p = bcz bb - bsz bb / 2) /\ (exists p, solid s p /\ vz p = bcz bb + bsz bb / 2).
Lemma touches_unite (P Q : vec3 -> Prop) a b :
  let t P bb := (exists p, P p /\ vx p = bcx bb - bsx bb / 2) /\ (exists p, P p /\ vx p = bcx bb + bsx bb / 2) /\
  (exists p, P p /\ vy p = bcy bb - bsy bb / 2) /\ (exists p, P p /\ vy p = bcy bb + bsy bb / 2) /\
  (exists p, P p /\ vz p = bcz bb - bsz bb / 2) /\ (exists p, P p /\ vz p = bcz bb + bsz bb / 2) in
  t P a -> t Q b -> t (fun p => P p \/ Q p) (uniteBB a b).
Proof.
  intros t (A1 & A2 & A3 & A4 & A5 & A6) (B1 & B2 & B3 & B4 & B5 & B6). unfold t, uniteBB. cbn [bcx bcy bcz bsx bsy bsz]. clear t.
  assert (lo : forall u w f, (exists p, P p /\ f p = u) -> (exists p : vec3, Q p /\ f p = w) -> forall z, z = Rmin u w -> exists p, (P p \/ Q p) /\ f p = z).
  { intros u w f (p & Hp & Ep) (q & Hq & Eq) z ->. unfold Rmin. destruct (Rle_dec u w); [exists p|exists q]; auto. }
  assert (hi : forall u w f, (exists p, P p /\ f p = u) -> (exists p : vec3, Q p /\ f p = w) -> forall z, z = Rmax u w -> exists p, (P p \/ Q p) /\ f p = z).
  { intros u w f (p & Hp & Ep) (q & Hq & Eq) z ->. unfold Rmax. destruct (Rle_dec u w); [exists q|exists p]; auto. }
  repeat split.
  - eapply lo; [exact A1|exact B1|lra].
  - eapply hi; [exact A2|exact B2|lra].
  - eapply lo; [exact A3|exact B3|lra].
  - eapply hi; [exact A4|exact B4|lra].
  - eapply lo; [exact A5|exact B5|lra].
  - eapply hi; [exact A6|exact B6|lra].
Qed.
Lemma touch_loop (P0 : vec3 -> Prop) l : Forall (fun s => exists bb, bounding_box s = Ok bb /\ touches s bb) l ->
  forall (P : vec3 -> Prop) b0 bb,
  let t P bb := (exists p, P p /\ vx p = bcx bb - bsx bb / 2) /\ (exists p, P p /\ vx p = bcx bb + bsx bb / 2) /\
  (exists p, P p /\ vy p = bcy bb - bsy bb / 2) /\ (exists p, P p /\ vy p = bcy bb + bsy bb / 2) /\
  (exists p, P p /\ vz p = bcz bb - bsz bb / 2) /\ (exists p, P p /\ vz p = bcz bb + bsz bb / 2) in
  t P b0 -> (forall p, P p -> P0 p) -> (forall s p, In s l -> solid s p -> P0 p) -> bb_loop uniteBB bounding_box b0 l = Ok bb -> t P0 bb.
Proof.
  induction 1 as [|s l (b & E & T) _ IH]; intros P b0 bb t HP M ML; cbn [bb_loop].
  - intros K. injection K as <-. destruct HP as ((p1 & X1) & (p2 & X2) & (p3 & X3) & (p4 & X4) & (p5 & X5) & (p6 & X6)).
    repeat split; [exists p1|exists p2|exists p3|exists p4|exists p5|exists p6]; split; try apply M; tauto.
  - rewrite E. cbn [bind]. intros K. refine (IH (fun p => P p \/ solid s p) (uniteBB b0 b) bb _ _ _ K).
    + apply touches_unite; assumption.
    + intros p [A|A]; [auto|]. apply (ML s); [now left|assumption].
    + intros s' p A. apply ML. now right.
Qed.
Lemma frac_abs a X : 0 <= X -> -1 <= a <= 1 -> 2 * Rabs (a * (X / 2)) <= X.
Proof. intros HX Ha. assert (a * X <= X) by nra. assert (- X <= a * X) by nra. unfold Rabs; destruct (Rcase_abs _); lra. Qed.
Lemma box_touches s : wf s -> boxable s -> uncut s -> exists bb, bounding_box s = Ok bb /\ touches s bb.
Proof.
  induction s using shape_ind2; intros W B U; try destruct U.
  - cbn in W. eexists. split; [reflexivity|]. unfold touches. cbn [bcx bcy bcz bsx bsy bsz].
    assert (K : forall a, - 1 <= a <= 1 -> forall b, -1 <= b <= 1 -> forall c, -1 <= c <= 1 -> solid (Box X Y Z) (mkV (a * (X / 2)) (b * (Y / 2)) (c * (Z / 2)))).
    { intros a Ha b Hb c Hc. cbn. repeat split; apply frac_abs; tauto. }
    repeat split; [exists (mkV (-1 * (X / 2)) (0 * (Y / 2)) (0 * (Z / 2)))|exists (mkV (1 * (X / 2)) (0 * (Y / 2)) (0 * (Z / 2)))
      |exists (mkV (0 * (X / 2)) (-1 * (Y / 2)) (0 * (Z / 2)))|exists (mkV (0 * (X / 2)) (1 * (Y / 2)) (0 * (Z / 2)))
      |exists (mkV (0 * (X / 2)) (0 * (Y / 2)) (-1 * (Z / 2)))|exists (mkV (0 * (X / 2)) (0 * (Y / 2)) (1 * (Z / 2)))];
      (split; [apply K; lra|cbn; lra]).
  - cbn in W. eexists. split; [reflexivity|]. unfold touches. cbn [bcx bcy bcz bsx bsy bsz].
    assert (K : forall a b c, a * a + b * b <= 1 -> -1 <= c <= 1 -> solid (Cylinder r h) (mkV (a * r) (b * r) (c * (h / 2)))).
    { intros a b c Hab Hc. cbn. split; [assert (0 <= r * r) by nra; nra|]. apply frac_abs; tauto. }
    repeat split; [exists (mkV (-1 * r) (0 * r) (0 * (h / 2)))|exists (mkV (1 * r) (0 * r) (0 * (h / 2)))
      |exists (mkV (0 * r) (-1 * r) (0 * (h / 2)))|exists (mkV (0 * r) (1 * r) (0 * (h / 2)))
      |exists (mkV (0 * r) (0 * r) (-1 * (h / 2)))|exists (mkV (0 * r) (0 * r) (1 * (h / 2)))];
      (split; [apply K; lra|cbn; lra]).
  - cbn in W. eexists. split; [reflexivity|]. unfold touches. cbn [bcx bcy bcz bsx bsy bsz].
    assert (K : forall a, -1 <= a <= 1 -> forall b, -1 <= b <= 1 -> solid (Pyramid X Y h) (mkV (a * (X / 2)) (b * (Y / 2)) (- h))).
    { intros a Ha b Hb. cbn. destruct W as (W1 & W2 & W3). pose proof (frac_abs a X W1 Ha). pose proof (frac_abs b Y W2 Hb). repeat split; try lra; nra. }
    repeat split; [exists (mkV (-1 * (X / 2)) (0 * (Y / 2)) (- h))|exists (mkV (1 * (X / 2)) (0 * (Y / 2)) (- h))
      |exists (mkV (0 * (X / 2)) (-1 * (Y / 2)) (- h))|exists (mkV (0 * (X / 2)) (1 * (Y / 2)) (- h))
      |exists (mkV (0 * (X / 2)) (0 * (Y / 2)) (- h))|exists (mkV 0 0 0)].
    1-5: (split; [apply K; lra|cbn; lra]).
    split; [|cbn; lra]. cbn. rewrite Rabs_R0. lra.
  - cbn in W. eexists. split; [reflexivity|]. unfold touches. cbn [bcx bcy bcz bsx bsy bsz].
    assert (K : forall a b, a * a + b * b <= 1 -> solid (Cone r h) (mkV (a * r) (b * r) (- h))).
    { intros a b Hab. cbn. repeat split; try lra. assert (0 <= h * h * (r * r)) by (apply Rmult_le_pos; nra). nra. }
    repeat split; [exists (mkV (-1 * r) (0 * r) (- h))|exists (mkV (1 * r) (0 * r) (- h))
      |exists (mkV (0 * r) (-1 * r) (- h))|exists (mkV (0 * r) (1 * r) (- h))
      |exists (mkV (0 * r) (0 * r) (- h))|exists (mkV 0 0 0)].
    1-5: (split; [apply K; lra|cbn; lra]).
    split; [|cbn; lra]. cbn. lra.
  - cbn in W. eexists. split; [reflexivity|]. unfold touches. cbn [bcx bcy bcz bsx bsy bsz].
    assert (K : forall a b c, a * a + b * b + c * c <= 1 -> solid (Sphere r) (mkV (a * r) (b * r) (c * r))).
    { intros a b c Hab. cbn. assert (0 <= r * r) by nra; nra. }
    repeat split; [exists (mkV (-1 * r) (0 * r) (0 * r))|exists (mkV (1 * r) (0 * r) (0 * r))
      |exists (mkV (0 * r) (-1 * r) (0 * r))|exists (mkV (0 * r) (1 * r) (0 * r))
      |exists (mkV (0 * r) (0 * r) (-1 * r))|exists (mkV (0 * r) (0 * r) (1 * r))];
      (split; [apply K; lra|cbn; lra]).
  - destruct B as [NE B]. apply boxable_list in B. apply wf_list in W. cbn in U. apply (fold_and_map uncut) in U.
    assert (HL : Forall (fun s => exists bb, bounding_box s = Ok bb /\ touches s bb) l). { rewrite Forall_forall in *. intros s Hs. apply H; auto. }
    destruct l as [|s0 rest]; [congruence|]. pose proof HL as HL0. inversion HL as [|? ? (b0 & E0 & K0) HL']; subst.
    destruct (proj1 (box_members (Union (s0 :: rest)))) as [bb E].
    { cbn [members]. split; [discriminate|]. apply fold_and_map. rewrite Forall_forall in *. intros s Hs. apply box_members. destruct (HL0 s Hs) as (b & K & _). eauto. }
    exists bb. split; [exact E|]. cbn [bounding_box] in E. rewrite E0 in E. cbn [bind] in E.
    refine (touch_loop (solid (Union (s0 :: rest))) (s0 :: rest) HL0 (solid s0) b0 bb K0 _ _ E).
    + intros p A. apply solid_union. now left.
    + intros s p A A'. apply solid_union, Exists_exists. eauto.
  - destruct W as [W1 W2], B as [B1 B2]. destruct IHs as (bb & E & T); [assumption..|]. eexists. split; [cbn [bounding_box]; rewrite E; reflexivity|].
    destruct T as ((p1 & X1 & Y1) & (p2 & X2 & Y2) & (p3 & X3 & Y3) & (p4 & X4 & Y4) & (p5 & X5 & Y5) & (p6 & X6 & Y6)).
    unfold touches. cbn [bcx bcy bcz bsx bsy bsz].
    repeat split; [exists (vscale k p1)|exists (vscale k p2)|exists (vscale k p3)|exists (vscale k p4)|exists (vscale k p5)|exists (vscale k p6)];
      (split; [apply solid_dil; [lra|]; rewrite vscale_inv2 by lra; assumption|]); cbn; [rewrite Y1|rewrite Y2|rewrite Y3|rewrite Y4|rewrite Y5|rewrite Y6]; lra.
  - destruct IHs as (bb & E & T); [assumption..|]. eexists. split; [cbn [bounding_box]; rewrite E; reflexivity|].
    destruct T as ((p1 & X1 & Y1) & (p2 & X2 & Y2) & (p3 & X3 & Y3) & (p4 & X4 & Y4) & (p5 & X5 & Y5) & (p6 & X6 & Y6)).
    unfold touches. cbn [bcx bcy bcz bsx bsy bsz].
    repeat split; [exists (vadd p1 v)|exists (vadd p2 v)|exists (vadd p3 v)|exists (vadd p4 v)|exists (vadd p5 v)|exists (vadd p6 v)];
      (split; [apply solid_tr; rewrite vsub_vadd; assumption|]); cbn; lra.
Qed.
(** so any box that holds the body holds the reported one *)
Lemma box_smallest s bb bb' : wf s -> boxable s -> uncut s -> bounding_box s = Ok bb ->
  (forall p, solid s p -> within bb' p) -> forall p, within bb p -> within bb' p.
Proof.
  intros W B U E K p A. destruct (box_touches s W B U) as (b & E' & ((p1 & X1 & Y1) & (p2 & X2 & Y2) & (p3 & X3 & Y3) & (p4 & X4 & Y4) & (p5 & X5 & Y5) & (p6 & X6 & Y6))).
  rewrite E in E'. injection E' as <-. apply K in X1, X2, X3, X4, X5, X6. unfold within in *. lra.
Qed.

(** ** rotations *)
Lemma norm2_dist a b : norm2 (vsub a b) = (vx a - vx b) * (vx a - vx b) + (vy a - vy b) * (vy a - vy b) + (vz a - vz b) * (vz a - vz b).
Proof. reflexivity. Qed.
Lemma rot_norm2 m p c : orthogonal m -> norm2 (vsub p (dot_mv m c)) = norm2 (vsub (dot_mv (transpose m) p) c).
Proof.
  intros O0. assert (E : vsub p (dot_mv m c) = dot_mv m (vsub (dot_mv (transpose m) p) c)).
  { rewrite <- (orth_right m p O0) at 1. apply vec_eq; cbn; ring. }
  rewrite E. exact (O0 _ _).
Qed.
Lemma sq_half a u : 0 <= u -> - u / 2 <= a <= u / 2 -> a * a <= u * u / 4.
Proof. intros. nra. Qed.
Lemma sq3_bound a u : 0 <= u -> a * a <= 3 * (u * u / 4) -> - (sqrt 3 * u) / 2 <= a <= sqrt 3 * u / 2.
Proof.
  intros Hu K. assert (S : sqrt 3 * sqrt 3 = 3) by (apply sqrt_sqrt; lra). assert (P : 0 <= sqrt 3) by apply sqrt_pos.
  set (w := sqrt 3 * u / 2). assert (0 <= w) by (unfold w; apply Rmult_le_pos; [apply Rmult_le_pos; lra|lra]).
  assert (a * a <= w * w). { unfold w. replace (sqrt 3 * u / 2 * (sqrt 3 * u / 2)) with (sqrt 3 * sqrt 3 * (u * u / 4)) by field. rewrite S. exact K. }
  replace (- (sqrt 3 * u) / 2) with (- w) by (unfold w; field). apply sq_range; assumption.
Qed.
Lemma box_rotated s m bb : wf s -> boxable s -> orthogonal m -> (forall p, solid s p -> within bb p) ->
  bounding_box s = Ok bb -> 0 <= bsx bb -> 0 <= bsy bb -> 0 <= bsz bb ->
  exists bb', bounding_box (Rotation s m) = Ok bb' /\ forall p, solid (Rotation s m) p ->
    within (mkBB (bcx bb') (bcy bb') (bcz bb') (sqrt 3 * bsx bb') (sqrt 3 * bsy bb') (sqrt 3 * bsz bb')) p.
Proof.
  intros W B O0 K E N1 N2 N3. eexists. split; [cbn [bounding_box]; rewrite E; reflexivity|].
  intros p A. apply solid_rot in A; [|assumption]. apply K in A. set (c := mkV (bcx bb) (bcy bb) (bcz bb)).
  pose proof (rot_norm2 m p c O0) as EQ. set (u := Rmax (bsx bb) (Rmax (bsy bb) (bsz bb))).
  assert (U1 : bsx bb <= u) by apply Rmax_l. assert (U2 : bsy bb <= u) by (eapply Rle_trans; [apply Rmax_l|apply Rmax_r]).
  assert (U3 : bsz bb <= u) by (eapply Rle_trans; [apply Rmax_r|apply Rmax_r]). assert (U : 0 <= u) by lra.
  set (q := dot_mv (transpose m) p) in *. clearbody q u. destruct A as (A1 & A2 & A3).
  assert (Q1 : (vx q - vx c) * (vx q - vx c) <= u * u / 4) by (apply sq_half; unfold c; cbn [vx vy vz]; lra).
  assert (Q2 : (vy q - vy c) * (vy q - vy c) <= u * u / 4) by (apply sq_half; unfold c; cbn [vx vy vz]; lra).
  assert (Q3 : (vz q - vz c) * (vz q - vz c) <= u * u / 4) by (apply sq_half; unfold c; cbn [vx vy vz]; lra).
  rewrite !norm2_dist in EQ. set (d := dot_mv m c) in *. clearbody d.
  pose proof (Rle_0_sqr (vx p - vx d)) as Z1. pose proof (Rle_0_sqr (vy p - vy d)) as Z2. pose proof (Rle_0_sqr (vz p - vz d)) as Z3. unfold Rsqr in Z1, Z2, Z3.
  assert (P1 : - (sqrt 3 * u) / 2 <= vx p - vx d <= sqrt 3 * u / 2) by (apply sq3_bound; [assumption|lra]).
  assert (P2 : - (sqrt 3 * u) / 2 <= vy p - vy d <= sqrt 3 * u / 2) by (apply sq3_bound; [assumption|lra]).
  assert (P3 : - (sqrt 3 * u) / 2 <= vz p - vz d <= sqrt 3 * u / 2) by (apply sq3_bound; [assumption|lra]).
  unfold within. cbn [bcx bcy bcz bsx bsy bsz]. lra.
Qed.
Definition sized (bb : bbox) : Prop := 0 <= bsx bb /\ 0 <= bsy bb /\ 0 <= bsz bb.
Lemma unite_sized a b : sized a -> sized b -> sized (uniteBB a b).
Proof.
  unfold sized, uniteBB. cbn [bsx bsy bsz]. intros. 
  pose proof (Rmin_l (bcx a - bsx a / 2) (bcx b - bsx b / 2)). pose proof (Rmax_l (bcx a + bsx a / 2) (bcx b + bsx b / 2)).
  pose proof (Rmin_l (bcy a - bsy a / 2) (bcy b - bsy b / 2)). pose proof (Rmax_l (bcy a + bsy a / 2) (bcy b + bsy b / 2)).
  pose proof (Rmin_l (bcz a - bsz a / 2) (bcz b - bsz b / 2)). pose proof (Rmax_l (bcz a + bsz a / 2) (bcz b + bsz b / 2)). lra.
Qed.
Lemma inter_sized a b : sized (intersectBB a b).
Proof. unfold sized, intersectBB. cbn [bsx bsy bsz]. repeat split; apply Rmax_r. Qed.
Lemma loop_sized f l : (forall a b, sized a -> sized b -> sized (f a b)) ->
  Forall (fun s => forall bb, bounding_box s = Ok bb -> sized bb) l ->
  forall b0 bb, sized b0 -> bb_loop f bounding_box b0 l = Ok bb -> sized bb.
Proof.
  intros F. induction 1 as [|s l H _ IH]; intros b0 bb S0; cbn [bb_loop]; [congruence|].
  destruct (bounding_box s) as [b|e] eqn:E; [|discriminate]. cbn. apply IH. auto.
Qed.
Lemma box_sized s : wf s -> boxable s -> forall bb, bounding_box s = Ok bb -> sized bb.
Proof.
  induction s using shape_ind2; intros W B bb E; cbn in W; cbn [bounding_box] in E.
  1-5: injection E as <-; unfold sized; cbn; lra.
  - apply IHs1; tauto.
  - destruct B as [NE B]. apply boxable_list in B. apply wf_list in W.
    assert (HL : Forall (fun s => forall bb, bounding_box s = Ok bb -> sized bb) l). { rewrite Forall_forall in *. intros s Hs. apply H; auto. }
    destruct l as [|s0 rest]; [congruence|]. inversion HL; subst. destruct (bounding_box s0) as [b0|e] eqn:E0; [|discriminate]. cbn [bind] in E.
    eapply loop_sized; [|eassumption|eauto|exact E]. intros. apply inter_sized.
  - destruct B as [NE B]. apply boxable_list in B. apply wf_list in W.
    assert (HL : Forall (fun s => forall bb, bounding_box s = Ok bb -> sized bb) l). { rewrite Forall_forall in *. intros s Hs. apply H; auto. }
    destruct l as [|s0 rest]; [congruence|]. pose proof HL as HL0. inversion HL; subst. destruct (bounding_box s0) as [b0|e] eqn:E0; [|discriminate]. cbn [bind] in E.
    eapply loop_sized; [|exact HL0|eauto|exact E]. apply unite_sized.
  - destruct B as [B Hk]. destruct (bounding_box s) as [b|e] eqn:E0; [|discriminate]. injection E as <-.
    destruct (IHs (proj1 W) B b eq_refl) as (S1 & S2 & S3). unfold sized. cbn. repeat split; apply Rmult_le_pos; lra.
  - destruct (bounding_box s) as [b|e] eqn:E0; [|discriminate]. injection E as <-. exact (IHs W B b eq_refl).
  - destruct B.
Qed.
Lemma box_rotated_all s m : wf s -> boxable s -> orthogonal m ->
  exists bb, bounding_box (Rotation s m) = Ok bb /\ forall p, solid (Rotation s m) p ->
    within (mkBB (bcx bb) (bcy bb) (bcz bb) (sqrt 3 * bsx bb) (sqrt 3 * bsy bb) (sqrt 3 * bsz bb)) p.
Proof.
  intros W B O0. destruct (box_contains s W B) as (bb & E & K). destruct (box_sized s W B bb E) as (S1 & S2 & S3).
  exact (box_rotated s m bb W B O0 K E S1 S2 S3).
Qed.

(** ** a cube turned by 45 degrees sticks out of its box *)
Definition turn45 : mat3 := mkM (/ sqrt 2) (- / sqrt 2) 0 (/ sqrt 2) (/ sqrt 2) 0 0 0 1.
Lemma half_sq2 : / sqrt 2 * / sqrt 2 = / 2.
Proof. rewrite <- Rinv_mult. f_equal. apply sqrt_sqrt. lra. Qed.
Lemma turn45_orth : orthogonal turn45.
Proof.
  intros [ax ay az] [bx by_ bz]. unfold sdot, dot_mv, turn45. cbn [vx vy vz m00 m01 m02 m10 m11 m12 m20 m21 m22]. pose proof half_sq2 as K. set (q := / sqrt 2) in *. clearbody q.
  transitivity (2 * (q * q) * (ax * bx + ay * by_) + az * bz); [ring|rewrite K; field].
Qed.
Lemma sq2_pos : 1 < sqrt 2.
Proof. rewrite <- sqrt_1 at 1. apply sqrt_lt_1; lra. Qed.
Lemma box_rotated_out : let s := Rotation (Box 1 1 1) turn45 in let p := mkV 0 (/ sqrt 2) 0 in
  wf s /\ solid s p /\ exists bb, bounding_box s = Ok bb /\ ~ within bb p.
Proof.
  cbv zeta. split; [|split].
  - cbn. split; [lra|apply turn45_orth].
  - apply solid_rot; [apply turn45_orth|]. pose proof half_sq2 as K. pose proof sq2_pos.
    assert (P : 0 < / sqrt 2) by (apply Rinv_0_lt_compat; lra). unfold turn45. cbn. set (q := / sqrt 2) in *. clearbody q.
    replace (q * 0 + q * q + 0 * 0) with (/ 2) by lra. replace (- q * 0 + q * q + 0 * 0) with (/ 2) by lra. replace (0 * 0 + 0 * q + 1 * 0) with 0 by ring.
    rewrite Rabs_R0, Rabs_right by lra. lra.
  - eexists. split; [reflexivity|]. unfold within. cbn. rewrite !Rmax_left by (try apply Rmax_lub; lra). pose proof sq2_pos.
    assert (K : sqrt 2 < 2) by (replace 2 with (sqrt (2 * 2)) at 2 by (apply sqrt_square; lra); apply sqrt_lt_1; lra).
    assert (/ 2 < / sqrt 2) by (apply Rinv_lt_contravar; lra). lra.
Qed.
Lemma dilation_out : let s := Dilation (Box 1 1 1) (-2) in let p := mkV 0 0 0 in wf s /\ core s p /\ exists bb, bounding_box s = Ok bb /\ forall q, ~ within bb q.
Proof.
  cbv zeta. split; [cbn; lra|]. split.
  - apply core_dil; [lra|]. cbn. replace (1 / -2 * 0) with 0 by field. rewrite Rabs_R0. lra.
  - eexists. split; [reflexivity|]. intros q. unfold within. cbn. lra.
Qed.

(** ** a ray through an edge of a box *)
Lemma box_edge_missed : let s := Box 2 2 2 in let r := mkV (-3) (-3) 0 in let v := mkV 1 1 0 in
  entry_exit s r v 2 4 /\ forall tol, intersect tol s r v = [].
Proof.
  cbv zeta. assert (V : mkV 1 1 0 <> mkV 0 0 0) by (intros K; injection K; lra).
  assert (EE : entry_exit (Box 2 2 2) (mkV (-3) (-3) 0) (mkV 1 1 0) 2 4).
  { unfold entry_exit. split; [lra|]. split; intros t; cbn; replace (0 + t * 0) with 0 by ring; rewrite Rabs_R0; unfold Rabs; destruct (Rcase_abs _); split; intros; lra. }
  split; [exact EE|]. intros tol. cbn [intersect].
  assert (M : meets (Box 2 2 2) (mkV (-3) (-3) 0) (mkV 1 1 0)). { exists 3. apply EE. lra. }
  destruct (box_exact 2 2 2 (mkV (-3) (-3) 0) (mkV 1 1 0) ltac:(lra) ltac:(lra) ltac:(lra) V) as [_ K].
  destruct (K M) as (t1 & t2 & EE' & K2). apply K2. left.
  assert (T : t1 = 2). { destruct EE as (_ & _ & A), EE' as (L & _ & A'). assert (2 <= t1 <= 4) by (apply A, A'; lra). assert (t1 <= 2 <= t2) by (apply A', A; lra). lra. }
  subst t1. left. cbn. split; unfold Rabs; destruct (Rcase_abs _); lra.
Qed.

(** ** a flat ray just above the apex of a flat cone *)
Lemma cone_apex tol : 0 < tol < 1 / 100000 -> let s := Cone 100 1 in let r := mkV 0 0 (tol / 20) in let v := mkV 1 0 0 in
  (forall t, ~ solid s (on_line r v t)) /\
  intersect tol s r v = [- (5 * tol); 5 * tol] /\ locate tol s (on_line r v (5 * tol)) = Outside.
Proof.
  intros Ht. cbv zeta. split; [|split].
  - intros t. cbn. lra.
  - cbn [intersect]. unfold intersect_cone.
    replace (isInvalidDirection (mkV 1 0 0)) with false by (symmetry; apply valid_dir; intros K; injection K; lra).
    assert (NV : vnorm (mkV 1 0 0) = 1). { unfold vnorm, vdot. cbn. replace (1 * 1 + 0 * 0 + 0 * 0) with 1 by ring. apply sqrt_1. }
    rewrite NV. replace (vscale (1 / 1) (mkV 1 0 0)) with (mkV 1 0 0) by (apply vec_eq; cbn; field).
    assert (C : cone_candidates tol 100 1 (mkV 0 0 (tol / 20)) (mkV 1 0 0) = [5 * tol; - (5 * tol)]).
    { unfold cone_candidates, cone_roots. cbv zeta. rewrite NV, vdiv_1.
      set (a := vdot (mkV 1 0 0) (mkV 0 0 (-1)) * _ - _). set (b := 2 * _). set (c := vdot _ _ * vdot _ _ - _).
      assert (Ea : a = - (1 / 10001)) by (unfold a, vdot; cbn; field). assert (Eb : b = 0) by (unfold b, vdot; cbn; field).
      assert (Ec : c = tol * tol / 400 * (10000 / 10001)) by (unfold c, vdot; cbn; field). rewrite Ea, Eb, Ec. clear a b c Ea Eb Ec.
      replace (eq_withinepsilon tol (- (1 / 10001)) 0) with false
        by (symmetry; unfold eq_withinepsilon; apply Rltb_f; rewrite Rminus_0_r, Rabs_Ropp, Rabs_right; lra).
      set (dl := 0 * 0 - _). assert (D : dl = (tol * 10 / 10001) * (tol * 10 / 10001)) by (unfold dl; field).
      rewrite D. replace (Rltb (tol * 10 / 10001 * (tol * 10 / 10001)) 0) with false by (symmetry; apply Rltb_f; nra).
      rewrite sqrt_square by lra. cbn [filter vx vy vz].
      assert (Z : forall u, Rltb (tol / 20 + u * 0) (tol / 10) = true) by (intros; apply Rltb_t; lra).
      assert (Z' : forall u, Rltb (tol / 20 + u * 0) (- (1) - tol / 10) = false) by (intros; apply Rltb_f; lra).
      rewrite !Z, !Z'. cbn [andb negb]. replace (Reqb 0 0) with true by (symmetry; apply Reqb_true; reflexivity).
      cbn [app]. f_equal; [field|]. f_equal. field. }
    rewrite C. cbn [rsort fold_right rinsert].
    replace (Rleb (5 * tol) (- (5 * tol))) with false by (symmetry; unfold Rleb; destruct (Rle_dec _ _); [lra|reflexivity]).
    cbn [rinsert]. unfold unique. cbn [unique_from].
    replace (eq_withinepsilon tol (- (5 * tol)) (5 * tol)) with false
      by (symmetry; unfold eq_withinepsilon; apply Rltb_f; replace (- (5 * tol) - 5 * tol) with (- (10 * tol)) by ring; rewrite Rabs_Ropp, Rabs_right; lra).
    replace (eq_withinepsilon tol (5 * tol) (- (5 * tol))) with false
      by (symmetry; unfold eq_withinepsilon; apply Rltb_f; rewrite Rabs_right; lra).
    unfold order2. replace (Rltb (5 * tol) (- (5 * tol))) with false by (symmetry; apply Rltb_f; lra).
    replace (Rltb (- (5 * tol)) (5 * tol)) with true by (symmetry; apply Rltb_t; lra). cbn [map].
    f_equal; [field|]. f_equal. field.
  - cbn [locate]. unfold locate_cone. cbn [on_line vx vy vz].
    replace (Rltb tol (tol / 20 + 5 * tol * 0)) with false by (symmetry; apply Rltb_f; lra).
    replace (Rltb (tol / 20 + 5 * tol * 0) (- (1) - tol)) with false by (symmetry; apply Rltb_f; lra).
    cbn [orb]. replace ((0 + 5 * tol * 1) * (0 + 5 * tol * 1) + (0 + 5 * tol * 0) * (0 + 5 * tol * 0)) with ((5 * tol) * (5 * tol)) by ring.
    rewrite sqrt_square by lra. replace (Rltb _ _) with true; [reflexivity|]. symmetry. apply Rltb_t. lra.
Qed.
