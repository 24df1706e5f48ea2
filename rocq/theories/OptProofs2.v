(** Lemmas on slits, beamstops and collimators. *)
From Coq Require Import Reals Lra Psatz.
From Verif Require Import Base RotModel ChanModel ChanProofs ShapeModel GridProofs OptModel OptSpec OptProofs.
Open Scope R_scope.

Lemma slit_init_spec o w h : 
  let o' := mkOp (if Rlt_dec 0 w then - (w / 2) else xmin o) (if Rlt_dec 0 w then w / 2 else xmax o) (if Rlt_dec 0 h then - (h / 2) else ymin o) (if Rlt_dec 0 h then h / 2 else ymax o) (radius o) in
  (slit_init o w h = Ok o' /\ (xmin o' <> 0 \/ xmax o' <> 0 \/ ymin o' <> 0 \/ ymax o' <> 0 \/ radius o' <> 0)) \/
  (slit_init o w h = Err Terminated /\ xmin o' = 0 /\ xmax o' = 0 /\ ymin o' = 0 /\ ymax o' = 0 /\ radius o' = 0).
Proof.
  intros o'. assert (E : slit_init o w h = if (Reqb (xmin o') 0 && Reqb (xmax o') 0 && Reqb (ymin o') 0 && Reqb (ymax o') 0 && Reqb (radius o') 0)%bool then Err Terminated else Ok o').
  { unfold slit_init, o', Rltb. destruct o. destruct (Rlt_dec 0 w), (Rlt_dec 0 h); reflexivity. }
  rewrite E. clearbody o'. destruct (Reqb (xmin o') 0) eqn:E1; [|left; split; [reflexivity|]; apply Reqb_f in E1; tauto].
  destruct (Reqb (xmax o') 0) eqn:E2; [|left; split; [reflexivity|]; apply Reqb_f in E2; tauto].
  destruct (Reqb (ymin o') 0) eqn:E3; [|left; split; [reflexivity|]; apply Reqb_f in E3; tauto].
  destruct (Reqb (ymax o') 0) eqn:E4; [|left; split; [reflexivity|]; apply Reqb_f in E4; tauto].
  destruct (Reqb (radius o') 0) eqn:E5; [|left; split; [reflexivity|]; apply Reqb_f in E5; tauto].
  apply Reqb_t in E1, E2, E3, E4, E5. right. tauto.
Qed.

Lemma slit_shape o x y :
  ((Reqb (radius o) 0 && (Rltb x (xmin o) || Rltb (xmax o) x || Rltb y (ymin o) || Rltb (ymax o) y))
      || (negb (Reqb (radius o) 0) && Rltb (radius o * radius o) (x * x + y * y)))%bool = false <-> in_opening o x y.
Proof.
  unfold in_opening. destruct (Reqb (radius o) 0) eqn:E; cbn [negb andb orb].
  - apply Reqb_t in E. rewrite Bool.orb_false_r. rewrite !Bool.orb_false_iff, !Rltb_f. split; [intros (((A & B) & C) & D); split; [contradiction|tauto]|intros (_ & H); specialize (H E); tauto].
  - apply Reqb_f in E. rewrite Rltb_f. replace (x ^ 2) with (x * x) by ring. replace (y ^ 2) with (y * y) by ring. replace (radius o ^ 2) with (radius o * radius o) by ring. split; [intros H; split; [auto|contradiction]|intros (H & _); auto].
Qed.
Lemma stop_shape o x y :
  ((negb (Reqb (radius o) 0) && Rleb (x * x + y * y) (radius o * radius o))
      || (Reqb (radius o) 0 && (Rltb (xmin o) x && Rltb x (xmax o) && Rltb (ymin o) y && Rltb y (ymax o))))%bool = true <-> on_stop o x y.
Proof.
  unfold on_stop. destruct (Reqb (radius o) 0) eqn:E; cbn [negb andb orb].
  - apply Reqb_t in E. rewrite !Bool.andb_true_iff, !Rltb_t. split; [intros (((A & B) & C) & D); split; [contradiction|tauto]|intros (_ & H); specialize (H E); tauto].
  - apply Reqb_f in E. rewrite Bool.orb_false_r, Rleb_true. replace (x ^ 2) with (x * x) by ring. replace (y ^ 2) with (y * y) by ring. replace (radius o ^ 2) with (radius o * radius o) by ring. split; [intros H; split; [auto|contradiction]|intros (H & _); auto].
Qed.

(* the state of a neutron on the plane *)
Lemma slit_after g o cut r : let q := prop_z0 g r in
  (in_opening o (vx (r_pos q)) (vy (r_pos q)) /\ cut <= r_p q /\ slit_trace g o cut r = q) \/
  ((~ in_opening o (vx (r_pos q)) (vy (r_pos q)) \/ r_p q < cut) /\ lost q (slit_trace g o cut r)).
Proof.
  intros q. unfold slit_trace. fold q. pose proof (slit_shape o (vx (r_pos q)) (vy (r_pos q))) as S. destruct (_ || _)%bool.
  - right. split; [left; intros H; apply S in H; discriminate|apply absorb_lost].
  - assert (I : in_opening o (vx (r_pos q)) (vy (r_pos q))) by now apply S. destruct (Rltb (r_p q) cut) eqn:E.
    + apply Rltb_t in E. right. split; [now right|apply absorb_lost].
    + apply Rltb_f in E. left. tauto.
Qed.
Lemma lost_absorbed r r' : lost r r' -> absorbed r'.
Proof. unfold lost, absorbed. intros (E & _). lra. Qed.

Lemma meets_fun r x y : vz (r_vel r) <> 0 -> meets r x y -> x = vx (r_pos (prop_z0 None r)) /\ y = vy (r_pos (prop_z0 None r)).
Proof.
  intros N (s & Z & X & Y). apply (crossing_unique _ _ _ N) in Z. destruct (z0_none r N) as ((FX & FY & _) & _). rewrite FX, FY. cbn [vx vy weightless]. subst s. tauto.
Qed.
Lemma slit_pass o cut r x y : vz (r_vel r) <> 0 -> meets r x y ->
  (in_opening o x y -> cut <= r_p r -> vz (r_pos (slit_trace None o cut r)) = 0 /\ exists s, flown weightless r s (slit_trace None o cut r)) /\
  (~ in_opening o x y \/ r_p r < cut -> absorbed (slit_trace None o cut r)).
Proof.
  intros N M. destruct (meets_fun r x y N M) as [-> ->]. destruct (z0_none r N) as (F & Z).
  assert (P : r_p (prop_z0 None r) = r_p r) by (destruct F as (_ & _ & _ & _ & _ & _ & _ & _ & _ & P); exact P).
  destruct (slit_after None o cut r) as [(I & C & E)|(Q & L)].
  - split; [intros _ _; rewrite E; split; [exact Z|eauto]|]. intros [NI|C2]; [contradiction|lra].
  - split; [|intros _; eapply lost_absorbed; exact L]. intros I C. exfalso. destruct Q; [contradiction|lra].
Qed.
Lemma slit_parallel o cut r : vz (r_vel r) = 0 -> absorbed (slit_trace None o cut r).
Proof.
  intros Z. pose proof (z0_none_lost r Z) as L. destruct (slit_after None o cut r) as [(_ & _ & ->)|(_ & L2)]; eapply lost_absorbed; eassumption.
Qed.
Lemma slit_gravity a o cut r : vz a = 0 -> let s := - vz (r_pos r) / vz (r_vel r) in
  let x := coordinate (vx a) (vx (r_vel r)) (vx (r_pos r)) s in let y := coordinate (vy a) (vy (r_vel r)) (vy (r_pos r)) s in
  (vz (r_vel r) <> 0 -> 0 < s -> in_opening o x y -> cut <= r_p r -> vz (r_pos (slit_trace (Some a) o cut r)) = 0 /\ flown a r s (slit_trace (Some a) o cut r)) /\
  (vz (r_vel r) = 0 \/ s <= 0 \/ ~ in_opening o x y \/ r_p r < cut -> absorbed (slit_trace (Some a) o cut r)).
Proof.
  intros A s x y. assert (sm : Rabs (vz a / 2) < / 10 ^ 10) by (rewrite A; replace (0 / 2) with 0 by field; rewrite Rabs_R0; apply Rinv_0_lt_compat, pow_lt; lra).
  destruct (z0_gravity_small a r sm) as [Y1 Y2]. fold s in Y1, Y2. 
  destruct (Req_dec (vz (r_vel r)) 0) as [Z|N].
  - split; [contradiction|]. intros _. specialize (Y2 (or_introl Z)). destruct (slit_after (Some a) o cut r) as [(_ & _ & ->)|(_ & L2)]; eapply lost_absorbed; eassumption.
  - destruct (Rle_lt_dec s 0) as [S|S].
    + split; [intros; lra|]. intros _. specialize (Y2 (or_intror S)). destruct (slit_after (Some a) o cut r) as [(_ & _ & ->)|(_ & L2)]; eapply lost_absorbed; eassumption.
    + destruct (Y1 (conj N S)) as [F Z]. assert (K := F). destruct K as (FX & FY & _ & _ & _ & _ & _ & _ & _ & P). fold x in FX. fold y in FY. rewrite A in Z.
      destruct (slit_after (Some a) o cut r) as [(I & C & E)|(Q & L)]; rewrite FX, FY in *.
      * split; [intros; rewrite E; split; [lra|exact F]|]. intros [|[|[|]]]; try contradiction; lra.
      * split; [|intros _; eapply lost_absorbed; exact L]. intros _ _ I C. exfalso. destruct Q; [contradiction|lra].
Qed.

Lemma stop_after g o r : let q := prop_z0 g r in
  (on_stop o (vx (r_pos q)) (vy (r_pos q)) /\ lost q (beamstop_trace g o r)) \/ (~ on_stop o (vx (r_pos q)) (vy (r_pos q)) /\ beamstop_trace g o r = r).
Proof.
  intros q. unfold beamstop_trace. fold q. pose proof (stop_shape o (vx (r_pos q)) (vy (r_pos q))) as S. destruct (_ || _)%bool.
  - left. split; [now apply S|apply absorb_lost].
  - right. split; [intros H; apply S in H; discriminate|reflexivity].
Qed.
Lemma stop_pass o r x y : vz (r_vel r) <> 0 -> meets r x y ->
  (on_stop o x y -> absorbed (beamstop_trace None o r)) /\ (~ on_stop o x y -> beamstop_trace None o r = r).
Proof.
  intros N M. destruct (meets_fun r x y N M) as [-> ->]. destruct (stop_after None o r) as [(I & L)|(I & E)].
  - split; [intros _; eapply lost_absorbed; exact L|contradiction].
  - split; [contradiction|auto].
Qed.

Lemma outside_frame o r : outside o r = false <-> in_frame o (vx (r_pos r)) (vy (r_pos r)).
Proof. unfold outside, in_frame. rewrite !Bool.orb_false_iff, !Rltb_f. tauto. Qed.

Lemma quot_ok a b : b <> 0 -> quot a b = Ok (a / b).
Proof. intros N. unfold quot. now rewrite (proj2 (Reqb_f _ _) N). Qed.

(* a neutron flying forward through a collimator *)
Definition exit_x (len : R) (r : ray) := vx (r_pos (prop_z0 None r)) + vx (r_vel r) / vz (r_vel r) * len.
Definition exit_y (len : R) (r : ray) := vy (r_pos (prop_z0 None r)) + vy (r_vel r) / vz (r_vel r) * len.

Lemma flown_again r s r1 s2 r2 : flown weightless r s r1 -> flown weightless r1 s2 r2 -> flown weightless r (s + s2) r2.
Proof.
  unfold flown, coordinate, weightless. cbn [vx vy vz]. intros (A & B & C & D & E & F & G & H & I & J) (A2 & B2 & C2 & D2 & E2 & F2 & G2 & H2 & I2 & J2).
  rewrite A2, B2, C2, D2, E2, F2, G2, H2, I2, J2, A, B, C, D, E, F, G, H, I, J. repeat split; field.
Qed.

Lemma collimator_forward o len sl sv T r : 0 <= len -> 0 < vz (r_vel r) ->
  let q := prop_z0 None r in let e := prop_dt_nogravity (len / vz (r_vel r)) q in
  let hx := Rabs (vx (r_vel r) / vz (r_vel r)) in let hy := Rabs (vy (r_vel r) / vz (r_vel r)) in
  collimator_trace None o len sl sv T r =
    if outside o q then Ok (absorb q) else if outside o e then Ok (absorb e)
    else if (Rltb 0 sl && Rltb sl hx)%bool then Ok (absorb e)
    else let e1 := if Rltb 0 sl then with_p e (r_p e * (T * (1 - hx / sl))) else e in
      if (Rltb 0 sv && Rltb sv hy)%bool then Ok (absorb e1)
      else Ok (if Rltb 0 sv then with_p e1 (r_p e1 * (T * (1 - hy / sv))) else e1).
Proof.
  intros L V q e hx hy. assert (N : vz (r_vel r) <> 0) by lra. unfold collimator_trace. fold q.
  assert (VQ : r_vel q = r_vel r) by (unfold q; cbn; unfold prop_z0_nogravity; rewrite (proj2 (Reqb_f _ _) N); reflexivity).
  destruct (outside o q); [reflexivity|]. rewrite VQ, (quot_ok _ _ N). cbn [bind].
  assert (PD : prop_dt (len / vz (r_vel r)) None q = e).
  { unfold prop_dt. assert (0 <= len / vz (r_vel r)) by (apply Rmult_le_pos; [exact L|left; apply Rinv_0_lt_compat, V]).
    assert (0 < / 10 ^ 15) by (apply Rinv_0_lt_compat, pow_lt; lra). rewrite (proj2 (Rltb_f _ _)) by lra. reflexivity. }
  rewrite PD. destruct (outside o e); [reflexivity|]. assert (VE : r_vel e = r_vel r) by exact VQ. rewrite VE.
  destruct (Rltb 0 sl).
  - rewrite (quot_ok _ _ N). cbn [bind]. fold hx. cbn [andb]. destruct (Rltb sl hx); [reflexivity|]. cbn [bind].
    destruct (Rltb 0 sv); [|reflexivity]. cbn [r_vel with_p]. rewrite VE, (quot_ok _ _ N). cbn [bind]. fold hy. cbn [andb]. destruct (Rltb sv hy); reflexivity.
  - cbn [bind andb]. destruct (Rltb 0 sv); [|reflexivity]. rewrite VE, (quot_ok _ _ N). cbn [bind]. fold hy. cbn [andb]. destruct (Rltb sv hy); reflexivity.
Qed.

Lemma plates_some T s q : (Rltb 0 s && Rltb s q)%bool = false -> plates T s q (if Rltb 0 s then T * (1 - q / s) else 1).
Proof.
  unfold plates. intros H. destruct (Rltb 0 s) eqn:E.
  - cbn in H. apply Rltb_t in E. apply Rltb_f in H. split; [tauto|lra].
  - apply Rltb_f in E. split; [lra|reflexivity].
Qed.
Lemma plates_none T s q f : (Rltb 0 s && Rltb s q)%bool = true -> ~ plates T s q f.
Proof. intros H (P & _). apply Bool.andb_true_iff in H. destruct H as [A B]. apply Rltb_t in A, B. destruct (P A). lra. Qed.

Lemma collimator_spec o len sl sv T r x y : 0 <= len -> 0 < vz (r_vel r) -> meets r x y ->
  let x2 := x + vx (r_vel r) / vz (r_vel r) * len in let y2 := y + vy (r_vel r) / vz (r_vel r) * len in
  exists r', collimator_trace None o len sl sv T r = Ok r' /\
    (forall fx fy, in_frame o x y -> in_frame o x2 y2 -> plates T sl (Rabs (vx (r_vel r) / vz (r_vel r))) fx -> plates T sv (Rabs (vy (r_vel r) / vz (r_vel r))) fy ->
       r_p r' = r_p r * fx * fy /\ vz (r_pos r') = len /\ exists s, flown weightless r s (with_p r' (r_p r))) /\
    ((~ in_frame o x y \/ ~ in_frame o x2 y2 \/ (forall f, ~ plates T sl (Rabs (vx (r_vel r) / vz (r_vel r))) f) \/ (forall f, ~ plates T sv (Rabs (vy (r_vel r) / vz (r_vel r))) f)) -> absorbed r').
Proof.
  intros L V M x2 y2. assert (N : vz (r_vel r) <> 0) by lra. destruct (meets_fun r x y N M) as [X Y]. destruct (z0_none r N) as (F & Z).
  pose proof (collimator_forward o len sl sv T r L V) as E. cbv zeta in E.
  set (q := prop_z0 None r) in *. assert (VQ : r_vel q = r_vel r) by (unfold q; cbn; unfold prop_z0_nogravity; rewrite (proj2 (Reqb_f _ _) N); reflexivity).
  assert (PQ : r_p q = r_p r) by (destruct F as (_ & _ & _ & _ & _ & _ & _ & _ & _ & P); exact P).
  clearbody q. set (e := prop_dt_nogravity (len / vz (r_vel r)) q) in *.
  assert (EX : vx (r_pos e) = x2) by (unfold e, prop_dt_nogravity; cbn; rewrite <- X, VQ; unfold x2; field; exact N).
  assert (EY : vy (r_pos e) = y2) by (unfold e, prop_dt_nogravity; cbn; rewrite <- Y, VQ; unfold y2; field; exact N).
  assert (EZ : vz (r_pos e) = len) by (unfold e, prop_dt_nogravity; cbn; rewrite Z, VQ; field; exact N).
  assert (FE : flown weightless r (- vz (r_pos r) / vz (r_vel r) + len / vz (r_vel r)) e) by (eapply flown_again; [exact F|apply dt_flown]).
  assert (PE : r_p e = r_p r) by (unfold e, prop_dt_nogravity; cbn; exact PQ).
  set (hx := Rabs (vx (r_vel r) / vz (r_vel r))) in *. set (hy := Rabs (vy (r_vel r) / vz (r_vel r))) in *.
  pose proof (outside_frame o q) as OQ. pose proof (outside_frame o e) as OE. rewrite <- X, <- Y in OQ. rewrite EX, EY in OE. rewrite E.
  assert (AB : forall w, absorbed (absorb w)) by (intros w; unfold absorbed; cbn; lra).
  destruct (outside o q). { exists (absorb q). split; [reflexivity|]. split; [intros fx fy I; apply OQ in I; discriminate|intros _; apply AB]. }
  destruct (outside o e). { exists (absorb e). split; [reflexivity|]. split; [intros fx fy _ I; apply OE in I; discriminate|intros _; apply AB]. }
  destruct (Rltb 0 sl && Rltb sl hx)%bool eqn:B1. { exists (absorb e). split; [reflexivity|]. split; [intros fx fy _ _ P; now apply plates_none in P|intros _; apply AB]. }
  destruct (Rltb 0 sv && Rltb sv hy)%bool eqn:B2. { eexists. split; [reflexivity|]. split; [intros fx fy _ _ _ P; now apply plates_none in P|intros _; apply AB]. }
  eexists. split; [reflexivity|]. split.
  - intros fx fy _ _ P1 P2.
    assert (F1 : fx = if Rltb 0 sl then T * (1 - hx / sl) else 1). { destruct (Rltb 0 sl) eqn:Q; [apply Rltb_t in Q; now apply P1|apply Rltb_f in Q; now apply P1]. }
    assert (F2 : fy = if Rltb 0 sv then T * (1 - hy / sv) else 1). { destruct (Rltb 0 sv) eqn:Q; [apply Rltb_t in Q; now apply P2|apply Rltb_f in Q; now apply P2]. }
    subst fx fy. split; [destruct (Rltb 0 sl), (Rltb 0 sv); cbn [r_p with_p]; rewrite PE; ring|].
    split; [destruct (Rltb 0 sl), (Rltb 0 sv); exact EZ|].
    exists (- vz (r_pos r) / vz (r_vel r) + len / vz (r_vel r)). assert (PR : with_p e (r_p r) = e) by (rewrite <- PE; destruct e; reflexivity).
    destruct (Rltb 0 sl), (Rltb 0 sv); match goal with |- flown _ _ _ ?w => replace w with e by (rewrite <- PR at 1; reflexivity) end; exact FE.
  - pose proof (plates_some T _ _ B1) as P1. pose proof (plates_some T _ _ B2) as P2.
    intros [K|[K|[K|K]]]; exfalso; [apply K, OQ; reflexivity|apply K, OE; reflexivity|exact (K _ P1)|exact (K _ P2)].
Qed.

Lemma plates_bound T s q f : 0 <= T <= 1 -> 0 <= q -> plates T s q f -> 0 <= f <= 1.
Proof.
  intros HT Q (P & P0). destruct (Rle_lt_dec s 0) as [S|S]; [rewrite (P0 S); lra|]. destruct (P S) as [L ->].
  assert (D : 0 <= q / s <= 1). { split; [apply Rmult_le_pos; [exact Q|left; apply Rinv_0_lt_compat, S]|]. apply (Rmult_le_reg_r s); [exact S|]. unfold Rdiv. rewrite Rmult_assoc, Rinv_l by lra. lra. }
  nra.
Qed.

Lemma collimator_parallel o len sl sv T r : vz (r_vel r) = 0 -> (exists r', collimator_trace None o len sl sv T r = Ok r' /\ absorbed r') \/ collimator_trace None o len sl sv T r = Err ZeroDivisionError.
Proof.
  intros Z. unfold collimator_trace. assert (E : prop_z0 None r = absorb r) by (cbn; unfold prop_z0_nogravity; now rewrite (proj2 (Reqb_t _ _) Z)). rewrite E.
  destruct (outside o (absorb r)); [left; eexists; split; [reflexivity|unfold absorbed; cbn; lra]|]. right. unfold quot. cbn [r_vel absorb]. now rewrite (proj2 (Reqb_t _ _) Z).
Qed.

(* slopes and angles *)
Lemma slope_angle d q : 0 < d < 5400 -> 0 < slope_of d /\ (q <= slope_of d <-> atan q <= PI / 10800 * d).
Proof.
  intros D. unfold slope_of. replace (PI / (180 * 60) * d) with (PI / 10800 * d) by field. set (a := PI / 10800 * d).
  assert (A : 0 < a < PI / 2) by (unfold a; pose proof PI_RGT_0; split; nra). split; [apply tan_gt_0; lra|]. split; intros H.
  - apply Rnot_lt_le. intros C. assert (tan a < tan (atan q)) by (apply tan_increasing; [lra|exact C|apply atan_bound]). rewrite tan_atan in H0. lra.
  - apply Rnot_lt_le. intros C. apply atan_increasing in C. rewrite atan_tan in C by lra. lra.
Qed.
