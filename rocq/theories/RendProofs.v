(** Lemmas for C71: units, turns. *)
From Coq Require Import Reals Lra.
From Verif Require Import Base RotModel RotSpec RotProofs ChanModel ChanProofs GridProofs ShapeModel ShapeSpec ShapeProofs RendModel RendSpec.
Open Scope R_scope.

(** ** Units *)
Definition conv (u : punit) (v : pyval) : R := match v with Plain x => x | Quant _ x => x / snd u | Other => 0 end.
Lemma dim_eqb_iff a b : a <> OtherDim -> dim_eqb a b = true <-> a = b.
Proof. destruct a, b; cbn; intros N; split; intros E; congruence. Qed.
Lemma all_floats_ok l r : all_floats l = Ok r <-> l = map Plain r.
Proof.
  revert r. induction l as [|v l IH]; intros r; cbn [all_floats].
  - split; intros E; [inversion E; reflexivity|destruct r; [reflexivity|discriminate]].
  - destruct v as [x|d x|].
    + destruct (all_floats l) as [r'|] eqn:E; cbn.
      * split; intros F; [inversion F; subst; cbn; f_equal; apply IH; reflexivity|].
        destruct r as [|y r]; [discriminate|]. cbn in F. inversion F; subst. assert (Ok r' = Ok r) by (apply IH; reflexivity). congruence.
      * split; intros F; [discriminate|]. destruct r as [|y r]; [discriminate|]. cbn in F. inversion F; subst.
        exfalso. assert (Err e = Ok r) by (apply IH; reflexivity). discriminate.
    + split; [discriminate|]. intros F. destruct r; discriminate.
    + split; [discriminate|]. intros F. destruct r; discriminate.
Qed.
Lemma bare_all l : forallb is_unitless_scalar l = true <-> Forall bare l.
Proof.
  induction l as [|v l IH]; cbn; [split; auto|]. rewrite Bool.andb_true_iff, IH. split.
  - intros [A B]. constructor; [|exact B]. destruct v; try discriminate. eexists; reflexivity.
  - intros F. inversion F as [|? ? [x ->] B]; subst. split; [reflexivity|exact B].
Qed.
Lemma bare_map u l : Forall bare l -> l = map Plain (map (conv u) l).
Proof. induction 1 as [|v l [x ->] B IH]; cbn; [reflexivity|]. f_equal. exact IH. Qed.
Lemma over_plain u v : fst u <> OtherDim -> (exists x, over v u = Plain x) <-> kind (fst u) v.
Proof.
  intros N. destruct v as [x|d x|]; cbn; split; try (intros [y E]; discriminate).
  - intros [y E]. destruct (dim_eqb d (fst u)) eqn:D; [|discriminate].
    assert (d = fst u) by (destruct d, (fst u); cbn in D; congruence). subst. eexists; reflexivity.
  - intros [y E]. inversion E; subst. rewrite (proj2 (dim_eqb_iff (fst u) (fst u) N) eq_refl). eexists; reflexivity.
Qed.
Lemma over_conv u v x : over v u = Plain x -> x = conv u v.
Proof. destruct v as [y|d y|]; cbn; try discriminate. destruct (dim_eqb d (fst u)); [intros E; inversion E; reflexivity|discriminate]. Qed.
Lemma map_over_plain u l r : fst u <> OtherDim -> map (fun s => over s u) l = map Plain r <-> Forall (kind (fst u)) l /\ r = map (conv u) l.
Proof.
  intros N. revert r. induction l as [|v l IH]; intros r; cbn.
  - split; [intros E; destruct r; [split; auto|discriminate]|intros [_ ->]; reflexivity].
  - destruct r as [|x r]; cbn.
    + split; [discriminate|intros [_ E]; discriminate].
    + split.
      * intros E. injection E as E1 E2. apply IH in E2. destruct E2 as [F ->]. split.
        { constructor; [apply over_plain; [exact N|eexists; exact E1]|exact F]. }
        f_equal. apply over_conv. exact E1.
      * intros [F E]. injection E as E1 E2. inversion F; subst. f_equal; [|apply IH; auto].
        destruct (proj2 (over_plain u v N) H1) as [y Y]. rewrite Y. f_equal. apply over_conv. exact Y.
Qed.
Lemma compatible_iff u v : fst u <> OtherDim -> compatible v u = true <-> kind (fst u) v.
Proof.
  intros N. destruct v as [x|d x|]; cbn; split; try discriminate; try (intros [y E]; discriminate).
  - intros D. assert (d = fst u) by (destruct d, (fst u); cbn in D; congruence). subst. eexists; reflexivity.
  - intros [y E]. inversion E; subst. apply dim_eqb_iff; auto.
Qed.
Lemma remove_units_iff u l r : fst u <> OtherDim ->
  remove_units l u = Ok r <-> uniform (fst u) l /\ r = map (conv u) l.
Proof.
  intros N. unfold remove_units. destruct (forallb is_unitless_scalar l) eqn:B.
  - apply bare_all in B. rewrite all_floats_ok. split.
    + intros E. split; [left; exact B|]. rewrite E. clear. induction r as [|x r IH]; cbn; [reflexivity|]. f_equal. exact IH.
    + intros [_ ->]. apply bare_map. exact B.
  - assert (NB : ~ Forall bare l) by (intros F; apply bare_all in F; congruence).
    unfold remove_unit_of_vector. destruct (existsb _ l) eqn:X.
    + split; [discriminate|]. intros [[F|F] _]; [contradiction|]. exfalso.
      apply existsb_exists in X. destruct X as [v [V W]]. rewrite Forall_forall in F. destruct (F v V) as [y ->]. discriminate.
    + destruct l as [|v l]; [exfalso; apply NB; constructor|].
      rewrite all_floats_ok. destruct (compatible v u) eqn:C.
      * rewrite (map_over_plain u (v :: l) r N). split; [intros [F ->]; split; [right; exact F|reflexivity]|].
        intros [[F|F] ->]; [contradiction|]. split; [exact F|reflexivity].
      * split.
        { intros E. exfalso. apply NB. rewrite E. clear. induction r; cbn; constructor; [eexists; reflexivity|assumption]. }
        { intros [[F|F] _]; [contradiction|]. exfalso. inversion F as [|? ? K]; subst. apply (compatible_iff u v N) in K. congruence. }
Qed.
Lemma remove_unit_iff u v x : fst u <> OtherDim -> remove_unit v u = Ok x <-> single (fst u) v /\ x = conv u v.
Proof.
  intros N. destruct v as [y|d y|]; cbn.
  - split; [intros E; inversion E; split; [left; eexists; reflexivity|reflexivity]|intros [_ ->]; reflexivity].
  - destruct (dim_eqb d (fst u)) eqn:D.
    + assert (d = fst u) by (destruct d, (fst u); cbn in D; congruence). subst d.
      split; [intros E; inversion E; split; [right; eexists; reflexivity|reflexivity]|intros [_ ->]; reflexivity].
    + split; [discriminate|]. intros [[[z E]|[z E]] _]; [discriminate|]. inversion E; subst.
      rewrite (proj2 (dim_eqb_iff (fst u) (fst u) N) eq_refl) in D. discriminate.
  - split; [discriminate|]. intros [[[z E]|[z E]] _]; discriminate.
Qed.
Lemma meter_ok : fst meter <> OtherDim. Proof. discriminate. Qed.
Lemma degree_ok : fst degree <> OtherDim. Proof. discriminate. Qed.
Lemma conv_meter v : conv meter v = metres v.
Proof. destruct v; cbn; try reflexivity. field. Qed.
Lemma conv_degree v : conv degree v = degrees v.
Proof. destruct v; cbn; try reflexivity. field. apply PI_neq0. Qed.
Lemma two_meter a b r : two meter a b = Ok r <-> uniform Length [a; b] /\ r = (metres a, metres b).
Proof.
  unfold two. destruct (remove_units [a; b] meter) as [l|e] eqn:E; cbn.
  - apply (remove_units_iff meter _ _ meter_ok) in E. destruct E as [U ->]. cbn. rewrite !conv_meter.
    split; [intros E; inversion E; auto|intros [_ ->]; reflexivity].
  - split; [discriminate|]. intros [U _]. exfalso.
    assert (F : remove_units [a; b] meter = Ok (map (conv meter) [a; b])) by (apply (remove_units_iff meter _ _ meter_ok); auto). congruence.
Qed.
Lemma three_meter a b c r : three meter a b c = Ok r <-> uniform Length [a; b; c] /\ r = (metres a, metres b, metres c).
Proof.
  unfold three. destruct (remove_units [a; b; c] meter) as [l|e] eqn:E; cbn.
  - apply (remove_units_iff meter _ _ meter_ok) in E. destruct E as [U ->]. cbn. rewrite !conv_meter.
    split; [intros E; inversion E; auto|intros [_ ->]; reflexivity].
  - split; [discriminate|]. intros [U _]. exfalso.
    assert (F : remove_units [a; b; c] meter = Ok (map (conv meter) [a; b; c])) by (apply (remove_units_iff meter _ _ meter_ok); auto). congruence.
Qed.
Lemma three_degree a b c r : three degree a b c = Ok r <-> uniform Angle [a; b; c] /\ r = (degrees a, degrees b, degrees c).
Proof.
  unfold three. destruct (remove_units [a; b; c] degree) as [l|e] eqn:E; cbn.
  - apply (remove_units_iff degree _ _ degree_ok) in E. destruct E as [U ->]. cbn. rewrite !conv_degree.
    split; [intros E; inversion E; auto|intros [_ ->]; reflexivity].
  - split; [discriminate|]. intros [U _]. exfalso.
    assert (F : remove_units [a; b; c] degree = Ok (map (conv degree) [a; b; c])) by (apply (remove_units_iff degree _ _ degree_ok); auto). congruence.
Qed.
Lemma remove_meter v x : remove_unit v meter = Ok x <-> single Length v /\ x = metres v.
Proof. rewrite (remove_unit_iff meter v x meter_ok), conv_meter. reflexivity. Qed.
Lemma remove_degree v x : remove_unit v degree = Ok x <-> single Angle v /\ x = degrees v.
Proof. rewrite (remove_unit_iff degree v x degree_ok), conv_degree. reflexivity. Qed.

(** ** Turns *)
Lemma turn_x a q : turn ex a q = mkV (vx q) (cos a * vy q - sin a * vz q) (sin a * vy q + cos a * vz q).
Proof.
  unfold turn, ex. cbv [norm2 sdot vx vy vz]. replace (1 * 1 + 0 * 0 + 0 * 0) with 1 by ring. rewrite sqrt_1. destruct q as [x y z].
  unfold smul, scross, vadd, sdot. cbn [vx vy vz]. apply mk_eq; field.
Qed.
Lemma turn_y a q : turn ey a q = mkV (cos a * vx q + sin a * vz q) (vy q) (cos a * vz q - sin a * vx q).
Proof.
  unfold turn, ey. cbv [norm2 sdot vx vy vz]. replace (0 * 0 + 1 * 1 + 0 * 0) with 1 by ring. rewrite sqrt_1. destruct q as [x y z].
  unfold smul, scross, vadd, sdot. cbn [vx vy vz]. apply mk_eq; field.
Qed.
Lemma turn_z a q : turn ez a q = mkV (cos a * vx q - sin a * vy q) (sin a * vx q + cos a * vy q) (vz q).
Proof.
  unfold turn, ez. cbv [norm2 sdot vx vy vz]. replace (0 * 0 + 0 * 0 + 1 * 1) with 1 by ring. rewrite sqrt_1. destruct q as [x y z].
  unfold smul, scross, vadd, sdot. cbn [vx vy vz]. apply mk_eq; field.
Qed.
Lemma angles_turn x y z q : dot_mv (orientation_of_angles (x, y, z)) q = turn ex (rad x) (turn ey (rad y) (turn ez (rad z) q)).
Proof.
  rewrite turn_x, turn_y, turn_z. unfold orientation_of_angles, toMatrix_. replace (is_degree "deg") with true by reflexivity.
  change toradian with rad. destruct q as [a b c]. unfold transpose, dot_mv. cbn [m00 m01 m02 m10 m11 m12 m20 m21 m22 vx vy vz].
  apply mk_eq; ring.
Qed.
Lemma angles_orthogonal a : orthogonal (orientation_of_angles a).
Proof.
  destruct a as [[x y] z]. unfold orientation_of_angles. apply orth_transpose. intros a b.
  pose proof (toMatrix__rotation x y z "deg") as [H _]. apply H.
Qed.
Lemma norm2_zero a : norm2 a = 0 -> a = mkV 0 0 0.
Proof. destruct a as [x y z]. unfold norm2, sdot. cbn [vx vy vz]. intros E. apply mk_eq; nra. Qed.
Lemma norm2_nonneg a : 0 <= norm2 a.
Proof. destruct a as [x y z]. unfold norm2, sdot. cbn [vx vy vz]. nra. Qed.
Lemma axis_none axis a : orientation_of_axis axis a = None <-> axis = mkV 0 0 0.
Proof.
  unfold orientation_of_axis, matrix_rotationaboutaxis.
  change (vx axis * vx axis + vy axis * vy axis + vz axis * vz axis) with (norm2 axis). cbv zeta.
  destruct (Reqb (sqrt (norm2 axis)) 0) eqn:E; cbn.
  - split; [|reflexivity]. intros _. apply Reqb_t in E. apply sqrt_eq_0 in E; [|apply norm2_nonneg]. apply norm2_zero. exact E.
  - split; [discriminate|]. intros ->. exfalso. apply Reqb_f in E. apply E. unfold norm2, sdot. cbn [vx vy vz].
    replace (0*0+0*0+0*0) with 0 by ring. apply sqrt_0.
Qed.
Lemma half_cos t : cos t = cos (t/2) * cos (t/2) - sin (t/2) * sin (t/2).
Proof. replace t with (2 * (t / 2)) at 1 by field. apply cos_2a. Qed.
Lemma half_sin t : sin t = 2 * sin (t/2) * cos (t/2).
Proof. replace t with (2 * (t / 2)) at 1 by field. apply sin_2a. Qed.
Lemma axis_turn axis a m : orientation_of_axis axis a = Some m -> forall q, dot_mv m q = turn axis (rad a) q.
Proof.
  unfold orientation_of_axis, matrix_rotationaboutaxis.
  change (vx axis * vx axis + vy axis * vy axis + vz axis * vz axis) with (norm2 axis). cbv zeta.
  destruct (Reqb (sqrt (norm2 axis)) 0) eqn:E; cbn [option_map]; [discriminate|]. apply Reqb_f in E.
  intros H q. injection H as <-.
  replace (a * (PI / 180)) with (rad a) by (unfold rad; field). set (t := rad a). clearbody t.
  unfold turn. cbv zeta. rewrite (half_cos t), (half_sin t).
  pose proof (sin2_cos2 (t/2)) as SC. unfold Rsqr in SC.
  set (s := sin (t/2)) in *. set (c := cos (t/2)) in *. clearbody s c.
  set (L := sqrt (norm2 axis)) in *.
  assert (U : norm2 axis = L * L) by (unfold L; symmetry; apply sqrt_sqrt, norm2_nonneg). clearbody L.
  destruct axis as [ax ay az]. destruct q as [x y z]. unfold norm2, sdot in U. cbn [vx vy vz] in *.
  set (u := ax / L). set (v := ay / L). set (w := az / L).
  assert (UN : u * u + v * v + w * w = 1).
  { unfold u, v, w. transitivity ((ax * ax + ay * ay + az * az) / (L * L)); [field; exact E|]. rewrite U. field. exact E. }
  unfold smul, scross, vadd, sdot, transpose, dot_mv. cbn [vx vy vz m00 m01 m02 m10 m11 m12 m20 m21 m22].
  replace (/ L * ax) with u by (unfold u; field; exact E). replace (/ L * ay) with v by (unfold v; field; exact E).
  replace (/ L * az) with w by (unfold w; field; exact E). clearbody u v w. clear E U.
  assert (C1 : 1 - (c * c - s * s) = 2 * (s * s)) by lra. rewrite C1.
  assert (C2 : u * u = 1 - v * v - w * w) by lra.
  apply mk_eq.
  - replace (u * s * (u * s)) with (s * s * (u * u)) by ring. 
    transitivity ((c*c - s*s) * x + 2*s*c*(v*z - w*y) + 2*(s*s)*((u*u)*x + u*v*y + u*w*z)); [rewrite C2; ring|ring].
  - transitivity ((c*c - s*s) * y + 2*s*c*(w*x - u*z) + 2*(s*s)*(u*v*x + (v*v)*y + v*w*z)); [|ring].
    replace (v * v) with (1 - u * u - w * w) by lra. replace (u * s * (u * s)) with (s * s * (u * u)) by ring.
    replace (v * s * (v * s)) with (s * s * (1 - u * u - w * w)) by (replace (1 - u*u - w*w) with (v*v) by lra; ring). ring.
  - transitivity ((c*c - s*s) * z + 2*s*c*(u*y - v*x) + 2*(s*s)*(u*w*x + v*w*y + (w*w)*z)); [|ring].
    replace (w * w) with (1 - u * u - v * v) by lra. replace (u * s * (u * s)) with (s * s * (u * u)) by ring.
    replace (w * s * (w * s)) with (s * s * (1 - u * u - v * v)) by (replace (1 - u*u - v*v) with (w*w) by lra; ring). ring.
Qed.
