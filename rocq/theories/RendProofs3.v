(** Lemmas for C71: descriptions as a whole. *)
From Coq Require Import Reals Lra Psatz.
From Verif Require Import Base RotModel RotSpec RotProofs ChanModel ChanProofs GridProofs ShapeModel ShapeSpec ShapeProofs RendModel RendSpec RendProofs RendProofs2.
Open Scope R_scope.

(** Turns about an axis keep scalar products. *)
Lemma sdot_turn axis t a b : axis <> mkV 0 0 0 -> sdot (turn axis t a) (turn axis t b) = sdot a b.
Proof.
  intros N. unfold turn. set (l := sqrt (norm2 axis)). assert (P : 0 < norm2 axis).
  { destruct (norm2_nonneg axis) as [H|H]; [exact H|]. exfalso. apply N, norm2_zero. congruence. }
  assert (L : l * l = norm2 axis) by (apply sqrt_sqrt; lra).
  assert (LP : 0 < l) by (apply sqrt_lt_R0; exact P).
  set (u := smul (/ l) axis).
  assert (UU : vx u * vx u + vy u * vy u + vz u * vz u = 1).
  { unfold u, smul. cbn [vx vy vz]. unfold norm2, sdot in L.
    replace (/ l * vx axis * (/ l * vx axis) + / l * vy axis * (/ l * vy axis) + / l * vz axis * (/ l * vz axis))
      with (/ l * / l * (vx axis * vx axis + vy axis * vy axis + vz axis * vz axis)) by ring. rewrite <- L. field. lra. }
  clearbody u. destruct u as [x y z], a as [a1 a2 a3], b as [b1 b2 b3]. cbn [vx vy vz] in UU.
  pose proof (sin2_cos2 t) as SC. unfold Rsqr in SC. set (s := sin t) in *. set (c := cos t) in *. clearbody s c.
  cbv [sdot vadd smul scross vx vy vz].
  assert (X : x * x = 1 - y * y - z * z) by lra. assert (SS : s * s = 1 - c * c) by lra.
  ring_simplify. 
  replace (x ^ 4) with ((x*x)*(x*x)) by ring. 
  ring [X SS].
Qed.
Lemma axis_orthogonal axis a m : orientation_of_axis axis a = Some m -> orthogonal m.
Proof.
  intros E p q. rewrite !(axis_turn _ _ _ E). apply sdot_turn. intros Z. apply (axis_none axis a) in Z. congruence.
Qed.

(** ** accepted descriptions *)
Lemma mcstas_axis_is i a : mcstas_axis i a = axis_of i a.
Proof. destruct i, a; reflexivity. Qed.
Lemma axis_of_zero i a : axis_of i a = mkV 0 0 0 <-> a = mkV 0 0 0.
Proof. destruct i, a as [x y z]; cbn; split; intros E; inversion E; reflexivity. Qed.
Lemma uniform_order i a b c x y z : mcstas_order i (a, b, c) = (x, y, z) -> (uniform Length [x; y; z] <-> uniform Length [a; b; c]) /\
  mkV (metres x) (metres y) (metres z) = vector_of i (a, b, c).
Proof.
  destruct i; cbn; intros E; inversion E; subst; split; try reflexivity. rewrite !uniform_three. tauto.
Qed.
Lemma accepts_all l : Forall faithful l -> (exists cl, render_all McStas l = Ok cl) <-> Forall acceptable l.
Proof.
  intros F. induction F as [|s l [A _] F IH].
  - split; [constructor|]. intros _. exists []. reflexivity.
  - split.
    + intros [cl E]. apply render_all_ok in E. inversion E as [|? ? ? ? H1 H2]; subst. constructor.
      * apply A. eauto.
      * apply IH. apply render_all_ok in H2. eauto.
    + intros G. inversion G as [|? ? G1 G2]; subst. apply A in G1. apply IH in G2. destruct G1 as [c C], G2 as [cl D].
      exists (c :: cl). rewrite render_all_cons, C, D. reflexivity.
Qed.
Lemma agrees_all l cl : Forall faithful l -> Forall2 (fun s c => render McStas s = Ok c) l cl -> Forall sensible l -> Forall2 agrees l cl.
Proof.
  intros F E. revert F. induction E; intros F S; [constructor|]. inversion F as [|? ? [_ A] F']; inversion S; subst. constructor; auto.
Qed.
Lemma all_solid l cl p : Forall2 agrees l cl ->
  (Forall wf cl) /\
  (Forall (fun c => solid c p) cl <-> Forall (fun s => closed_figure s p) l) /\ (Forall (fun c => core c p) cl <-> Forall (fun s => open_figure s p) l) /\
  (Exists (fun c => solid c p) cl <-> Exists (fun s => closed_figure s p) l) /\ (Exists (fun c => core c p) cl <-> Exists (fun s => open_figure s p) l).
Proof.
  intros F. induction F as [|s c l cl [W [A B]] F [W' [I1 [I2 [I3 I4]]]]].
  - repeat split; try constructor; intros E; inversion E.
  - split; [constructor; auto|]. rewrite !Forall_cons_iff, !Exists_cons, I1, I2, I3, I4, (A p), (B p). tauto.
Qed.
Lemma f_union l : Forall faithful l -> faithful (PUnion l).
Proof.
  intros F. split.
  - cbn [acceptable]. rewrite fold_and, <- (accepts_all l F). split.
    + intros [c E]. rewrite render_union in E. destruct (render_all McStas l); [eauto|discriminate].
    + intros [cl E]. exists (Union cl). rewrite render_union, E. reflexivity.
  - intros c E S. rewrite render_union in E. destruct (render_all McStas l) as [cl|] eqn:E'; [|discriminate]. cbn in E. inversion E; subst.
    cbn [sensible] in S. apply fold_and in S. apply render_all_ok in E'. pose proof (agrees_all _ _ F E' S) as G. split.
    + cbn [wf]. apply wf_list. apply (all_solid l cl (mkV 0 0 0) G).
    + unfold closed_figure, open_figure. cbn [figure fst snd]. split; intros p; destruct (all_solid l cl p G) as [_ [_ [_ [A B]]]].
      * rewrite solid_union, A, Exists_map. reflexivity.
      * rewrite core_union, B, Exists_map. reflexivity.
Qed.
Lemma f_inter l : Forall faithful l -> faithful (PIntersection l).
Proof.
  intros F. split.
  - cbn [acceptable]. rewrite fold_and, <- (accepts_all l F). split.
    + intros [c E]. rewrite render_inter in E. destruct (render_all McStas l); [eauto|discriminate].
    + intros [cl E]. exists (Intersection cl). rewrite render_inter, E. reflexivity.
  - intros c E S. rewrite render_inter in E. destruct (render_all McStas l) as [cl|] eqn:E'; [|discriminate]. cbn in E. inversion E; subst.
    cbn [sensible] in S. apply fold_and in S. apply render_all_ok in E'. pose proof (agrees_all _ _ F E' S) as G. split.
    + cbn [wf]. apply wf_list. apply (all_solid l cl (mkV 0 0 0) G).
    + unfold closed_figure, open_figure. cbn [figure fst snd]. split; intros p; destruct (all_solid l cl p G) as [_ [A [B _]]].
      * rewrite solid_inter, A, Forall_map. reflexivity.
      * rewrite core_inter, B, Forall_map. reflexivity.
Qed.
Lemma f_difference a b : faithful a -> faithful b -> faithful (PDifference a b).
Proof.
  intros [A1 A2] [B1 B2]. split.
  - cbn [render acceptable]. rewrite <- A1, <- B1. split.
    + intros [c E]. destruct (render McStas a); [|discriminate]. cbn in E. destruct (render McStas b); [|discriminate]. eauto.
    + intros [[c ->] [d ->]]. cbn. eauto.
  - cbn [render sensible]. intros c E [SA SB]. destruct (render McStas a) as [ca|]; [|discriminate]. cbn in E.
    destruct (render McStas b) as [cb|]; [|discriminate]. cbn in E. inversion E; subst.
    destruct (A2 ca eq_refl SA) as [W1 [S1 C1]], (B2 cb eq_refl SB) as [W2 [S2 C2]]. split; [split; assumption|].
    unfold closed_figure, open_figure in *. cbn [figure fst snd]. split; intros p.
    + rewrite solid_diff, S1, C2. reflexivity.
    + rewrite core_diff, C1, S2. reflexivity.
Qed.
Lemma f_dilation b k : faithful b -> faithful (PDilation b k).
Proof.
  intros [A1 A2]. split.
  - cbn [render acceptable]. rewrite <- A1. split.
    + intros [c E]. destruct (render McStas b); [|discriminate]. eauto.
    + intros [c ->]. cbn. eauto.
  - cbn [render sensible]. intros c E [S K]. destruct (render McStas b) as [cb|]; [|discriminate]. cbn in E. inversion E; subst.
    destruct (A2 cb eq_refl S) as [W [Q C]]. split; [split; assumption|].
    unfold closed_figure, open_figure in *. cbn [figure fst snd]. unfold solid, core in *. cbn [body fst snd].
    split; intros p; split; intros [q [H1 H2]]; exists q; (split; [|exact H2]); first [apply Q|apply C]; exact H1.
Qed.
Lemma f_translation b v i : faithful b -> faithful (PTranslation b v i).
Proof.
  intros [A1 A2]. destruct v as [[x y] z].
  destruct (mcstas_order i (x, y, z)) as [[x' y'] z'] eqn:O. destruct (uniform_order _ _ _ _ _ _ _ O) as [UO VO].
  split.
  - cbn [render acceptable elems]. rewrite O, <- A1, <- UO. split.
    + intros [c E]. destruct (render McStas b) as [cb|]; [|discriminate]. cbn [bind] in E. split; [eauto|].
      destruct (three meter x' y' z') as [r|] eqn:T; [|discriminate]. apply three_meter in T. tauto.
    + intros [[c ->] U]. cbn [bind]. rewrite (proj2 (three_meter x' y' z' _) (conj U eq_refl)). cbn. eauto.
  - cbn [render sensible]. rewrite O. intros c E S. destruct (render McStas b) as [cb|]; [|discriminate]. cbn [bind] in E.
    destruct (three meter x' y' z') as [r|] eqn:T; [|discriminate]. apply three_meter in T. destruct T as [_ ->]. cbn [bind] in E. inversion E; subst.
    destruct (A2 cb eq_refl S) as [W [Q C]]. split; [assumption|]. rewrite VO.
    unfold closed_figure, open_figure in *. cbn [figure fst snd]. unfold solid, core in *. cbn [body fst snd].
    split; intros p; split; intros [q [H1 H2]]; exists q; (split; [|exact H2]); first [apply Q|apply C]; exact H1.
Qed.
Lemma f_rotation b e x a i : faithful b -> faithful (PRotation b e x a i).
Proof.
  intros [A1 A2]. destruct e as [[[p q] r]|].
  - split.
    + cbn [render acceptable elems]. rewrite <- A1. split.
      * intros [c E]. destruct (three degree p q r) as [v|] eqn:T; [|discriminate]. cbn [bind] in E. apply three_degree in T.
        destruct (render McStas b); [|discriminate]. split; [eauto|tauto].
      * intros [[c ->] U]. rewrite (proj2 (three_degree p q r _) (conj U eq_refl)). cbn [bind]. eauto.
    + cbn [render sensible]. intros c E S. destruct (three degree p q r) as [v|] eqn:T; [|discriminate]. cbn [bind] in E.
      apply three_degree in T. destruct T as [_ ->]. destruct (render McStas b) as [cb|]; [|discriminate]. cbn [bind] in E.
      assert (EC : c = Rotation cb (orientation_of_angles (degrees p, degrees q, degrees r))) by congruence. subst c. clear E.
      destruct (A2 cb eq_refl S) as [W [Q C]]. split; [split; [exact W|apply angles_orthogonal]|].
      unfold closed_figure, open_figure in *. cbn [figure fst snd turns]. unfold solid, core in *. cbn [body fst snd].
      split; intros z; split; intros [y [H1 H2]]; exists y; (split; [first [apply Q|apply C]; exact H1|]); rewrite H2, angles_turn; reflexivity.
  - split.
    + cbn [render acceptable]. rewrite <- A1, mcstas_axis_is. split.
      * intros [c E]. destruct (remove_unit a degree) as [v|] eqn:T; [|discriminate]. cbn [bind] in E. apply remove_degree in T.
        destruct (orientation_of_axis (axis_of i x) v) as [m|] eqn:M; [|discriminate]. cbn [bind] in E.
        destruct (render McStas b); [|discriminate]. split; [eauto|]. split; [tauto|]. intros Z. apply (axis_of_zero i) in Z.
        apply (axis_none _ v) in Z. congruence.
      * intros [[c ->] [U N]]. rewrite (proj2 (remove_degree a _) (conj U eq_refl)). cbn [bind].
        destruct (orientation_of_axis (axis_of i x) (degrees a)) as [m|] eqn:M; cbn [bind]; [eauto|].
        exfalso. apply axis_none, axis_of_zero in M. exact (N M).
    + cbn [render sensible]. intros c E S. rewrite mcstas_axis_is in E. destruct (remove_unit a degree) as [v|] eqn:T; [|discriminate]. cbn [bind] in E.
      apply remove_degree in T. destruct T as [_ ->]. destruct (orientation_of_axis (axis_of i x) (degrees a)) as [m|] eqn:M; [|discriminate].
      cbn [bind] in E. destruct (render McStas b) as [cb|]; [|discriminate]. cbn [bind] in E. inversion E; subst.
      destruct (A2 cb eq_refl S) as [W [Q C]]. split; [split; [exact W|exact (axis_orthogonal _ _ _ M)]|].
      unfold closed_figure, open_figure in *. cbn [figure fst snd turns]. unfold solid, core in *. cbn [body fst snd].
      split; intros z; split; intros [y [H1 H2]]; exists y; (split; [first [apply Q|apply C]; exact H1|]); rewrite H2, (axis_turn _ _ _ M); reflexivity.
Qed.
Lemma faithful_all s : faithful s.
Proof.
  induction s using pshape_ind2.
  - apply f_block.
  - apply f_sphere.
  - apply f_cylinder.
  - apply f_pyramid.
  - apply f_cone.
  - apply f_hollow.
  - apply f_shell.
  - apply f_union; assumption.
  - apply f_inter; assumption.
  - apply f_difference; assumption.
  - apply f_dilation; assumption.
  - apply f_translation; assumption.
  - apply f_rotation; assumption.
Qed.
Lemma render_accepts s : acceptable s <-> exists c, render McStas s = Ok c.
Proof. symmetry. apply faithful_all. Qed.
Lemma render_body s c : render McStas s = Ok c -> sensible s ->
  wf c /\ forall p, (solid c p <-> closed_figure s p) /\ (core c p <-> open_figure s p).
Proof. intros E S. destruct (faithful_all s) as [_ H]. destruct (H c E S) as [W [A B]]. split; [exact W|]. intros p. split; auto. Qed.
(** where the engine finds points *)
Lemma render_located s c : render McStas s = Ok c -> sensible s ->
  forall p, exists t0, 0 < t0 /\ forall tol, 0 < tol < t0 ->
    (locate tol c p = Inside <-> open_figure s p) /\ (locate tol c p = Outside <-> ~ closed_figure s p) /\
    (locate tol c p = Onborder <-> closed_figure s p /\ ~ open_figure s p).
Proof.
  intros E S p. destruct (render_body s c E S) as [W B]. destruct (B p) as [B1 B2].
  destruct (locate_limit c p W) as [t0 [P H]]. exists t0. split; [exact P|]. intros tol T. destruct (H tol T) as [H1 [H2 H3]].
  unfold border in H3. rewrite H1, H2, H3, B1, B2. tauto.
Qed.
