(** Lemmas for C71: units and coordinate systems. *)
From Coq Require Import Reals Lra Psatz.
From Verif Require Import Base RotModel RotSpec RotProofs ChanModel ChanProofs GridProofs ShapeModel ShapeSpec ShapeProofs RendModel RendSpec RendProofs RendProofs2 RendProofs3.
Open Scope R_scope.

(** ** units *)
Lemma three_m a b c : uniform Length [a; b; c] -> three meter a b c = three meter (bare_metres a) (bare_metres b) (bare_metres c).
Proof.
  intros U. rewrite (proj2 (three_meter a b c _) (conj U eq_refl)). symmetry. apply three_meter. split; [|reflexivity].
  left. repeat constructor; eexists; reflexivity.
Qed.
Lemma three_d a b c : uniform Angle [a; b; c] -> three degree a b c = three degree (bare_degrees a) (bare_degrees b) (bare_degrees c).
Proof.
  intros U. rewrite (proj2 (three_degree a b c _) (conj U eq_refl)). symmetry. apply three_degree. split; [|reflexivity].
  left. repeat constructor; eexists; reflexivity.
Qed.
Lemma bare_uniform d l : uniform d (map bare_metres l).
Proof. left. induction l; constructor; [eexists; reflexivity|assumption]. Qed.
Lemma units_all l cs : Forall (fun s => acceptable s -> render cs s = render cs (stripped s)) l -> Forall acceptable l ->
  render_all cs l = render_all cs (map stripped l).
Proof.
  intros F A. induction F as [|s l H F IH]; [reflexivity|]. inversion A; subst. cbn [map]. rewrite !render_all_cons, H, IH by assumption. reflexivity.
Qed.
Lemma render_units cs s : acceptable s -> render cs s = render cs (stripped s).
Proof.
  revert cs. induction s using pshape_ind2; intros cs A.
  - destruct b as [[[x y] z]|w h t]; cbn [render stripped on_triple]; cbn [acceptable values_ok elems] in A; unfold onBlock.
    + cbn [bind]. rewrite (three_m x y z A). reflexivity.
    + destruct cs; cbn [bind]; [reflexivity| |].
      * rewrite (three_m w h t A). reflexivity.
      * rewrite (three_m t w h); [reflexivity|]. rewrite uniform_three in *. tauto.
  - cbn [render stripped]. cbn in A. rewrite (proj2 (onSphere_ok r _) (conj A eq_refl)). symmetry. apply onSphere_ok.
    split; [left; eexists; reflexivity|reflexivity].
  - cbn [render stripped]. cbn [acceptable values_ok] in A. rewrite (proj2 (onCylinder_ok cs r h _) (conj A eq_refl)). symmetry. apply onCylinder_ok.
    split; [apply (bare_uniform Length [r; h])|reflexivity].
  - cbn [render stripped]. cbn [acceptable values_ok] in A. rewrite (proj2 (onPyramid_ok cs t w h _) (conj A eq_refl)). symmetry. apply onPyramid_ok.
    split; [apply (bare_uniform Length [t; w; h])|reflexivity].
  - cbn [render stripped]. cbn [acceptable values_ok] in A. rewrite (proj2 (onCone_ok cs r h _) (conj A eq_refl)). symmetry. apply onCone_ok.
    split; [apply (bare_uniform Length [r; h])|reflexivity].
  - cbn [render stripped]. cbn [acceptable values_ok] in A. rewrite (proj2 (onHollow_ok cs a b h _) (conj A eq_refl)). symmetry. apply onHollow_ok.
    split; [split; [apply (bare_uniform Length [a; b; h])|apply A]|reflexivity].
  - cbn [render stripped]. cbn [acceptable values_ok] in A. rewrite (proj2 (onShell_ok a b _) (conj A eq_refl)). symmetry. apply onShell_ok.
    split; [split; [apply (bare_uniform Length [a; b])|apply A]|reflexivity].
  - cbn [stripped]. rewrite !render_union. cbn [acceptable] in A. apply fold_and in A. rewrite (units_all l cs); [reflexivity| |exact A].
    eapply Forall_impl; [|exact H]. cbn. intros s K. apply K.
  - cbn [stripped]. rewrite !render_inter. cbn [acceptable] in A. apply fold_and in A. rewrite (units_all l cs); [reflexivity| |exact A].
    eapply Forall_impl; [|exact H]. cbn. intros s K. apply K.
  - destruct A as [A1 A2]. cbn [render stripped]. rewrite (IHs1 cs A1), (IHs2 cs A2). reflexivity.
  - cbn [render stripped]. rewrite (IHs cs A). reflexivity.
  - destruct A as [A U]. destruct v as [[x y] z]. cbn [render stripped on_triple]. cbn [elems] in U.
    destruct cs; [| |reflexivity].
    + rewrite (IHs _ A), (three_m x y z U). reflexivity.
    + destruct i; cbn [mcstas_order]; rewrite (IHs _ A).
      * rewrite (three_m x y z U). reflexivity.
      * rewrite (three_m y z x); [reflexivity|]. rewrite uniform_three in *. tauto.
  - destruct e as [[[p q] r]|]; cbn [acceptable elems] in A; cbn [render stripped option_map on_triple]; (destruct cs; [| |reflexivity]).
    + rewrite (IHs _ (proj1 A)), (three_d p q r (proj2 A)). reflexivity.
    + rewrite (IHs _ (proj1 A)), (three_d p q r (proj2 A)). reflexivity.
    + rewrite (IHs _ (proj1 A)). reflexivity.
    + destruct A as [A [U _]]. rewrite (IHs _ A). rewrite (proj2 (remove_degree a _) (conj U eq_refl)).
      assert (E : remove_unit (bare_degrees a) degree = Ok (degrees a)) by (apply remove_degree; split; [left; eexists; reflexivity|reflexivity]).
      rewrite E. reflexivity.
Qed.

(** ** without an adaptor *)
Lemma plain_all l : Forall (fun s => acceptable s -> axis_free s -> render NoAdaptor s = render McStas s) l ->
  Forall acceptable l -> Forall axis_free l -> render_all NoAdaptor l = render_all McStas l.
Proof.
  intros F A B. induction F as [|s l H F IH]; [reflexivity|]. inversion A; inversion B; subst. rewrite !render_all_cons, H, IH by assumption. reflexivity.
Qed.
Lemma render_plain s : acceptable s -> axis_free s -> render NoAdaptor s = render McStas s.
Proof.
  induction s using pshape_ind2; intros A F; cbn [axis_free] in F; try contradiction.
  - destruct b; [reflexivity|contradiction].
  - reflexivity.
  - reflexivity.
  - rewrite !render_union. cbn [acceptable] in A. apply fold_and in A. apply fold_and in F. rewrite plain_all by assumption. reflexivity.
  - rewrite !render_inter. cbn [acceptable] in A. apply fold_and in A. apply fold_and in F. rewrite plain_all by assumption. reflexivity.
  - destruct A as [A1 A2], F as [F1 F2]. cbn [render]. rewrite IHs1, IHs2 by assumption. reflexivity.
  - cbn [render]. cbn in A. rewrite IHs by assumption. reflexivity.
  - destruct A as [A1 A2], F as [F1 ->]. destruct v as [[x y] z]. cbn [render mcstas_order]. rewrite IHs by assumption. reflexivity.
  - destruct F as [F1 F2]. destruct e as [[[p q] r]|]; [|congruence]. cbn [acceptable elems] in A. destruct A as [A1 A2].
    cbn [render]. rewrite IHs, (proj2 (three_degree p q r _) (conj A2 eq_refl)) by assumption. cbn [bind].
    destruct (proj1 (render_accepts s) A1) as [c ->]. reflexivity.
Qed.
Lemma axis_fails b x a i c : render NoAdaptor (PRotation b None x a i) <> Ok c.
Proof. cbn [render]. destruct (render NoAdaptor b); discriminate. Qed.

(** ** the other adaptor *)
Definition comes_out (s : pshape) : Prop :=
  acceptable s -> (moved s /\ render InstrumentScientist s = Err NotImplementedError) \/ (~ moved s /\ exists c, render InstrumentScientist s = Ok c).
Lemma comes_all l : Forall comes_out l -> Forall acceptable l ->
  (fold_right or False (map moved l) /\ render_all InstrumentScientist l = Err NotImplementedError) \/
  (~ fold_right or False (map moved l) /\ exists cl, render_all InstrumentScientist l = Ok cl).
Proof.
  intros F A. induction F as [|s l H F IH].
  - right. split; [auto|]. exists []. reflexivity.
  - inversion A as [|? ? A1 A2]; subst. rewrite render_all_cons. cbn [map fold_right]. destruct (H A1) as [[M ->]|[M [c ->]]]; cbn [bind].
    + left. auto.
    + destruct (IH A2) as [[N ->]|[N [cl ->]]]; cbn [bind].
      * left. auto.
      * right. split; [tauto|eauto].
Qed.
Lemma scientist_outcome s : comes_out s.
Proof.
  induction s using pshape_ind2; intros A; cbn [moved].
  - right. split; [auto|]. destruct b as [[[x y] z]|w h t]; cbn [acceptable values_ok elems] in A; cbn [render]; unfold onBlock; cbn [bind].
    + rewrite (proj2 (three_meter x y z _) (conj A eq_refl)). cbn. eauto.
    + assert (U : uniform Length [t; w; h]) by (rewrite uniform_three in *; tauto).
      rewrite (proj2 (three_meter t w h _) (conj U eq_refl)). cbn. eauto.
  - right. split; [auto|]. eexists. apply onSphere_ok. split; [exact A|reflexivity].
  - right. split; [auto|]. eexists. apply onCylinder_ok. split; [exact A|reflexivity].
  - right. split; [auto|]. eexists. apply onPyramid_ok. split; [exact A|reflexivity].
  - right. split; [auto|]. eexists. apply onCone_ok. split; [exact A|reflexivity].
  - right. split; [auto|]. eexists. apply onHollow_ok. split; [exact A|reflexivity].
  - right. split; [auto|]. eexists. apply onShell_ok. split; [exact A|reflexivity].
  - rewrite render_union. cbn [acceptable] in A. apply fold_and in A. destruct (comes_all l H A) as [[M ->]|[M [cl ->]]]; cbn; [left|right]; eauto.
  - rewrite render_inter. cbn [acceptable] in A. apply fold_and in A. destruct (comes_all l H A) as [[M ->]|[M [cl ->]]]; cbn; [left|right]; eauto.
  - destruct A as [A1 A2]. cbn [render]. destruct (IHs1 A1) as [[M ->]|[M [c ->]]]; cbn [bind]; [left; auto|].
    destruct (IHs2 A2) as [[N ->]|[N [d ->]]]; cbn [bind]; [left; auto|right]. split; [tauto|eauto].
  - cbn [render]. destruct (IHs A) as [[M ->]|[M [c ->]]]; cbn [bind]; [left; auto|right; eauto].
  - left. split; [constructor|reflexivity].
  - left. split; [constructor|reflexivity].
Qed.
Definition same_body (c c' : shape) : Prop := forall p, (solid c' (beam_first p) <-> solid c p) /\ (core c' (beam_first p) <-> core c p).
Definition agree_cs (s : pshape) : Prop := unmoved s -> forall c, render McStas s = Ok c ->
  exists c', render InstrumentScientist s = Ok c' /\ same_body c c'.
Lemma bring_back p : exists q, beam_first q = p.
Proof. exists (mkV (vy p) (vz p) (vx p)). destruct p; reflexivity. Qed.
Lemma beam_scale k p : beam_first (vscale k p) = vscale k (beam_first p).
Proof. destruct p; reflexivity. Qed.
Lemma cyl_same r h : same_body (turned_by (Cylinder r h) (-90) 0 0) (Cylinder r h).
Proof.
  intros p. destruct (cyl_agree r h p) as [A B]. rewrite A, B. unfold solid, core. cbn [body fst snd prim beam_first vx vy vz].
  rewrite (Rplus_comm (vz p * vz p)). split; reflexivity.
Qed.
Lemma diff_same a b a' b' : same_body a a' -> same_body b b' -> same_body (Difference a b) (Difference a' b').
Proof.
  intros H1 H2 p. destruct (H1 p) as [A B], (H2 p) as [C D]. rewrite !solid_diff, !core_diff, A, B, C, D. split; reflexivity.
Qed.
Lemma agree_all l cl : Forall agree_cs l -> Forall unmoved l -> Forall2 (fun s c => render McStas s = Ok c) l cl ->
  exists cl', render_all InstrumentScientist l = Ok cl' /\ Forall2 same_body cl cl'.
Proof.
  intros F U E. revert F U. induction E as [|s c l cl E1 E IH]; intros F U.
  - exists []. split; [reflexivity|constructor].
  - inversion F; inversion U; subst. destruct (IH) as [cl' [R S]]; try assumption.
    destruct (H1 ltac:(assumption) c E1) as [c' [R' S']]. exists (c' :: cl'). rewrite render_all_cons, R', R. split; [reflexivity|constructor; assumption].
Qed.
Lemma same_all cl cl' p : Forall2 same_body cl cl' ->
  (Forall (fun c => solid c (beam_first p)) cl' <-> Forall (fun c => solid c p) cl) /\
  (Forall (fun c => core c (beam_first p)) cl' <-> Forall (fun c => core c p) cl) /\
  (Exists (fun c => solid c (beam_first p)) cl' <-> Exists (fun c => solid c p) cl) /\
  (Exists (fun c => core c (beam_first p)) cl' <-> Exists (fun c => core c p) cl).
Proof.
  intros F. induction F as [|c c' cl cl' S F [I1 [I2 [I3 I4]]]].
  - repeat split; try constructor; intros E; inversion E.
  - destruct (S p) as [A B]. rewrite !Forall_cons_iff, !Exists_cons, I1, I2, I3, I4, A, B. tauto.
Qed.
Lemma scientist_body s : agree_cs s.
Proof.
  induction s using pshape_ind2; intros U c E; cbn [unmoved] in U; try contradiction.
  - destruct b as [|w h t]; [contradiction|]. cbn [render] in *. unfold onBlock in *. cbn [bind] in *.
    destruct (three meter w h t) as [v|] eqn:T; [|discriminate]. apply three_meter in T. destruct T as [V ->]. cbn in E. inversion E; subst.
    assert (V' : uniform Length [t; w; h]) by (rewrite uniform_three in *; tauto).
    rewrite (proj2 (three_meter t w h _) (conj V' eq_refl)). cbn [bind]. eexists. split; [reflexivity|].
    intros p. unfold solid, core. cbn [body fst snd prim beam_first vx vy vz]. split; tauto.
  - cbn [render] in *. exists c. split; [exact E|]. apply onSphere_ok in E. destruct E as [_ ->].
    intros p. unfold solid, core. cbn [body fst snd prim beam_first vx vy vz].
    replace (vz p * vz p + vx p * vx p + vy p * vy p) with (vx p * vx p + vy p * vy p + vz p * vz p) by ring. split; reflexivity.
  - cbn [render] in *. apply onCylinder_ok in E. destruct E as [V ->]. eexists. split; [apply onCylinder_ok; split; [exact V|reflexivity]|]. apply cyl_same.
  - cbn [render] in *. apply onPyramid_ok in E. destruct E as [V ->]. eexists. split; [apply onPyramid_ok; split; [exact V|reflexivity]|].
    intros p. rewrite solid_swing, solid_tilt, core_swing, core_tilt. unfold solid, core. cbn [body fst snd prim beam_first vx vy vz].
    rewrite Ropp_involutive. split; tauto.
  - cbn [render] in *. apply onCone_ok in E. destruct E as [V ->]. eexists. split; [apply onCone_ok; split; [exact V|reflexivity]|].
    intros p. rewrite solid_tilt, core_tilt. unfold solid, core. cbn [body fst snd prim beam_first vx vy vz].
    rewrite tilt_sq, (Rplus_comm (vz p * vz p)). split; reflexivity.
  - cbn [render] in *. apply onHollow_ok in E. destruct E as [V ->]. eexists. split; [apply onHollow_ok; split; [exact V|reflexivity]|].
    unfold hollow_result. destruct (Reqb (metres a) 0); [apply cyl_same|]. apply diff_same; apply cyl_same.
  - cbn [render] in *. exists c. split; [exact E|]. apply onShell_ok in E. destruct E as [_ ->].
    assert (SS : forall r, same_body (Sphere r) (Sphere r)).
    { intros r p. unfold solid, core. cbn [body fst snd prim beam_first vx vy vz].
      replace (vz p * vz p + vx p * vx p + vy p * vy p) with (vx p * vx p + vy p * vy p + vz p * vz p) by ring. split; reflexivity. }
    unfold shell_result. destruct (Reqb (metres a) 0); [apply SS|]. apply diff_same; apply SS.
  - rewrite render_union in *. apply fold_and in U. destruct (render_all McStas l) as [cl|] eqn:R; [|discriminate]. cbn in E. inversion E; subst.
    apply render_all_ok in R. destruct (agree_all l cl H U R) as [cl' [-> S]]. eexists. split; [reflexivity|].
    intros p. destruct (same_all cl cl' p S) as [_ [_ [A B]]]. rewrite !solid_union, !core_union, A, B. split; reflexivity.
  - rewrite render_inter in *. apply fold_and in U. destruct (render_all McStas l) as [cl|] eqn:R; [|discriminate]. cbn in E. inversion E; subst.
    apply render_all_ok in R. destruct (agree_all l cl H U R) as [cl' [-> S]]. eexists. split; [reflexivity|].
    intros p. destruct (same_all cl cl' p S) as [A [B _]]. rewrite !solid_inter, !core_inter, A, B. split; reflexivity.
  - cbn [render] in *. destruct U as [U1 U2]. destruct (render McStas s1) as [c1|] eqn:R1; [|discriminate]. cbn [bind] in E.
    destruct (render McStas s2) as [c2|] eqn:R2; [|discriminate]. cbn [bind] in E. inversion E; subst.
    destruct (IHs1 U1 c1 R1) as [d1 [-> D1]], (IHs2 U2 c2 R2) as [d2 [-> D2]]. cbn [bind]. eexists. split; [reflexivity|]. apply diff_same; assumption.
  - cbn [render] in *. destruct (render McStas s) as [c1|] eqn:R1; [|discriminate]. cbn [bind] in E. inversion E; subst.
    destruct (IHs U c1 R1) as [d1 [-> D1]]. cbn [bind]. eexists. split; [reflexivity|]. intros p.
    unfold solid, core in *. cbn [body fst snd]. unfold same_body, solid, core in D1.
    split; split.
    + intros [q [Q1 Q2]]. destruct (bring_back q) as [r <-]. exists r. split; [apply D1; exact Q1|]. rewrite <- beam_scale in Q2.
      destruct p, r; unfold beam_first in Q2; cbn in *; injection Q2 as -> -> ->; reflexivity.
    + intros [q [Q1 ->]]. exists (beam_first q). split; [apply D1; exact Q1|apply beam_scale].
    + intros [q [Q1 Q2]]. destruct (bring_back q) as [r <-]. exists r. split; [apply D1; exact Q1|]. rewrite <- beam_scale in Q2.
      destruct p, r; unfold beam_first in Q2; cbn in *; injection Q2 as -> -> ->; reflexivity.
    + intros [q [Q1 ->]]. exists (beam_first q). split; [apply D1; exact Q1|apply beam_scale].
Qed.
