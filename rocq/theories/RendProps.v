(** C71: shapes reach the engine as described.  C72: composites are made of their elements. *)
From Coq Require Import Reals Lra Psatz.
From Verif Require Import Base RotModel RotSpec RotProofs ChanModel ChanProofs GridProofs ShapeModel ShapeSpec ShapeProofs RendModel RendSpec
  RendProofs RendProofs2 RendProofs3 RendProofs4 RendProofs5.
Open Scope R_scope.

(** ** C71 *)

(** Descriptions are accepted exactly if their values are: all numbers of a group bare, or all with the right unit; hollow bodies with the inner
    radius below the outer one; axes not zero. *)
Theorem C71_accepts s : acceptable s <-> exists c, render McStas s = Ok c.
Proof. exact (render_accepts s). Qed.
Print Assumptions C71_accepts.

(** The body made from a description consists of the points that the description stands for, with the axes of McStas. *)
Theorem C71_body s c : render McStas s = Ok c -> sensible s ->
  wf c /\ forall p, (solid c p <-> closed_figure s p) /\ (core c p <-> open_figure s p).
Proof. exact (render_body s c). Qed.
Print Assumptions C71_body.

(** The engine finds every point where it is, if its tolerance is small. *)
Theorem C71_located s c : render McStas s = Ok c -> sensible s ->
  forall p, exists t0, 0 < t0 /\ forall tol, 0 < tol < t0 ->
    (locate tol c p = Inside <-> open_figure s p) /\ (locate tol c p = Outside <-> ~ closed_figure s p) /\
    (locate tol c p = Onborder <-> closed_figure s p /\ ~ open_figure s p).
Proof. exact (render_located s c). Qed.
Print Assumptions C71_located.

(** A can standing on its side along the beam: a hollow cylinder of 1 cm and 2 cm radius, 10 cm high, turned by 90 degrees about x. *)
Definition can : pshape := PRotation (PHollowCylinder (Quant Length (1/100)) (Quant Length (2/100)) (Quant Length (1/10)))
                             (Some (Quant Angle (PI/2), Quant Angle 0, Quant Angle 0)) (mkV 0 0 1) (Plain 0) true.
Example C71_example : acceptable can /\ sensible can /\ open_figure can (mkV (15/1000) 0 (3/100)) /\ ~ closed_figure can (mkV (15/1000) (3/100) 0).
Proof.
  assert (T : forall q, turns (Quant Angle (PI/2), Quant Angle 0, Quant Angle 0) q = mkV (vx q) (- vz q) (vy q)).
  { intros q. unfold turns, degrees, rad. rewrite turn_x, turn_y, turn_z. pose proof PI_RGT_0.
    replace (0 * 180 / PI * PI / 180) with 0 by (field; lra). replace (PI / 2 * 180 / PI * PI / 180) with (PI / 2) by (field; lra).
    rewrite cos_0, sin_0, cos_PI2, sin_PI2. cbn [vx vy vz]. apply mk_eq; ring. }
  split; [|split; [|split]].
  - cbn [acceptable can values_ok elems]. split; [split|].
    + right. repeat constructor; eexists; reflexivity.
    + cbn. lra.
    + right. repeat constructor; eexists; reflexivity.
  - cbn. lra.
  - unfold open_figure, can. cbn [figure snd]. exists (mkV (15/1000) (3/100) 0). rewrite T. cbn [vx vy vz upright metres].
    split; [|apply mk_eq; lra]. rewrite Rabs_pos_eq by lra. lra.
  - unfold closed_figure, can. cbn [figure fst]. intros [q [Q E]]. rewrite T in E. destruct q as [x y z]. cbn [vx vy vz] in E. injection E as E1 E2 E3.
    cbn [upright metres vx vy vz] in Q. destruct Q as [_ [Q _]]. subst. assert (z = -3/100) by lra. subst. lra.
Qed.

(** Units do not matter: the same description with bare numbers, in metres and degrees, gives the same. *)
Theorem C71_units cs s : acceptable s -> render cs s = render cs (stripped s).
Proof. exact (render_units cs s). Qed.
Print Assumptions C71_units.
Example C71_units_example : stripped can = PRotation (PHollowCylinder (Plain (1/100)) (Plain (2/100)) (Plain (1/10)))
  (Some (Plain (PI/2 * 180 / PI), Plain (0 * 180 / PI), Plain (0 * 180 / PI))) (mkV 0 0 1) (Plain 0) true.
Proof. reflexivity. Qed.

(** The function locate of mccomposite.geometry uses no adaptor.  It agrees with the engine for bodies without an axis... *)
Theorem C71_plain s : acceptable s -> axis_free s -> render NoAdaptor s = render McStas s.
Proof. exact (render_plain s). Qed.
Print Assumptions C71_plain.
Example C71_plain_example : axis_free (PDifference (PSphere (Plain 2)) (PTranslation (PSphereShell (Plain 0) (Plain 1)) (Plain 0, Plain 0, Plain 1) true)) /\
  acceptable (PDifference (PSphere (Plain 2)) (PTranslation (PSphereShell (Plain 0) (Plain 1)) (Plain 0, Plain 0, Plain 1) true)).
Proof.
  split; [cbn; auto|]. cbn [acceptable values_ok elems metres]. repeat split.
  - left. eexists. reflexivity.
  - left. repeat constructor; eexists; reflexivity.
  - cbn. lra.
  - left. repeat constructor; eexists; reflexivity.
Qed.
(** ... but not for cylinders: it has them along z, the engine along y. *)
Theorem C71_locate_refuted : exists s p c, acceptable s /\ sensible s /\ render McStas s = Ok c /\
  exists t0, 0 < t0 /\ forall tol, 0 < tol < t0 -> py_locate tol p s = Ok Inside /\ locate tol c p = Outside.
Proof.
  set (s := PCylinder (Plain 1) (Plain 10)). set (p := mkV 0 0 4).
  assert (A : acceptable s) by (left; repeat constructor; eexists; reflexivity).
  assert (S : sensible s) by (cbn; lra).
  destruct (proj1 (C71_accepts s) A) as [c R]. exists s, p, c. split; [exact A|]. split; [exact S|]. split; [exact R|].
  assert (RN : render NoAdaptor s = Ok (Cylinder 1 10)) by (apply onCylinder_ok; split; [exact A|reflexivity]).
  destruct (C71_located s c R S p) as [t1 [P1 H1]]. assert (W : wf (Cylinder 1 10)) by (cbn; lra).
  destruct (locate_limit (Cylinder 1 10) p W) as [t2 [P2 H2]].
  exists (Rmin t1 t2). split; [apply Rmin_pos; assumption|]. intros tol T.
  assert (T1 : 0 < tol < t1) by (pose proof (Rmin_l t1 t2); lra). assert (T2 : 0 < tol < t2) by (pose proof (Rmin_r t1 t2); lra).
  split.
  - unfold py_locate. rewrite RN. cbn [bind]. f_equal. apply (H2 tol T2). unfold core, p. cbn [body snd prim vx vy vz]. rewrite Rabs_pos_eq by lra. lra.
  - apply (H1 tol T1). unfold closed_figure, p. cbn [figure fst upright s vx vy vz metres]. lra.
Qed.
Print Assumptions C71_locate_refuted.
(** Rotations about an axis are not possible without an adaptor. *)
Theorem C71_axis_refuted b axis a implicit c : render NoAdaptor (PRotation b None axis a implicit) <> Ok c.
Proof. exact (axis_fails b axis a implicit c). Qed.
Print Assumptions C71_axis_refuted.
Example C71_axis_example : exists c, render McStas (PRotation (PSphere (Plain 1)) None (mkV 0 1 0) (Plain 30) true) = Ok c.
Proof.
  apply C71_accepts. cbn [acceptable values_ok]. repeat split.
  - left. eexists. reflexivity.
  - left. eexists. reflexivity.
  - intros E. injection E as E. lra.
Qed.

(** With the axes of the instrument scientist (beam, side, up) nothing can be moved or turned... *)
Theorem C71_scientist_moves s : acceptable s ->
  (moved s /\ render InstrumentScientist s = Err NotImplementedError) \/ (~ moved s /\ exists c, render InstrumentScientist s = Ok c).
Proof. exact (scientist_outcome s). Qed.
Print Assumptions C71_scientist_moves.
(** ... and the other bodies are the same in these axes, if blocks have named sides. *)
Theorem C71_scientist s c : unmoved s -> render McStas s = Ok c ->
  exists c', render InstrumentScientist s = Ok c' /\ forall p, (solid c' (beam_first p) <-> solid c p) /\ (core c' (beam_first p) <-> core c p).
Proof. exact (fun U => scientist_body s U c). Qed.
Print Assumptions C71_scientist.
Example C71_scientist_example : unmoved (PDifference (PBlock (Sides (Plain 3) (Plain 4) (Plain 5))) (PCylinder (Plain 1) (Plain 9))) /\
  acceptable (PDifference (PBlock (Sides (Plain 3) (Plain 4) (Plain 5))) (PCylinder (Plain 1) (Plain 9))) /\ moved can.
Proof.
  split; [cbn; auto|]. split; [|exact I]. split; left; repeat constructor; eexists; reflexivity.
Qed.

(** ** C72 *)

(** A composite without a shape of its own is accepted exactly if every element is. *)
Theorem C72_accepts loops inner min calls : each_once calls ->
  (exists r, render_composite McStas (build (new_composite None loops inner min) calls) = Ok r) <-> Forall good_call calls.
Proof. exact (composite_accepts loops inner min calls). Qed.
Print Assumptions C72_accepts.

(** Its shape is the union of the elements where they were put, the engine gets the elements in the same places, and the parameters. *)
Theorem C72_composite loops inner min calls en c' : each_once calls -> Forall sensible_call calls ->
  render_composite McStas (build (new_composite None loops inner min) calls) = Ok (en, c') ->
  wf (en_shape en) /\
  (forall p, (solid (en_shape en) p <-> Exists (point_in closed_figure p) calls) /\ (core (en_shape en) p <-> Exists (point_in open_figure p) calls)) /\
  Forall2 placed_as calls (en_elements en) /\
  en_loops en = match loops with None | Some 0%nat => 5%nat | Some n => n end /\
  en_inner_loops en = match inner with None | Some 0%nat => 1%nat | Some n => n end /\
  en_min en = match min with None => 0 | Some r => r end.
Proof.
  intros N S E. destruct (composite_right _ _ _ _ _ _ N S E) as [W [B [F [P1 [P2 P3]]]]]. split; [exact W|]. split; [exact B|]. split; [exact F|].
  rewrite P1, P2, P3. split; [destruct loops as [[|]|]; reflexivity|]. split; [destruct inner as [[|]|]; reflexivity|].
  destruct min as [r|]; [|reflexivity]. cbn [or_real]. destruct (Reqb r 0) eqn:Z; [apply Reqb_t in Z; congruence|reflexivity].
Qed.
Print Assumptions C72_composite.
(** The shape and the elements fit together: a point is in the shape exactly if it is in an element. *)
Theorem C72_consistent loops inner min calls en c' : each_once calls -> Forall sensible_call calls ->
  render_composite McStas (build (new_composite None loops inner min) calls) = Ok (en, c') ->
  forall p, (solid (en_shape en) p <-> Exists (fun '(sh, v, m) => solid (Translation (Rotation sh m) v) p) (en_elements en)) /\
            (core (en_shape en) p <-> Exists (fun '(sh, v, m) => core (Translation (Rotation sh m) v) p) (en_elements en)).
Proof. exact (composite_consistent loops inner min calls en c'). Qed.
Print Assumptions C72_consistent.

(** Two spheres, the second 2 m downstream. *)
Definition ball (n : nat) : element := mkEl n (Homogeneous (PSphere (Plain 1))).
Definition here : triple := (Plain 0, Plain 0, Plain 0).
Definition there : triple := (Plain 0, Plain 0, Plain 2).
Definition two_balls : list placement := [(ball 1, here, here); (ball 2, there, here)].
Lemma bare3 d a b c : uniform d (elems (Plain a, Plain b, Plain c)).
Proof. left. repeat constructor; eexists; reflexivity. Qed.
Lemma ball_good n p o a b c d e f : p = (Plain a, Plain b, Plain c) -> o = (Plain d, Plain e, Plain f) -> good_call (ball n, p, o).
Proof.
  intros -> ->. split; [eexists; reflexivity|]. split; [left; eexists; reflexivity|]. split; apply bare3.
Qed.
Example C72_example : each_once two_balls /\ Forall good_call two_balls /\ Forall sensible_call two_balls /\
  Exists (point_in open_figure (mkV 0 0 (5/2))) two_balls /\ ~ Exists (point_in closed_figure (mkV 0 0 4)) two_balls.
Proof.
  assert (T : forall q, turns here q = q).
  { intros q. unfold turns, here, degrees, rad. rewrite turn_x, turn_y, turn_z. replace (0 * PI / 180) with 0 by field.
    rewrite cos_0, sin_0. destruct q as [x y z]. cbn [vx vy vz]. apply mk_eq; ring. }
  split; [repeat constructor; cbn; intuition discriminate|].
  split; [repeat (apply Forall_cons; [eapply ball_good; reflexivity|]); apply Forall_nil|].
  split; [repeat (apply Forall_cons; [cbn; lra|]); apply Forall_nil|]. split.
  - right. left. exists (mkV 0 0 (1/2)). unfold in_element. rewrite T. split; [apply mk_eq; cbn; lra|]. unfold open_figure. cbn. lra.
  - intros X. assert (G : forall v q, mkV 0 0 4 = vadd q v -> (v = mkV 0 0 0 \/ v = mkV 0 0 2) -> closed_figure (PSphere (Plain 1)) q -> False).
    { intros v [x y z] E [-> | ->] Q; unfold vadd in E; cbn [vx vy vz] in E; injection E as E1 E2 E3; unfold closed_figure in Q; cbn in Q; nra. }
    inversion X as [? ? H|? ? H]; subst.
    + destruct H as [q [Q1 Q2]]. unfold in_element in Q1. rewrite T in Q1. eapply G; [exact Q1|left; reflexivity|exact Q2].
    + inversion H as [? ? H1|? ? H1]; subst; [|inversion H1]. destruct H1 as [q [Q1 Q2]]. unfold in_element in Q1. rewrite T in Q1.
      eapply G; [exact Q1|right; reflexivity|exact Q2].
Qed.

(** A shape of one's own is taken as it is, wherever the elements are. *)
Theorem C72_own_shape s loops inner min calls en c' :
  render_composite McStas (build (new_composite (Some s) loops inner min) calls) = Ok (en, c') -> render McStas s = Ok (en_shape en).
Proof. exact (own_shape s loops inner min calls en c'). Qed.
Print Assumptions C72_own_shape.
(** The shape is made once: elements that are added after the composite was rendered are given to the engine but its shape stays. *)
Theorem C72_kept cs c en c' calls en' c'' : render_composite cs c = Ok (en, c') -> render_composite cs (build c' calls) = Ok (en', c'') ->
  en_shape en' = en_shape en.
Proof. exact (kept_shape cs c en c' calls en' c''). Qed.
Print Assumptions C72_kept.
(** So the points of an element added late need not belong to the composite. *)
Theorem C72_late_refuted : exists loops inner min early late en c' en' c'' p,
  each_once (early ++ late) /\ Forall good_call (early ++ late) /\ Forall sensible_call (early ++ late) /\
  render_composite McStas (build (new_composite None loops inner min) early) = Ok (en, c') /\
  render_composite McStas (build c' late) = Ok (en', c'') /\
  Exists (point_in open_figure p) late /\ ~ solid (en_shape en') p.
Proof.
  destruct C72_example as [N [G [S [X _]]]].
  assert (N1 : each_once [(ball 1, here, here)]) by (repeat constructor; cbn; auto).
  assert (G1 : Forall good_call [(ball 1, here, here)]) by (inversion G; apply Forall_cons; [assumption|apply Forall_nil]).
  assert (S1 : Forall sensible_call [(ball 1, here, here)]) by (inversion S; apply Forall_cons; [assumption|apply Forall_nil]).
  assert (EX : exists en c', render_composite McStas (build (new_composite None None None None) [(ball 1, here, here)]) = Ok (en, c') /\
                 exists r, render_composite McStas (build c' [(ball 2, there, here)]) = Ok r).
  { eexists. eexists. split; [reflexivity|]. eexists. reflexivity. }
  destruct EX as [en [c' [E R]]].
  destruct R as [[en' c''] R]. exists None, None, None, [(ball 1, here, here)], [(ball 2, there, here)], en, c', en', c'', (mkV 0 0 (5/2)).
  split; [exact N|]. split; [exact G|]. split; [exact S|]. split; [exact E|]. split; [exact R|].
  destruct (C72_composite _ _ _ _ _ _ N1 S1 E) as [_ [B _]]. destruct (B (mkV 0 0 (5/2))) as [B1 _].
  assert (T : forall q, turns here q = q).
  { intros q. unfold turns, here, degrees, rad. rewrite turn_x, turn_y, turn_z. replace (0 * PI / 180) with 0 by field.
    rewrite cos_0, sin_0. destruct q as [x y z]. cbn [vx vy vz]. apply mk_eq; ring. }
  split.
  - left. exists (mkV 0 0 (1/2)). unfold in_element. rewrite T. split; [apply mk_eq; cbn; lra|]. unfold open_figure. cbn. lra.
  - rewrite (C72_kept _ _ _ _ _ _ _ E R), B1. intros Y. inversion Y as [? ? H|? ? H]; subst; [|inversion H].
    destruct H as [[x y z] [Q1 Q2]]. unfold in_element in Q1. rewrite T in Q1. unfold vadd in Q1. cbn [vx vy vz here vector_of metres] in Q1.
    injection Q1 as E1 E2 E3. unfold closed_figure in Q2. cbn in Q2. nra.
Qed.
Print Assumptions C72_late_refuted.
(** An object that is added twice is in both cases where it was put last. *)
Theorem C72_twice_refuted cs c e p1 o1 p2 o2 :
  (let! r := render_composite cs (addElement (addElement c e p1 o1) e p2 o2) in Ok (fst r)) =
  (let! r := render_composite cs (addElement (addElement c e p2 o2) e p2 o2) in Ok (fst r)).
Proof. exact (twice cs c e p1 o1 p2 o2). Qed.
Print Assumptions C72_twice_refuted.
Example C72_twice_example : exists en c', render_composite McStas (build (new_composite None None None None) [(ball 1, here, here); (ball 1, there, here)]) = Ok (en, c').
Proof. eexists. eexists. reflexivity. Qed.
(** With the axes of the instrument scientist a composite needs a shape of its own. *)
Theorem C72_scientist_refuted loops inner min k calls r :
  render_composite InstrumentScientist (build (new_composite None loops inner min) (k :: calls)) <> Ok r.
Proof. exact (scientist_composite loops inner min k calls r). Qed.
Print Assumptions C72_scientist_refuted.
