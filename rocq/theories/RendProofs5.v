(** Lemmas for C72. *)
From Coq Require Import Reals Lra Psatz.
From Verif Require Import Base RotModel RotSpec RotProofs ChanModel ChanProofs GridProofs ShapeModel ShapeSpec ShapeProofs RendModel RendSpec RendProofs RendProofs2 RendProofs3 RendProofs4.
Open Scope R_scope.

Definition elem (k : placement) : element := fst (fst k).
Definition reg (k : placement) : nat * (triple * triple) := (el_id (elem k), (snd (fst k), snd k)).
Lemma build_eq calls c : build c calls =
  mkC (c_shape c) (c_elements c ++ map elem calls) (rev (map reg calls) ++ c_geometer c) (c_loops c) (c_inner_loops c) (c_min c).
Proof.
  revert c. induction calls as [|[[e p] o] calls IH]; intros c.
  - cbn. rewrite app_nil_r. destruct c; reflexivity.
  - change (build c ((e, p, o) :: calls)) with (build (addElement c e p o) calls). rewrite IH. cbn [addElement c_shape c_elements c_geometer c_loops c_inner_loops c_min map rev].
    rewrite <- !app_assoc. reflexivity.
Qed.
Lemma registered_in g i po : NoDup (map fst g) -> In (i, po) g -> registered g i = Ok po.
Proof.
  induction g as [|[j q] g IH]; intros N H; [contradiction|]. cbn in N. inversion N as [|? ? NI N']; subst. cbn [registered]. destruct H as [H|H].
  - inversion H; subst. rewrite Nat.eqb_refl. reflexivity.
  - destruct (Nat.eqb_spec j i) as [->|D]; [|apply IH; assumption]. exfalso. apply NI. apply (in_map fst) in H. exact H.
Qed.
Definition known (c : composite) (k : placement) : Prop := registered (c_geometer c) (el_id (elem k)) = Ok (snd (fst k), snd k).
Lemma build_known c calls : c_geometer c = [] -> each_once calls -> Forall (known (build c calls)) calls.
Proof.
  intros G N. apply Forall_forall. intros k H. unfold known. rewrite build_eq. cbn [c_geometer]. rewrite G, app_nil_r. apply registered_in.
  - rewrite map_rev. apply NoDup_rev. rewrite map_map. unfold each_once in N. erewrite map_ext; [exact N|]. intros [[? ?] ?]. reflexivity.
  - rewrite <- in_rev. apply (in_map reg) in H. exact H.
Qed.
(** descriptions of placed elements *)
Definition placed_desc (k : placement) : pshape :=
  PTranslation (PRotation (shape_of (elem k)) (Some (snd k)) (mkV 0 0 1) (Plain 0) true) (snd (fst k)) true.
Lemma element_shape_ok c k s : known c k -> element_shape c (elem k) = Ok s <-> (exists h, el_scatterer (elem k) = Homogeneous h) /\ s = placed_desc k.
Proof.
  intros K. unfold element_shape, placed_desc, shape_of. destruct (el_scatterer (elem k)) as [h|h].
  - rewrite K. cbn. split; [intros E; inversion E; split; [eauto|reflexivity]|intros [_ ->]; reflexivity].
  - split; [discriminate|]. intros [[h' E] _]. discriminate.
Qed.
Lemma element_shapes_ok c calls l : Forall (known c) calls ->
  element_shapes c (map elem calls) = Ok l <-> Forall (fun k => exists h, el_scatterer (elem k) = Homogeneous h) calls /\ l = map placed_desc calls.
Proof.
  intros K. revert l. induction K as [|k calls K1 K IH]; intros l; cbn [map element_shapes].
  - split; [intros E; inversion E; split; [constructor|reflexivity]|intros [_ ->]; reflexivity].
  - pose proof (element_shape_ok c k) as ES. destruct (element_shape c (elem k)) as [s|e]; cbn [bind].
    + destruct (proj1 (ES s K1) eq_refl) as [H ->]. destruct (element_shapes c (map elem calls)) as [r|e]; cbn [bind].
      * destruct (proj1 (IH r) eq_refl) as [H' ->]. split; [intros E; inversion E; split; [constructor; assumption|reflexivity]|intros [_ ->]; reflexivity].
      * split; [discriminate|]. intros [H' E]. inversion H' as [|? ? H1 H2]; subst. pose proof (proj2 (IH _) (conj H2 eq_refl)). discriminate.
    + split; [discriminate|]. intros [H' E]. inversion H' as [|? ? H1 H2]; subst. pose proof (proj2 (ES _ K1) (conj H1 eq_refl)). discriminate.
Qed.
(** elements of the engine *)
Lemma render_elements_ok c calls : Forall (known c) calls ->
  (Forall good_call calls -> exists l, render_elements McStas c (map elem calls) = Ok l /\ Forall2 placed_as calls l) /\
  (forall l, render_elements McStas c (map elem calls) = Ok l -> Forall good_call calls).
Proof.
  intros K. induction K as [|[[e p] o] calls K1 K [IH1 IH2]].
  - split; [intros _; exists []; split; [reflexivity|constructor]|constructor].
  - unfold known in K1. cbn [elem fst snd] in K1. destruct p as [[px py] pz], o as [[ox oy] oz].
    split.
    + intros G. inversion G as [|? ? G1 G2]; subst. destruct (IH1 G2) as [l [R F]]. destruct G1 as [[h H] [A [U1 U2]]]. cbn [elems] in U1, U2.
      apply render_accepts in A. destruct A as [sh SH].
      exists ((sh, mkV (metres px) (metres py) (metres pz), orientation_of_angles (degrees ox, degrees oy, degrees oz)) :: l). split.
      * cbn [map elem fst snd render_elements]. rewrite H. cbn [render_scatterer]. unfold shape_of in SH. rewrite H in SH. rewrite SH. cbn [bind].
        rewrite K1. cbn [bind]. rewrite (proj2 (three_meter px py pz _) (conj U1 eq_refl)). cbn [bind].
        rewrite (proj2 (three_degree ox oy oz _) (conj U2 eq_refl)). cbn [bind]. change (fun x => fst (fst x)) with elem. rewrite R. reflexivity.
      * constructor; [|exact F]. split; [exact SH|]. split; [apply angles_orthogonal|]. intros g q. unfold in_element. rewrite angles_turn. reflexivity.
    + intros l E. cbn [map elem fst snd render_elements] in E.
      destruct (el_scatterer e) as [h|h] eqn:H; cbn [render_scatterer] in E; [|discriminate].
      destruct (render McStas h) as [sh|] eqn:SH; [|discriminate]. cbn [bind] in E. rewrite K1 in E. cbn [bind] in E.
      destruct (three meter px py pz) as [v|] eqn:T1; [|discriminate]. cbn [bind] in E.
      destruct (three degree ox oy oz) as [a|] eqn:T2; [|discriminate]. cbn [bind] in E. change (fun x => fst (fst x)) with elem in E.
      destruct (render_elements McStas c (map elem calls)) as [r|] eqn:R; [|discriminate]. constructor; [|eapply IH2; reflexivity].
      apply three_meter in T1. apply three_degree in T2. split; [eauto|]. unfold shape_of. rewrite H. split; [apply render_accepts; eauto|]. split; [apply T1|apply T2].
Qed.

Lemma placed_figure k p : let '(e, pos, o) := k in
  (closed_figure (placed_desc k) p <-> exists q, in_element pos o p q /\ closed_figure (shape_of e) q) /\
  (open_figure (placed_desc k) p <-> exists q, in_element pos o p q /\ open_figure (shape_of e) q).
Proof.
  destruct k as [[e pos] o]. unfold closed_figure, open_figure, placed_desc, in_element. cbn [figure fst snd elem].
  split; split.
  - intros [q [[r [H ->]] ->]]. eauto.
  - intros [q [-> H]]. eexists. split; [eexists; split; [exact H|reflexivity]|reflexivity].
  - intros [q [[r [H ->]] ->]]. eauto.
  - intros [q [-> H]]. eexists. split; [eexists; split; [exact H|reflexivity]|reflexivity].
Qed.
Lemma good_desc k : good_call k -> acceptable (placed_desc k).
Proof. destruct k as [[e p] o]. intros [_ [A [U1 U2]]]. cbn [placed_desc acceptable elem fst snd]. auto. Qed.
Lemma sensible_desc k : sensible_call k -> sensible (placed_desc k).
Proof. destruct k as [[e p] o]. exact (fun H => H). Qed.

Lemma composite_accepts loops inner min calls : each_once calls ->
  (exists r, render_composite McStas (build (new_composite None loops inner min) calls) = Ok r) <-> Forall good_call calls.
Proof.
  intros N. set (c := build (new_composite None loops inner min) calls).
  pose proof (build_known (new_composite None loops inner min) calls eq_refl N) as K. fold c in K.
  assert (EL : c_elements c = map elem calls) by (unfold c; rewrite build_eq; reflexivity).
  assert (SH : c_shape c = None) by (unfold c; rewrite build_eq; reflexivity).
  destruct (render_elements_ok c calls K) as [A B]. unfold render_composite. rewrite EL. split.
  - intros [r E]. destruct (render_elements McStas c (map elem calls)) as [l|]; [|discriminate]. eapply B. reflexivity.
  - intros G. destruct (A G) as [l [-> F]]. cbn [bind]. unfold composite_shape. rewrite SH, EL.
    assert (H : Forall (fun k => exists h, el_scatterer (elem k) = Homogeneous h) calls).
    { eapply Forall_impl; [|exact G]. intros [[e p] o] [H _]. exact H. }
    rewrite (proj2 (element_shapes_ok c calls _ K) (conj H eq_refl)). cbn [bind fst].
    assert (AC : acceptable (PUnion (map placed_desc calls))).
    { cbn [acceptable]. apply fold_and. apply Forall_map. eapply Forall_impl; [|exact G]. exact good_desc. }
    apply render_accepts in AC. destruct AC as [sh ->]. cbn. eauto.
Qed.
Lemma composite_right loops inner min calls en c' : each_once calls -> Forall sensible_call calls ->
  render_composite McStas (build (new_composite None loops inner min) calls) = Ok (en, c') ->
  wf (en_shape en) /\
  (forall p, (solid (en_shape en) p <-> Exists (point_in closed_figure p) calls) /\ (core (en_shape en) p <-> Exists (point_in open_figure p) calls)) /\
  Forall2 placed_as calls (en_elements en) /\
  en_loops en = or_nat loops 5 /\ en_inner_loops en = or_nat inner 1 /\ en_min en = or_real min 0.
Proof.
  intros N S E. assert (G : Forall good_call calls) by (apply (composite_accepts loops inner min calls N); eauto).
  set (c := build (new_composite None loops inner min) calls) in *.
  pose proof (build_known (new_composite None loops inner min) calls eq_refl N) as K. fold c in K.
  assert (EL : c_elements c = map elem calls) by (unfold c; rewrite build_eq; reflexivity).
  assert (SH : c_shape c = None) by (unfold c; rewrite build_eq; reflexivity).
  assert (PR : c_loops c = or_nat loops 5 /\ c_inner_loops c = or_nat inner 1 /\ c_min c = or_real min 0) by (unfold c; rewrite build_eq; repeat split).
  destruct (render_elements_ok c calls K) as [A _]. destruct (A G) as [l [R F]].
  unfold render_composite in E. rewrite EL, R in E. cbn [bind] in E. unfold composite_shape in E. rewrite SH, EL in E.
  assert (H : Forall (fun k => exists h, el_scatterer (elem k) = Homogeneous h) calls).
  { eapply Forall_impl; [|exact G]. intros [[e p] o] [H _]. exact H. }
  rewrite (proj2 (element_shapes_ok c calls _ K) (conj H eq_refl)) in E. cbn [bind fst snd] in E.
  destruct (render McStas (PUnion (map placed_desc calls))) as [sh|] eqn:RS; [|discriminate]. cbn [bind] in E. inversion E; subst en c'. cbn [en_shape en_elements en_loops en_inner_loops en_min].
  assert (SS : sensible (PUnion (map placed_desc calls))).
  { cbn [sensible]. apply fold_and. apply Forall_map. eapply Forall_impl; [|exact S]. exact sensible_desc. }
  destruct (render_body _ _ RS SS) as [W B]. split; [exact W|]. split; [|split; [exact F|exact PR]].
  intros p. destruct (B p) as [B1 B2]. rewrite B1, B2. unfold closed_figure at 1, open_figure at 1. cbn [figure fst snd]. rewrite !map_map, !Exists_map.
  split; split; intros X; (eapply Exists_impl; [|exact X]); intros [[e pos] o] Y; destruct (placed_figure (e, pos, o) p) as [P1 P2]; first [apply P1|apply P2]; exact Y.
Qed.
(** the shape of the composite is the union of the elements as they are placed in the engine *)
Lemma composite_consistent loops inner min calls en c' : each_once calls -> Forall sensible_call calls ->
  render_composite McStas (build (new_composite None loops inner min) calls) = Ok (en, c') ->
  forall p, (solid (en_shape en) p <-> Exists (fun '(sh, v, m) => solid (Translation (Rotation sh m) v) p) (en_elements en)) /\
            (core (en_shape en) p <-> Exists (fun '(sh, v, m) => core (Translation (Rotation sh m) v) p) (en_elements en)).
Proof.
  intros N S E p. destruct (composite_right _ _ _ _ _ _ N S E) as [_ [B [F _]]]. destruct (B p) as [B1 B2]. rewrite B1, B2. clear -F S.
  induction F as [|[[e pos] o] [[sh v] m] calls l [R [O H]] F IH].
  - split; split; intros X; inversion X.
  - inversion S as [|? ? S1 S2]; subst. destruct (IH S2) as [I1 I2]. rewrite !Exists_cons, I1, I2. cbn in S1.
    destruct (render_body _ _ R S1) as [_ BB].
    assert (Q : forall P P' : vec3 -> Prop, (forall q, P q <-> P' q) ->
       (exists q, in_element pos o p q /\ P q) <-> (exists q, (exists r, P' r /\ q = dot_mv m r) /\ p = vadd q v)).
    { intros P P' HP. split.
      - intros [q [Q1 Q2]]. apply H in Q1. exists (dot_mv m q). split; [exists q; split; [apply HP; exact Q2|reflexivity]|exact Q1].
      - intros [q [[r [R1 ->]] R2]]. exists r. split; [apply H; exact R2|apply HP; exact R1]. }
    split; apply or_iff_compat_r; apply Q; intros q; destruct (BB q) as [X Y]; symmetry; [exact X|exact Y].
Qed.
(** a shape of one's own *)
Lemma own_shape s loops inner min calls en c' :
  render_composite McStas (build (new_composite (Some s) loops inner min) calls) = Ok (en, c') -> render McStas s = Ok (en_shape en).
Proof.
  unfold render_composite. rewrite build_eq. cbn [c_elements c_shape new_composite composite_shape bind fst snd].
  destruct (render_elements _ _ _) as [l|]; [|discriminate]. cbn [bind]. destruct (render McStas s) as [sh|]; [|discriminate]. cbn [bind].
  intros E. inversion E; subst. reflexivity.
Qed.
(** the shape is kept *)
Lemma kept_shape cs c en c' calls en' c'' : render_composite cs c = Ok (en, c') -> render_composite cs (build c' calls) = Ok (en', c'') ->
  en_shape en' = en_shape en.
Proof.
  unfold render_composite. rewrite build_eq. destruct (render_elements cs c (c_elements c)) as [l|]; [|discriminate]. cbn [bind].
  destruct (composite_shape c) as [[s d]|] eqn:CS; [|discriminate]. cbn [bind fst snd].
  destruct (render cs s) as [sh|] eqn:RS; [|discriminate]. cbn [bind]. intros E. inversion E; subst.
  assert (SD : c_shape c' = Some s).
  { unfold composite_shape in CS. destruct (c_shape c) eqn:CC; [inversion CS; subst; exact CC|].
    destruct (element_shapes c (c_elements c)); [|discriminate]. cbn in CS. inversion CS. reflexivity. }
  cbn [c_elements]. destruct (render_elements cs _ _) as [l'|]; [|discriminate]. cbn [bind]. unfold composite_shape. cbn [c_shape].
  rewrite SD. cbn [bind fst snd]. rewrite RS. cbn [bind]. intros E'. inversion E'. reflexivity.
Qed.
(** an object that is added again *)
Lemma registered_shadow g i po po' j : registered ((i, po) :: (i, po') :: g) j = registered ((i, po) :: (i, po) :: g) j.
Proof. cbn. destruct (Nat.eqb i j); reflexivity. Qed.
Lemma render_elements_geom cs c d l : (forall i, registered (c_geometer c) i = registered (c_geometer d) i) -> render_elements cs c l = render_elements cs d l.
Proof.
  intros H. induction l as [|e l IH]; [reflexivity|]. cbn [render_elements]. rewrite H, IH. reflexivity.
Qed.
Lemma element_shapes_geom c d l : (forall i, registered (c_geometer c) i = registered (c_geometer d) i) -> element_shapes c l = element_shapes d l.
Proof.
  intros H. induction l as [|e l IH]; [reflexivity|]. cbn [element_shapes]. unfold element_shape. rewrite H, IH. reflexivity.
Qed.
Lemma twice cs c e p1 o1 p2 o2 :
  (let! r := render_composite cs (addElement (addElement c e p1 o1) e p2 o2) in Ok (fst r)) =
  (let! r := render_composite cs (addElement (addElement c e p2 o2) e p2 o2) in Ok (fst r)).
Proof.
  set (a := addElement (addElement c e p1 o1) e p2 o2). set (b := addElement (addElement c e p2 o2) e p2 o2).
  assert (G : forall i, registered (c_geometer a) i = registered (c_geometer b) i) by (intros i; apply registered_shadow).
  unfold render_composite. rewrite (render_elements_geom cs a b _ G). change (c_elements a) with (c_elements b).
  destruct (render_elements cs b (c_elements b)) as [l|]; [|reflexivity]. cbn [bind]. unfold composite_shape.
  change (c_shape a) with (c_shape b). change (c_elements a) with (c_elements b). rewrite (element_shapes_geom a b _ G).
  destruct (c_shape b) as [s|]; cbn [bind fst snd].
  - destruct (render cs s); reflexivity.
  - destruct (element_shapes b (c_elements b)) as [r|]; [|reflexivity]. cbn [bind fst snd]. destruct (render cs (PUnion r)); reflexivity.
Qed.
(** the other adaptor *)
Lemma scientist_composite loops inner min k calls r :
  render_composite InstrumentScientist (build (new_composite None loops inner min) (k :: calls)) <> Ok r.
Proof.
  unfold render_composite. rewrite build_eq. cbn [c_elements]. destruct (render_elements _ _ _) as [l|]; [|discriminate]. cbn [bind].
  unfold composite_shape. cbn [c_shape c_elements new_composite app map element_shapes].
  match goal with |- context [element_shape ?c ?e] => destruct (element_shape c e) as [s|] eqn:E end; [|discriminate]. cbn [bind].
  match goal with |- context [element_shapes ?c ?e] => destruct (element_shapes c e) as [sl|] end; [|discriminate]. cbn [bind fst snd].
  unfold element_shape in E. destruct (el_scatterer (elem k)) as [h|]; [|discriminate].
  match type of E with context [registered ?g ?i] => destruct (registered g i) as [po|] end; [|discriminate]. cbn [bind] in E. inversion E; subst. discriminate.
Qed.
