(** Proofs about the reading of attributes and the removal of units. *)
From Coq Require Import Reals ZArith Lra Lia.
From Verif Require Import Base RotModel ChanModel ChanProofs ShapeModel ShapeProofs2 GridModel KxmlModel KxmlSpec.
Open Scope string_scope. Open Scope R_scope.

Lemma bind_ok : forall (A B : Type) (r : result A) (f : A -> result B) y, bind r f = Ok y <-> exists x, r = Ok x /\ f x = Ok y.
Proof. intros A B [a|x] f y; cbn; split; [eauto|intros (z & E & H); congruence|discriminate|intros (z & E & H); discriminate]. Qed.
Ltac binds := repeat match goal with
  | H : bind _ _ = Ok _ |- _ => apply bind_ok in H; let x := fresh "v" in let E := fresh "E" in destruct H as (x & E & H) end.

Lemma get_some : forall attrs name t, NoDup (map fst attrs) -> (get name attrs = Some t <-> has attrs name t).
Proof.
  unfold has. induction attrs as [|(k, v) l IH]; intros name t D; cbn; [split; [discriminate|tauto]|].
  inversion D as [|k' l' N D']; subst. destruct (String.eqb_spec k name) as [->|N'].
  - split; [intros [= ->]; auto|intros [[= ->]|H]; [reflexivity|]]. exfalso; apply N. apply (in_map fst) in H. exact H.
  - rewrite IH by assumption. split; [auto|intros [[= -> _]|H]; [congruence|assumption]].
Qed.
Lemma get_none : forall attrs name, get name attrs = None <-> absent attrs name.
Proof.
  unfold absent. induction attrs as [|(k, v) l IH]; intros name; cbn; [split; [intros _ t []|reflexivity]|].
  destruct (String.eqb_spec k name) as [->|N].
  - split; [discriminate|intros H; exfalso; apply (H v); auto].
  - rewrite IH. split; [intros H t [[= -> _]|I]; [congruence|eapply H; eauto]|intros H t I; apply (H t); auto].
Qed.
Lemma get_cases : forall attrs name, NoDup (map fst attrs) ->
  (get name attrs = None /\ absent attrs name) \/ (exists t, get name attrs = Some t /\ has attrs name t).
Proof.
  intros attrs name D. destruct (get name attrs) as [t|] eqn:E; [right; exists t; split; [reflexivity|apply get_some; assumption]|].
  left; split; [reflexivity|apply get_none; assumption].
Qed.
Lemma has_fun : forall attrs name t t', NoDup (map fst attrs) -> has attrs name t -> has attrs name t' -> t = t'.
Proof. intros attrs name t t' D H H'. apply get_some in H, H'; try assumption. congruence. Qed.

Lemma dims_eqb_spec : forall a b, reflect (a = b) (dims_eqb a b).
Proof.
  intros [[l1 m1] t1] [[l2 m2] t2]; cbn.
  destruct (Z.eqb_spec l1 l2), (Z.eqb_spec m1 m2), (Z.eqb_spec t1 t2); cbn; constructor; congruence.
Qed.
Lemma all_floats_ok : forall v xs, all_floats v = Ok xs <-> v = map Plain xs.
Proof.
  induction v as [|[x|d x|] v IH]; intros xs; cbn.
  - split; [intros [= <-]; reflexivity|destruct xs; [reflexivity|discriminate]].
  - rewrite bind_ok. split.
    + intros (l & E & [= <-]). apply IH in E. cbn. congruence.
    + destruct xs as [|y xs]; cbn; [discriminate|intros [= <- H]]. exists xs. split; [apply IH; assumption|reflexivity].
  - split; [discriminate|destruct xs; discriminate].
  - split; [discriminate|destruct xs; discriminate].
Qed.
Lemma unitless_all : forall v, forallb unitless v = true <-> exists xs, v = map Plain xs.
Proof.
  induction v as [|s v IH]; cbn; [split; [exists []; reflexivity|reflexivity]|].
  rewrite Bool.andb_true_iff, IH. split.
  - intros (U & xs & ->). destruct s as [x|d x|]; try discriminate. exists (x :: xs); reflexivity.
  - intros ([|x xs] & E); [discriminate|injection E as -> ->]. split; [reflexivity|exists xs; reflexivity].
Qed.
Lemma over_plain : forall v d s xs, s <> 0 -> (map (fun y => over y (d, s)) v = map Plain xs <-> v = map (fun x => Quant d (x * s)) xs).
Proof.
  intros v d s xs S. revert xs. induction v as [|y v IH]; intros [|x xs]; cbn [map]; try (split; (reflexivity || discriminate)).
  split.
  - intros [= H1 H2]. f_equal; [|apply IH; assumption].
    destruct y as [z|d' z|]; cbn in H1; try discriminate. destruct (dims_eqb_spec d' d) as [->|]; [|discriminate].
    injection H1 as <-. f_equal. field. assumption.
  - intros [= -> H]. f_equal; [|apply IH; assumption].
    cbn. destruct (dims_eqb_spec d d) as [_|]; [|congruence]. f_equal. field. assumption.
Qed.
Lemma remove_units_ok : forall l d s xs, s <> 0 -> (remove_units l (d, s) = Ok xs <-> numbers d s l xs).
Proof.
  intros l d s xs S. unfold remove_units, numbers. destruct (forallb unitless l) eqn:U.
  - rewrite all_floats_ok. split; [auto|intros [H|H]; [exact H|]].
    apply unitless_all in U. destruct U as (ys & ->). destruct ys as [|y ys], xs as [|x xs]; cbn in *; congruence.
  - destruct l as [|v l]; [discriminate U|].
    destruct (existsb (fun s0 : pyval => match s0 with Other => true | _ => false end) (v :: l)) eqn:O.
    + split; [discriminate|intros H]. exfalso. apply existsb_exists in O. destruct O as (w & I & W). destruct w; try discriminate.
      destruct H as [H|H]; rewrite H in I; apply in_map_iff in I; destruct I as (? & ? & _); discriminate.
    + destruct (compatible v (d, s)) eqn:C.
      * rewrite all_floats_ok, over_plain by assumption. split; [auto|intros [H|H]; [|exact H]].
        exfalso. assert (U' : forallb unitless (v :: l) = true) by (apply unitless_all; eauto). congruence.
      * rewrite all_floats_ok. split; [auto|intros [H|H]; [exact H|]].
        exfalso. destruct xs as [|x xs]; [discriminate|]. injection H as -> _. cbn in C. destruct (dims_eqb_spec d d); congruence.
Qed.
Lemma scalar_ok : forall v d s x, s <> 0 -> (scalar v (d, s) = Ok x <-> exists w, v = Sc w /\ (w = Plain x \/ w = Quant d (x * s))).
Proof.
  intros [[y|d' y|]|l] d s x S; cbn.
  - split; [intros [= ->]; eauto|intros (w & [= <-] & [[= ->]|H]); [reflexivity|discriminate]].
  - destruct (dims_eqb_spec d' d) as [->|N].
    + split; [intros [= <-]; eexists; split; [reflexivity|right; f_equal; field; assumption]|].
      intros (w & [= <-] & [H|[= ->]]); [discriminate|]. f_equal. field. assumption.
    + split; [discriminate|intros (w & [= <-] & [H|[= ? _]]); [discriminate|congruence]].
  - split; [discriminate|intros (w & [= <-] & [H|H]); discriminate].
  - split; [intros H; binds; discriminate|intros (w & H & _); discriminate].
Qed.

Lemma needed_ok : forall e attrs name v, NoDup (map fst attrs) -> (needed e attrs name = Ok v <-> exists t, has attrs name t /\ e_parse e t = Ok v).
Proof.
  intros e attrs name v D. unfold needed. destruct (get_cases attrs name D) as [(-> & A)|(t & -> & H)].
  - split; [discriminate|intros (t & H & _); exfalso; exact (A t H)].
  - split; [eauto|intros (t' & H' & E)]. rewrite (has_fun _ _ _ _ D H H'). exact E.
Qed.
Lemma text_ok : forall attrs name t, NoDup (map fst attrs) -> (text attrs name = Ok t <-> has attrs name t).
Proof.
  intros attrs name t D. unfold text. rewrite <- (get_some attrs name t D). destruct (get name attrs); split; congruence.
Qed.
Lemma number_ok : forall e attrs name d s x, NoDup (map fst attrs) -> s <> 0 ->
  ((exists v, needed e attrs name = Ok v /\ scalar v (d, s) = Ok x) <-> number e attrs name d s x).
Proof.
  intros e attrs name d s x D S. unfold number. split.
  - intros (v & N & C). apply needed_ok in N; [|assumption]. apply scalar_ok in C; [|assumption].
    destruct N as (t & H & P), C as (w & -> & C). eauto.
  - intros (t & v & H & P & C). exists (Sc v). split; [apply needed_ok; eauto|apply scalar_ok; eauto].
Qed.
Lemma pair_ok : forall v d s x y, s <> 0 -> (pair_of v (d, s) = Ok (x, y) <-> exists l, v = Tup l /\ numbers d s l [x; y]).
Proof.
  intros [w|l] d s x y S; unfold pair_of.
  - split; [intros H; binds; discriminate|intros (l & H & _); discriminate].
  - rewrite bind_ok. split.
    + intros (r & E & H). destruct r as [|a [|b [|c r]]]; try discriminate. injection H as -> ->.
      exists l. split; [reflexivity|apply remove_units_ok; assumption].
    + intros (l' & [= <-] & H). exists [x; y]. split; [apply remove_units_ok; assumption|reflexivity].
Qed.
Lemma vector_ok : forall v d s x y z, s <> 0 -> (vector_of v (d, s) = Ok (mkV x y z) <-> exists l, v = Tup l /\ numbers d s l [x; y; z]).
Proof.
  intros [w|l] d s x y z S; unfold vector_of.
  - split; [intros H; binds; discriminate|intros (l & H & _); discriminate].
  - rewrite bind_ok. split.
    + intros (r & E & H). destruct r as [|a [|b [|c [|d' r]]]]; try discriminate. injection H as -> -> ->.
      exists l. split; [reflexivity|apply remove_units_ok; assumption].
    + intros (l' & [= <-] & H). exists [x; y; z]. split; [apply remove_units_ok; assumption|reflexivity].
Qed.
Lemma tuple2_ok : forall e attrs name d s x y, NoDup (map fst attrs) -> s <> 0 ->
  ((exists v, needed e attrs name = Ok v /\ pair_of v (d, s) = Ok (x, y)) <-> tuple e attrs name d s [x; y]).
Proof.
  intros e attrs name d s x y D S. unfold tuple. split.
  - intros (v & N & C). apply needed_ok in N; [|assumption]. apply pair_ok in C; [|assumption].
    destruct N as (t & H & P), C as (l & -> & C). eauto.
  - intros (t & l & H & P & C). exists (Tup l). split; [apply needed_ok; eauto|apply pair_ok; eauto].
Qed.
Lemma tuple3_ok : forall e attrs name d s x y z, NoDup (map fst attrs) -> s <> 0 ->
  ((exists v, needed e attrs name = Ok v /\ vector_of v (d, s) = Ok (mkV x y z)) <-> tuple e attrs name d s [x; y; z]).
Proof.
  intros e attrs name d s x y z D S. unfold tuple. split.
  - intros (v & N & C). apply needed_ok in N; [|assumption]. apply vector_ok in C; [|assumption].
    destruct N as (t & H & P), C as (l & -> & C). eauto.
  - intros (t & l & H & P & C). exists (Tup l). split; [apply needed_ok; eauto|apply vector_ok; eauto].
Qed.

Lemma optional_ok : forall e attrs name c, NoDup (map fst attrs) ->
  (optional e attrs name = Ok c <->
   (c = NoAttr /\ absent attrs name) \/ (c = Empty /\ has attrs name "")
   \/ exists t v, c = Given v /\ has attrs name t /\ t <> "" /\ e_parse e t = Ok v).
Proof.
  intros e attrs name c D. unfold optional. destruct (get_cases attrs name D) as [(-> & A)|(t & -> & H)].
  - split; [intros [= <-]; auto|]. intros [(-> & _)|[(_ & H)|(t & v & _ & H & _)]]; [reflexivity|exfalso; eapply A; eauto..].
  - destruct (String.eqb_spec t "") as [->|N].
    + split; [intros [= <-]; auto|]. intros [(_ & A)|[(-> & _)|(t & v & _ & H' & N & _)]]; [exfalso; exact (A _ H)|reflexivity|].
      exfalso; apply N; eapply has_fun; eassumption.
    + rewrite bind_ok. split; [intros (v & P & [= <-]); right; right; eauto 7|].
      intros [(_ & A)|[(_ & H')|(t' & v & -> & H' & _ & P)]].
      * exfalso; exact (A _ H).
      * exfalso; apply N; eapply has_fun; eassumption.
      * exists v. rewrite (has_fun _ _ _ _ D H H'). auto.
Qed.
Lemma optional_readable : forall e attrs name, NoDup (map fst attrs) -> ((exists c, optional e attrs name = Ok c) <-> readable e attrs name).
Proof.
  intros e attrs name D. unfold readable. split.
  - intros (c & H). apply optional_ok in H; [|assumption]. destruct H as [(_ & A)|[(_ & H)|(t & v & _ & H)]]; eauto.
  - intros [A|[H|(t & v & H & N & P)]]; eexists; apply optional_ok; eauto 8.
Qed.
Lemma of_material_ok : forall p a s, abs_sctt p = (a, s) <-> of_material p a s.
Proof.
  intros ((x, inc), coh) a s. unfold of_material; cbn. split.
  - intros [= -> <-]. eauto.
  - intros (i & c & [= -> -> ->] & ->). reflexivity.
Qed.
Lemma two_ok : forall m pick d c c' a s, c <> NoAttr -> c' <> NoAttr ->
  (coefficients (Some m) pick c c' (d, 1) = Ok (a, s) <-> exists v v', c = Given (Sc v) /\ c' = Given (Sc v') /\ numbers d 1 [v; v'] [a; s]).
Proof.
  intros m pick d c c' a s N N'. split.
  - intros H. assert (B : forall v v', remove_units [v; v'] (d, 1) = Ok [a; s] -> v <> Other /\ v' <> Other).
    { intros v v' E. apply remove_units_ok in E; [|lra]. destruct E as [E|E]; injection E as -> ->; split; discriminate. }
    destruct c as [ | |[v|l]], c' as [ | |[v'|l']]; try congruence; cbn [coefficients] in H;
      apply bind_ok in H; destruct H as (r & E & H); destruct r as [|x [|y [|z r]]]; try discriminate; injection H as -> ->;
      pose proof (B _ _ E) as (B1 & B2); try congruence.
    exists v, v'. repeat split. apply remove_units_ok; [lra|assumption].
  - intros (v & v' & -> & -> & H). cbn [coefficients]. apply bind_ok. exists [a; s]. split; [apply remove_units_ok; [lra|assumption]|reflexivity].
Qed.
Lemma coefs_ok : forall e m pick attrs na ns d a s, NoDup (map fst attrs) ->
  ((exists c c', optional e attrs na = Ok c /\ optional e attrs ns = Ok c' /\ coefficients (Some m) pick c c' (d, 1) = Ok (a, s))
   <-> coefs e (pick m) attrs na ns d a s).
Proof.
  intros e m pick attrs na ns d a s D. unfold coefs. split.
  - intros (c & c' & O & O' & C).
    split; [apply optional_readable; eauto|]. split; [apply optional_readable; eauto|].
    apply optional_ok in O, O'; try assumption.
    assert (K : (c = NoAttr \/ c' = NoAttr) \/ (c <> NoAttr /\ c' <> NoAttr)).
    { destruct c, c'; auto; right; split; discriminate. }
    destruct K as [K|(N & N')].
    + left. split.
      * destruct K as [-> | ->]; [left; destruct O as [(_ & A)|[(? & _)|(? & ? & ? & _)]]|right; destruct O' as [(_ & A)|[(? & _)|(? & ? & ? & _)]]];
          (assumption || discriminate).
      * apply of_material_ok. destruct K as [-> | ->]; [|destruct c]; cbn in C; injection C as C; exact C.
    + right. apply two_ok in C; try assumption. destruct C as (v & v' & -> & -> & Q).
      destruct O as [(? & _)|[(? & _)|(t & w & [= <-] & H & Nt & P)]]; try discriminate.
      destruct O' as [(? & _)|[(? & _)|(t' & w' & [= <-] & H' & Nt' & P')]]; try discriminate.
      unfold both_given. exists t, t', v, v'. auto 8.
  - intros (Ra & Rs & H). apply optional_readable in Ra, Rs; try assumption. destruct Ra as (c & O), Rs as (c' & O'). exists c, c'.
    split; [assumption|]. split; [assumption|].
    destruct H as [(A & M)|(ta & ts & va & vs & Ha & Na & Pa & Hs & Ns & Ps & Q)].
    + apply of_material_ok in M.
      assert (K : c = NoAttr \/ c' = NoAttr).
      { apply optional_ok in O, O'; try assumption.
        destruct A as [A|A]; [left; destruct O as [(-> & _)|[(_ & H)|(t & v & _ & H & _)]]|right; destruct O' as [(-> & _)|[(_ & H)|(t & v & _ & H & _)]]];
          try reflexivity; exfalso; eapply A; eauto. }
      destruct K as [-> | ->]; [|destruct c]; cbn; rewrite M; reflexivity.
    + assert (c = Given (Sc va)).
      { assert (X : optional e attrs na = Ok (Given (Sc va))) by (apply optional_ok; [assumption|right; right; eauto 7]). congruence. }
      assert (c' = Given (Sc vs)).
      { assert (X : optional e attrs ns = Ok (Given (Sc vs))) by (apply optional_ok; [assumption|right; right; eauto 7]). congruence. }
      subst. apply two_ok; try discriminate. eauto.
Qed.
Lemma coefs_strict_ok : forall e m attrs na ns a s, NoDup (map fst attrs) ->
  ((exists c c', optional e attrs na = Ok c /\ optional e attrs ns = Ok c' /\ both_or_none (Some m) c c' = Ok (a, s))
   <-> coefs_strict e (m_areas m) attrs na ns area a s).
Proof.
  intros e m attrs na ns a s D. unfold coefs_strict. split.
  - intros (c & c' & O & O' & C).
    assert (K : (c = NoAttr /\ c' = NoAttr) \/ (c <> NoAttr /\ c' <> NoAttr)).
    { destruct c, c'; auto; cbn in C; (discriminate || (right; split; discriminate)). }
    destruct K as [(-> & ->)|(N & N')].
    + left. apply optional_ok in O, O'; try assumption.
      destruct O as [(_ & A)|[(? & _)|(? & ? & ? & _)]]; try discriminate.
      destruct O' as [(_ & A')|[(? & _)|(? & ? & ? & _)]]; try discriminate.
      split; [assumption|split; [assumption|]]. apply of_material_ok. cbn in C. injection C as C; exact C.
    + right. assert (C' : coefficients (Some m) m_areas c c' square_meter = Ok (a, s)) by (destruct c, c'; try congruence; exact C).
      apply two_ok in C'; try assumption. destruct C' as (v & v' & -> & -> & Q).
      apply optional_ok in O, O'; try assumption.
      destruct O as [(? & _)|[(? & _)|(t & w & [= <-] & H & Nt & P)]]; try discriminate.
      destruct O' as [(? & _)|[(? & _)|(t' & w' & [= <-] & H' & Nt' & P')]]; try discriminate.
      unfold both_given. exists t, t', v, v'. auto 8.
  - intros [(A & A' & M)|(ta & ts & va & vs & Ha & Na & Pa & Hs & Ns & Ps & Q)].
    + exists NoAttr, NoAttr. split; [apply optional_ok; auto|]. split; [apply optional_ok; auto|].
      apply of_material_ok in M. cbn. rewrite M. reflexivity.
    + exists (Given (Sc va)), (Given (Sc vs)).
      split; [apply optional_ok; [assumption|right; right; eauto 7]|]. split; [apply optional_ok; [assumption|right; right; eauto 7]|].
      change (coefficients (Some m) m_areas (Given (Sc va)) (Given (Sc vs)) (area, 1) = Ok (a, s)). apply two_ok; try discriminate. eauto.
Qed.

Lemma weight_ok : forall e attrs w, NoDup (map fst attrs) -> (node_weight e attrs = Ok w <-> weight e attrs w).
Proof.
  intros e attrs w D. unfold node_weight, weight. rewrite bind_ok.
  assert (P : forall x, (if Rleb x 0 then Err ValueError else Ok x) = Ok w <-> x = w /\ 0 < w).
  { intros x. destruct (Rleb x 0) eqn:L; [apply Rleb_true in L|apply Rleb_false in L]; split.
    - discriminate. - intros (-> & ?); lra. - intros [= ->]; split; [reflexivity|lra]. - intros (-> & _); reflexivity. }
  destruct (get_cases attrs "weight" D) as [(-> & A)|(t & -> & H)].
  - split.
    + intros (x & [= <-] & E). apply P in E. left; split; [auto|symmetry; apply E].
    + intros [(_ & ->)|(t & H & _)]; [exists 1; split; [reflexivity|apply P; split; [reflexivity|lra]]|exfalso; exact (A _ H)].
  - destruct (String.eqb_spec t "") as [->|N].
    + split.
      * intros (x & [= <-] & E). apply P in E. left; split; [auto|symmetry; apply E].
      * intros [(_ & ->)|(t & H' & N & _)]; [exists 1; split; [reflexivity|apply P; split; [reflexivity|lra]]|].
        exfalso; apply N; eapply has_fun; eassumption.
    + split.
      * intros (x & F & E). apply P in E. destruct E as (-> & L). right; eauto.
      * intros [([A|H'] & _)|(t' & H' & _ & F & L)].
        -- exfalso; exact (A _ H).
        -- exfalso; apply N; eapply has_fun; eassumption.
        -- exists w. rewrite (has_fun _ _ _ _ D H H'). split; [assumption|apply P; auto].
Qed.
Lemma rotmat_ok : forall e attrs r, NoDup (map fst attrs) ->
  ((exists o, node_rotmat e attrs = Ok o /\ render_rotmat o = r) <-> orientation e attrs r).
Proof.
  intros e attrs r D. unfold node_rotmat, orientation. destruct (get_cases attrs "orientation" D) as [(-> & A)|(t & -> & H)].
  - split.
    + intros (o & [= <-] & <-). left; auto.
    + intros [(_ & ->)|(t & H & _)]; [exists None; auto|exfalso; exact (A _ H)].
  - split.
    + intros (o & E & <-). binds. injection E as <-. right; eauto.
    + intros [(A & _)|(t' & H' & F)]; [exfalso; exact (A _ H)|]. rewrite (has_fun _ _ _ _ D H H'), F. cbn. eauto.
Qed.
Lemma render_weight_ok : forall w, 0 < w -> render_weight (Some w) = w.
Proof. intros w L. unfold render_weight. destruct (Reqb w 0) eqn:E; [apply Reqb_true in E; lra|reflexivity]. Qed.
