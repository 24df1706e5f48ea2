(** Proofs about kernels that are leaves. *)
From Coq Require Import Reals ZArith Lra Lia.
From Verif Require Import Base RotModel KxmlModel KxmlSpec KxmlProofs KxmlProofs2.
Open Scope string_scope. Open Scope R_scope.

Definition evals (e : env) (m : material) (attrs : list (string * string)) (tag : string) (cs : list xml) (c : ckernel) : Prop :=
  exists l fs, createKernel e tag attrs = Ok l
    /\ match holds l with None => cs = [] | Some k => Forall2 (reads_functor e k) cs fs end
    /\ render_leaf e (Some m) (put_all l fs) = Ok c.
Lemma put_none : forall fs l, holds l = None -> put_all l fs = l.
Proof. induction fs as [|f fs IH]; intros l H; [reflexivity|]. change (put_all (put l f) fs = l). rewrite IH; destruct l; try discriminate; reflexivity. Qed.
Lemma ten_ten : 10 ^ 10 <> 0. Proof. apply pow_nonzero; lra. Qed.
Lemma one_not : 1 <> 0. Proof. lra. Qed.
Lemma snoc_cases : forall (A : Type) (l : list A), l = [] \/ exists l' x, l = (l' ++ [x])%list.
Proof. intros A l. induction l as [|x l _] using rev_ind; [auto|eauto]. Qed.

Ltac nz := first [assumption | exact ten_ten | exact one_not].
Ltac num := match goal with
  | D : NoDup (map fst ?a) |- number ?e ?a ?n ?d ?s ?x => apply (proj1 (number_ok e a n d s x D ltac:(nz))); eexists; split; eassumption
  | D : NoDup (map fst ?a) |- tuple ?e ?a ?n ?d ?s [?x; ?y] => apply (proj1 (tuple2_ok e a n d s x y D ltac:(nz))); eexists; split; eassumption
  | D : NoDup (map fst ?a) |- tuple ?e ?a ?n ?d ?s [?x; ?y; ?z] => apply (proj1 (tuple3_ok e a n d s x y z D ltac:(nz))); eexists; split; eassumption
  | D : NoDup (map fst ?a) |- has ?a ?n ?t => apply (proj1 (text_ok a n t D)); assumption
  | D : NoDup (map fst ?a) |- coefs ?e (?p ?m) ?a ?na ?ns ?d ?x ?y => apply (proj1 (coefs_ok e m p a na ns d x y D)); do 2 eexists; split; [eassumption|split; eassumption]
  | D : NoDup (map fst ?a) |- coefs_strict ?e (?p ?m) ?a ?na ?ns ?d ?x ?y =>
      apply (proj1 (coefs_strict_ok e m a na ns x y D)); do 2 eexists; split; [eassumption|split; eassumption]
  | |- of_material (?p ?m) ?a ?s => apply of_material_ok
  end.

Lemma evals_means : forall e m attrs tag cs c, NoDup (map fst attrs) -> e_meV e <> 0 -> evals e m attrs tag cs c -> leaf_means e m attrs tag cs c.
Proof.
  intros e m attrs tag cs c D M (l & fs & C & F & R). unfold createKernel in C. cbv zeta in C.
  repeat match type of C with (if String.eqb tag ?t then _ else _) = _ => destruct (String.eqb_spec tag t) as [->|_] end; try discriminate; binds;
    injection C as <-; cbn [holds] in F; try (rewrite put_none in R by reflexivity; subst cs).
  - binds. injection E as <-. cbn [render_leaf fst snd] in R. binds. destruct v as (a, s). injection R as <-. constructor. num.
  - binds. injection E0 as <-. cbn [render_leaf fst snd] in R. binds. destruct v0 as (a, s). injection R as <-. constructor; num.
  - binds. injection E1 as <-. cbn [render_leaf fst snd] in R. binds. destruct v1 as (a, s). injection R as <-. constructor; num.
  - binds. injection E2 as <-. cbn [render_leaf fst snd] in R. binds. destruct v2 as (a, s). injection R as <-.
    match goal with H : plain_vector ?v = Ok ?w |- _ =>
      destruct v as [?|[|[x| |] [|[y| |] [|[z| |] rest]]]]; try discriminate; cbn in H; injection H as <- end.
    apply needed_ok in E1; [|assumption]. destruct E1 as (t & H & P). apply L_constvQE with t rest; try assumption; num.
  - binds. injection E3 as <-. cbn [render_leaf fst snd] in R. binds. destruct v3 as (a, s). injection R as <-. constructor; num.
  - binds. injection E4 as <-. cbn [render_leaf fst snd] in R. binds. destruct v4 as (a, s). injection R as <-. constructor; num.
  - binds. injection E4 as <-. cbn [render_leaf fst snd] in R. binds. destruct v4 as (a, s). injection R as <-. constructor; num.
  - binds. injection E2 as <-. cbn [render_leaf fst snd] in R. binds. destruct v2 as (a, s). injection R as <-. constructor; num.
  - destruct (snoc_cases _ fs) as [->|(fs' & f & ->)].
    { cbn in R. binds. discriminate. }
    rewrite put_all_app in R. cbn [put render_leaf] in R. binds. destruct v1 as (Emin, Emax), v2 as (Qmin, Qmax), v4 as (a, s).
    cbn [fst snd] in R. cbn in E5. injection E5 as <-. injection R as <-. cbn in E4. injection E4 as E4.
    apply render_functor_ok in E3. destruct E3 as (f' & [= <-] & P). constructor; try num; [|exact E4]. exists fs', f. auto.
  - destruct (snoc_cases _ fs) as [->|(fs' & f & ->)].
    { cbn in R. binds. discriminate. }
    rewrite put_all_app in R. cbn [put render_leaf] in R. binds. destruct v5 as (Emin, Emax), v6 as (Qmin, Qmax), v10 as (a, s).
    cbn [fst snd] in R. cbn in E11. injection E11 as <-. injection R as <-.
    apply render_functor_ok in E9. destruct E9 as (f' & [= <-] & P). constructor; try num. exists fs', f. auto.
  - destruct (snoc_cases _ fs) as [->|(fs' & f & ->)].
    { cbn in R. binds. discriminate. }
    rewrite put_all_app in R. cbn [put render_leaf] in R. binds. destruct v0 as (Qmin, Qmax), v2 as (a, s).
    cbn [fst snd] in R. injection R as <-. cbn in E2. injection E2 as E2.
    apply render_functor_ok in E1. destruct E1 as (f' & [= <-] & P). constructor; try num; [|exact E2]. exists fs', f. auto.
  - destruct (snoc_cases _ fs) as [->|(fs' & f & ->)].
    { cbn in R. discriminate. }
    rewrite put_all_app in R. cbn [put render_leaf] in R. binds. destruct v0 as (a, s).
    cbn [fst snd] in R. injection R as <-. cbn in E0. injection E0 as E0.
    apply render_functor_ok in E. destruct E as (f' & [= <-] & P). constructor; try num; [|exact E0]. exists fs', f. auto.
  - cbn [render_leaf] in R. binds. destruct v3 as (a, s), v4 as (x, y, z). injection R as <-. cbn in E3. injection E3 as E3. constructor; num. exact E3.
Qed.

Ltac gn D M := repeat match goal with
  | H : number _ _ _ _ _ _ |- _ => apply number_ok in H; [|exact D|nz]; destruct H as (? & ? & ?)
  | H : tuple _ _ _ _ _ [_; _] |- _ => apply tuple2_ok in H; [|exact D|nz]; destruct H as (? & ? & ?)
  | H : tuple _ _ _ _ _ [_; _; _] |- _ => apply tuple3_ok in H; [|exact D|nz]; destruct H as (? & ? & ?)
  | H : coefs ?e (?p ?m) ?a ?na ?ns ?d ?x ?y |- _ => apply (coefs_ok e m p a na ns d x y D) in H; destruct H as (? & ? & ? & ? & ?)
  | H : coefs_strict ?e (_ ?m) ?a ?na ?ns _ ?x ?y |- _ => apply (coefs_strict_ok e m a na ns x y D) in H; destruct H as (? & ? & ? & ? & ?)
  | H : of_material _ _ _ |- _ => apply of_material_ok in H
  end.
Ltac rw := repeat match goal with H : ?x = Ok _ |- context [?x] => rewrite H; cbn [bind fst snd] end.
Ltac tx D := repeat match goal with H : has _ _ _ |- _ => apply (text_ok _ _ _ D) in H end.
Ltac dm := unfold dims, energy, inverse_length, area, length_, time_ in *; unfold meV, per_angstrom, per_meter, square_meter, meter, second, dims.
Ltac mk := unfold createKernel; cbv zeta; cbn [String.eqb Ascii.eqb Bool.eqb]; rw; reflexivity.
Ltac plain_leaf D := tx D; eexists; exists (@nil functor); split; [mk|split; [reflexivity|cbn [put_all fold_left render_leaf fst snd]; dm; rw; reflexivity]].
Lemma means_evals : forall e m attrs tag cs c, NoDup (map fst attrs) -> e_meV e <> 0 -> leaf_means e m attrs tag cs c -> evals e m attrs tag cs c.
Proof.
  intros e m attrs tag cs c D M H. unfold evals. destruct H; gn D M.
  1-3: plain_leaf D.
  { assert (N : needed e attrs "momentum-transfer" = Ok (Tup (Plain x :: Plain y :: Plain z :: rest))) by (apply needed_ok; eauto).
    eexists; exists (@nil functor); split; [mk|split; [reflexivity|cbn [put_all fold_left render_leaf fst snd]; dm; rw; reflexivity]]. }
  1-4: plain_leaf D.
  - match goal with H : functor_of _ _ _ _ |- _ => destruct H as (fs & f0 & F & P) end.
    eexists; exists (fs ++ [f0])%list. split; [mk|]. split; [exact F|]. rewrite put_all_app. cbn [put render_leaf]. dm. rw.
    rewrite (proj2 (render_functor_ok FSQE (Some f0) f)) by eauto. cbn [bind coefficients origin_of cell_volume fst snd].
    match goal with H : abs_sctt _ = _ |- _ => rewrite H end. reflexivity.
  - match goal with H : functor_of _ _ _ _ |- _ => destruct H as (fs & f0 & F & P) end.
    eexists; exists (fs ++ [f0])%list. split; [mk|]. split; [exact F|]. rewrite put_all_app. cbn [put render_leaf]. dm. rw.
    rewrite (proj2 (render_functor_ok FSQE (Some f0) f)) by eauto. cbn [bind]. rw. reflexivity.
  - match goal with H : functor_of _ _ _ _ |- _ => destruct H as (fs & f0 & F & P) end.
    eexists; exists (fs ++ [f0])%list. split; [mk|]. split; [exact F|]. rewrite put_all_app. cbn [put render_leaf]. dm. rw.
    rewrite (proj2 (render_functor_ok FSQ (Some f0) f)) by eauto. cbn [bind coefficients origin_of fst snd].
    match goal with H : abs_sctt _ = _ |- _ => rewrite H end. reflexivity.
  - match goal with H : functor_of _ _ _ _ |- _ => destruct H as (fs & f0 & F & P) end.
    eexists; exists (fs ++ [f0])%list. split; [mk|]. split; [exact F|]. rewrite put_all_app. cbn [put render_leaf].
    rewrite (proj2 (render_functor_ok FSvQ (Some f0) f)) by eauto. cbn [bind coefficients origin_of fst snd].
    match goal with H : abs_sctt _ = _ |- _ => rewrite H end. reflexivity.
  - eexists; exists (@nil functor); split; [mk|split; [reflexivity|]]. cbn [put_all fold_left render_leaf coefficients origin_of bind].
    match goal with H : abs_sctt _ = _ |- _ => rewrite H end. dm. rw. reflexivity.
Qed.
Lemma evals_ok : forall e m attrs tag cs c, NoDup (map fst attrs) -> e_meV e <> 0 -> (evals e m attrs tag cs c <-> leaf_means e m attrs tag cs c).
Proof. intros. split; [apply evals_means|apply means_evals]; assumption. Qed.

(** kernels with what is inside *)
Definition kernel_of (e : env) (m : material) (x : xml) (c : ckernel) : Prop :=
  exists cls k, parse_elem e x = Ok (IKernel cls k) /\ render e (set_origin m k) = Ok c.

Lemma createKernel_tag : forall e tag attrs l, createKernel e tag attrs = Ok l -> word_in tag leaf_tags = true.
Proof.
  intros e tag attrs l C. apply word_in_ok. unfold createKernel in C. cbv zeta in C. cbn [In leaf_tags].
  repeat match type of C with (if String.eqb tag ?t then _ else _) = _ => destruct (String.eqb_spec tag t) as [->|_]; [tauto|] end; discriminate.
Qed.
Fixpoint render_all (e : env) (es : list pkernel) : result (list ckernel) :=
  match es with [] => Ok [] | k :: es => let! c := render e k in let! l := render_all e es in Ok (c :: l) end.
Lemma render_comp : forall e w m a es, render e (Comp w m a es) =
  (let! cs := render_all e es in let! b := match a with ANone => Ok false | ABool b => Ok b | AEmpty => Err TypeError end in
   Ok (CComp cs (map (fun k => render_weight (weight_of k)) es) (map (fun k => render_rotmat (rotmat_of k)) es) b)).
Proof.
  intros e w m a es. cbn [render].
  assert (H : (fix each (es : list pkernel) : result (list ckernel) :=
                    match es with [] => Ok [] | k :: es => let! c := render e k in let! l := each es in Ok (c :: l) end) es = render_all e es).
  { induction es as [|k es IH]; [reflexivity|]. cbn [render_all]. destruct (render e k); [|reflexivity]. cbn [bind]. rewrite IH. reflexivity. }
  rewrite H. reflexivity.
Qed.

(* the node a kernel comes from leaves its weight and orientation *)
Definition tagged (e : env) (attrs : list (string * string)) (k : pkernel) : Prop :=
  exists w m, node_weight e attrs = Ok w /\ node_rotmat e attrs = Ok m /\ weight_of k = Some w /\ rotmat_of k = m.
Lemma start_cases : forall e tag attrs it, start e tag attrs = Ok it ->
  (exists w m l, it = IKernel tag (Leaf (Some w) m None l) /\ createKernel e tag attrs = Ok l /\ node_weight e attrs = Ok w /\ node_rotmat e attrs = Ok m)
  \/ (exists w m a, tag = "KernelContainer" /\ it = IKernel "CompositeKernel" (Comp (Some w) m a []) /\ container attrs = Ok a
        /\ node_weight e attrs = Ok w /\ node_rotmat e attrs = Ok m)
  \/ (exists f, it = IFunctor tag f).
Proof.
  intros e tag attrs it H. unfold start in H. destruct (word_in tag leaf_tags).
  - binds. injection H as <-. left. eauto 8.
  - destruct (String.eqb_spec tag "KernelContainer") as [->|_]; [binds; injection H as <-; right; left; eauto 10|].
    destruct (word_in tag functor_tags); [|discriminate]. binds. injection H as <-. right; right; eauto.
Qed.
Lemma inside_comp : forall e cs cls w m a es it, inside e (IKernel cls (Comp w m a es)) cs = Ok it <->
  exists ks, it = IKernel cls (Comp w m a (es ++ ks)%list) /\ Forall2 (fun x k => exists c, parse_elem e x = Ok (IKernel c k)) cs ks.
Proof.
  intros e. induction cs as [|x cs IH]; intros cls w m a es it; cbn [inside].
  - split.
    + intros [= <-]. exists []. rewrite app_nil_r. auto.
    + intros (ks & -> & F). inversion F; subst. rewrite app_nil_r. reflexivity.
  - rewrite bind_ok. split.
    + intros (i & P & H). rewrite bind_ok in H. destruct H as (it' & R & H). destruct i as [c k|c f]; [|discriminate]. cbn [receive] in R.
      injection R as <-. apply IH in H. destruct H as (ks & -> & F). exists (k :: ks). rewrite <- app_assoc. split; [reflexivity|]. constructor; eauto.
    + intros (ks & -> & F). inversion F as [|x' k cs' ks' (c & P) F']; subst. exists (IKernel c k). split; [assumption|]. cbn [receive bind]. apply IH.
      exists ks'. rewrite <- app_assoc. auto.
Qed.
Lemma parse_tagged : forall e x cls k, well_formed x -> parse_elem e x = Ok (IKernel cls k) -> tagged e (attrs_of x) k.
Proof.
  intros e [tag attrs cs] cls k W H. inversion W as [t a c D F]; subst. rewrite parse_elem_eq in H. binds. cbn [attrs_of]. apply start_cases in E.
  destruct E as [(w & m & l & -> & C & Nw & Nm)|[(w & m & a & -> & -> & C & Nw & Nm)|(f & ->)]].
  - apply inside_leaf in H; [|assumption]. destruct H as (fs & [= -> ->] & _). exists w, m. auto.
  - apply inside_comp in H. destruct H as (ks & [= -> ->] & _). exists w, m. auto.
  - apply functor_children in H. destruct H as (_ & H). discriminate.
Qed.
Lemma set_origin_tags : forall m k, weight_of (set_origin m k) = weight_of k /\ rotmat_of (set_origin m k) = rotmat_of k.
Proof. intros m [w r o l|w r a es]; auto. Qed.

Lemma container_ok : forall attrs b, NoDup (map fst attrs) ->
  ((exists a, container attrs = Ok a /\ match a with ANone => Ok false | ABool b => Ok b | AEmpty => Err TypeError end = Ok b)
   <-> (forall name t, has attrs name t -> name = "average" \/ name = "weight") /\ averages attrs b).
Proof.
  intros attrs b D. unfold container, averages.
  assert (A : forallb (fun kv => word_in (fst kv) ["average"; "weight"]) attrs = true <-> (forall name t, has attrs name t -> name = "average" \/ name = "weight")).
  { rewrite forallb_forall. unfold has. split.
    - intros H name t I. apply H in I. apply word_in_ok in I. cbn in I. intuition.
    - intros H (name, t) I. apply word_in_ok. apply H in I. cbn. intuition. }
  destruct (forallb _ attrs).
  - destruct (get_cases attrs "average" D) as [(-> & N)|(t & -> & H)].
    + split; [intros (a & [= <-] & [= <-]); split; [apply A; reflexivity|left; auto]|].
      intros (_ & [(_ & ->)|(t & H & _)]); [exists ANone; auto|exfalso; exact (N _ H)].
    + destruct (String.eqb_spec t "") as [->|Nt].
      * split; [intros (a & [= <-] & H'); discriminate|]. intros (_ & [(N & _)|(t & H' & Nt & _)]); [exfalso; exact (N _ H)|].
        exfalso. apply Nt. eapply has_fun; eassumption.
      * split.
        -- intros (a & [= <-] & [= <-]). split; [apply A; reflexivity|]. right. exists t. split; [assumption|split; [assumption|exact (word_in_ok (lower t) ["1"; "on"; "yes"; "true"])]].
        -- intros (_ & [(N & _)|(t' & H' & _ & B)]); [exfalso; exact (N _ H)|]. rewrite (has_fun _ _ _ _ D H H').
           eexists; split; [reflexivity|]. f_equal. rewrite <- word_in_ok in B.
           destruct (word_in (lower t') ["1"; "on"; "yes"; "true"]), b; try reflexivity; intuition congruence.
  - split; [intros (a & H & _); discriminate|]. intros (H & _). apply A in H. discriminate.
Qed.
Lemma weight_pos : forall e attrs w, weight e attrs w -> 0 < w.
Proof. intros e attrs w [(_ & ->)|(t & _ & _ & _ & P)]; lra. Qed.

Definition tree_ind : forall P : xml -> Prop, (forall tag attrs cs, Forall P cs -> P (Elem tag attrs cs)) -> forall x, P x :=
  fun P H => fix go (x : xml) : P x :=
    match x with
    | Elem tag attrs cs => H tag attrs cs ((fix all (cs : list xml) : Forall P cs :=
        match cs with [] => Forall_nil P | c :: cs => Forall_cons c (go c) (all cs) end) cs)
    end.

Theorem kernel_iff : forall e m, e_meV e <> 0 -> forall x, well_formed x -> forall c, kernel_of e m x c <-> kernel_means e m x c.
Proof.
  intros e m M. refine (tree_ind _ _). intros tag attrs cs IH W c. inversion W as [t' a' c' D F]; subst. unfold kernel_of. rewrite parse_elem_eq.
  assert (Bk : forall cls k, (let! it := start e tag attrs in inside e it cs) = Ok (IKernel cls k) -> tagged e attrs k).
  { intros cls k H. rewrite <- parse_elem_eq in H. apply (parse_tagged _ _ _ _ W) in H. exact H. }
  split.
  - intros (cls & k & H & R). binds. apply start_cases in E.
    destruct E as [(w & r & l & -> & C & Nw & Nm)|[(w & r & a & -> & -> & C & Nw & Nm)|(f & ->)]].
    + apply inside_leaf in H; [|assumption]. destruct H as (fs & [= -> ->] & H). cbn [set_origin render] in R.
      apply M_leaf with w (render_rotmat r).
      * apply evals_means; try assumption. exists l, fs. auto.
      * apply weight_ok; assumption.
      * apply rotmat_ok; eauto.
    + apply inside_comp in H. destruct H as (ks & [= -> ->] & H). cbn [app] in R. cbn [set_origin] in R. rewrite render_comp in R. binds.
      injection R as <-.
      assert (K : Forall2 (kernel_means e m) cs v /\ Forall2 (fun x w => weight e (attrs_of x) w) cs (map (fun k => render_weight (weight_of k)) (map (set_origin m) ks))
                  /\ Forall2 (fun x r => orientation e (attrs_of x) r) cs (map (fun k => render_rotmat (rotmat_of k)) (map (set_origin m) ks))).
      { clear - IH F H E M. revert v E. induction H as [|x k cs ks (cl & P) H IHks]; intros v E.
        - cbn in E. injection E as <-. cbn. auto.
        - inversion IH as [|x' cs' I1 I2]; subst. inversion F as [|x' cs' F1 F2]; subst. cbn [map render_all] in E. binds. injection E as <-.
          destruct (IHks I2 F2 _ E1) as (K1 & K2 & K3). cbn [map]. destruct (set_origin_tags m k) as (-> & ->).
          destruct (parse_tagged _ _ _ _ F1 P) as (w & r & Nw & Nr & -> & ->). inversion F1 as [t a c D' Fc]; subst. cbn [attrs_of] in *.
          apply weight_ok in Nw; [|assumption]. rewrite (render_weight_ok w) by (eapply weight_pos; eassumption).
          split; [constructor; [apply I1; [assumption|]|assumption]|split; constructor; try assumption].
          + exists cl, k. auto.
          + apply rotmat_ok; eauto. }
      destruct K as (K1 & K2 & K3). destruct (proj1 (container_ok attrs v0 D)) as (A1 & A2); [eauto|].
      apply M_container with w; try assumption. apply weight_ok; assumption.
    + apply functor_children in H. destruct H as (_ & H). discriminate.
  - intros H. inversion H as [tg at_ ch c0 w r L Wt O|at_ ch ks ws rs b w A1 A2 Wt K1 K2 K3]; subst.
    + apply evals_ok in L; try assumption. destruct L as (l & fs & C & G & R). apply weight_ok in Wt; [|assumption].
      apply rotmat_ok in O; [|assumption]. destruct O as (o & No & <-).
      assert (St : start e tag attrs = Ok (IKernel tag (Leaf (Some w) o None l))).
      { unfold start. rewrite (createKernel_tag _ _ _ _ C), C. cbn [bind]. rewrite Wt. cbn [bind]. rewrite No. reflexivity. }
      exists tag, (Leaf (Some w) o None (put_all l fs)). split; [|exact R]. rewrite St. cbn [bind]. destruct (holds l) as [k|] eqn:Hl.
      * apply leaf_inside with k; assumption.
      * subst cs. cbn [inside]. rewrite put_none by assumption. reflexivity.
    + destruct (proj2 (container_ok attrs b D) (conj A1 A2)) as (a & C & Ab). apply weight_ok in Wt; [|assumption].
      assert (No : node_rotmat e attrs = Ok None).
      { unfold node_rotmat. destruct (get_cases attrs "orientation" D) as [(-> & N)|(t & -> & Ht)]; [reflexivity|]. apply A1 in Ht. destruct Ht; discriminate. }
      assert (St : start e "KernelContainer" attrs = Ok (IKernel "CompositeKernel" (Comp (Some w) None a []))).
      { unfold start. change (word_in "KernelContainer" leaf_tags) with false. cbn [String.eqb Ascii.eqb Bool.eqb]. rewrite C. cbn [bind].
        rewrite Wt. cbn [bind]. rewrite No. reflexivity. }
      assert (K : exists es, Forall2 (fun x k => exists c, parse_elem e x = Ok (IKernel c k)) cs es /\ render_all e (map (set_origin m) es) = Ok ks
                  /\ map (fun k => render_weight (weight_of k)) (map (set_origin m) es) = ws
                  /\ map (fun k => render_rotmat (rotmat_of k)) (map (set_origin m) es) = rs).
      { clear - IH F K1 K2 K3 M. revert ws rs K2 K3. induction K1 as [|x c cs ks Kx K1 IHks]; intros ws rs K2 K3.
        - inversion K2; inversion K3; subst. exists []. auto.
        - inversion IH as [|x' cs' I1 I2]; subst. inversion F as [|x' cs' F1 F2]; subst.
          inversion K2 as [|x' w cs' ws' Hw K2']; subst. inversion K3 as [|x' r cs' rs' Hr K3']; subst.
          destruct (IHks I2 F2 _ _ K2' K3') as (es & E1 & E2 & E3 & E4). apply (I1 F1) in Kx. destruct Kx as (cl & k & P & R).
          exists (k :: es). split; [constructor; eauto|]. cbn [map render_all]. rewrite R. cbn [bind]. rewrite E2. split; [reflexivity|].
          rewrite E3, E4. destruct (set_origin_tags m k) as (-> & ->). destruct (parse_tagged _ _ _ _ F1 P) as (w' & r' & Nw & Nr & -> & ->).
          inversion F1 as [t a c' D' Fc]; subst. cbn [attrs_of] in *. pose proof (weight_pos _ _ _ Hw) as Pw.
          apply weight_ok in Hw; [|assumption]. apply rotmat_ok in Hr; [|assumption]. destruct Hr as (o & No & <-).
          assert (w' = w) by congruence. assert (r' = o) by congruence. subst. rewrite render_weight_ok by assumption. auto. }
      destruct K as (es & E1 & E2 & E3 & E4). exists "CompositeKernel", (Comp (Some w) None a es). split.
      * rewrite St. cbn [bind]. apply inside_comp. exists es. auto.
      * cbn [set_origin]. rewrite render_comp, E2. cbn [bind]. rewrite Ab. cbn [bind]. rewrite E3, E4. reflexivity.
Qed.
