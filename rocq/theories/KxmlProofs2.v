(** Proofs about functors, grids, and kernels that are leaves. *)
From Coq Require Import Reals ZArith Lra Lia.
From Verif Require Import Base RotModel ChanModel ChanProofs ShapeModel ShapeProofs2 GridModel KxmlModel KxmlSpec KxmlProofs.
Open Scope string_scope. Open Scope R_scope.

Lemma trunc_iff : forall z n, truncZ z = Z.of_nat n <-> integer_part z n.
Proof.
  intros z n. unfold truncZ, integer_part. destruct (Rlt_dec z 0) as [L|L].
  - pose proof (floor_bounds (- z)) as B. split.
    + intros E. assert (F : floorZ (- z) = (- Z.of_nat n)%Z) by lia. rewrite F, opp_IZR, <- INR_IZR_INZ in B.
      pose proof (pos_INR n) as P. destruct n as [|n]; [left; cbn in B; split; [reflexivity|lra]|].
      rewrite S_INR in B. pose proof (pos_INR n) as P'. lra.
    + intros [(-> & H)|(N & H)].
      * assert (F : floorZ (- z) = 0%Z) by (apply floor_unique; cbn; lra). rewrite F. reflexivity.
      * pose proof (pos_INR n). lra.
  - rewrite floor_iff, <- INR_IZR_INZ. destruct n as [|n].
    + cbn. split; [intros H; left; split; [reflexivity|lra]|]. intros [(_ & H)|(N & _)]; [lra|congruence].
    + split; [intros H; right; split; [discriminate|exact H]|]. intros [(? & _)|(_ & H)]; [discriminate|exact H].
Qed.
Lemma axis_ok_passes : forall margin shift bb n b e st,
  (begin_end_step bb = Ok (b, e, st) /\ axis_ok margin shift (b, e, st) n = Ok true)
  <-> axis_passes margin shift bb n (b, e + margin * st, st) /\ e = last bb 0.
Proof.
  intros margin shift bb n b e st. unfold axis_passes. split.
  - intros (B & A). destruct bb as [|b0 [|b1 rest]]; try discriminate. cbn [begin_end_step] in B. injection B as -> E <-.
    cbn [axis_ok] in A. destruct (Reqb (b1 - b) 0) eqn:Z0; [discriminate|]. apply Reqb_false in Z0. injection A as A. apply Z.eqb_eq in A.
    split; [|symmetry; exact E]. exists b, b1, rest. rewrite <- E in *.
    split; [reflexivity|]. split; [assumption|]. split; [reflexivity|]. apply trunc_iff. symmetry; exact A.
  - intros ((b0 & b1 & rest & -> & N & [= -> E ->] & T) & ->). cbn [begin_end_step]. split; [reflexivity|].
    cbn [axis_ok]. destruct (Reqb (b1 - b0) 0) eqn:Z0; [apply Reqb_true in Z0; congruence|]. f_equal. apply Z.eqb_eq. symmetry. apply trunc_iff. exact T.
Qed.
Lemma grid_axes_ok : forall margin shift axes shape l, grid_axes margin shift axes shape = Ok l <-> grid_passes margin shift axes shape l.
Proof.
  intros margin shift. induction axes as [|bb axes IH]; intros [|n shape] l.
  - cbn. split; [intros [= <-]; constructor|intros H; inversion H; reflexivity].
  - cbn. split; [discriminate|intros H; inversion H].
  - cbn. split; [discriminate|intros H; inversion H].
  - cbn [grid_axes]. split.
    + intros H. binds. destruct v0; [|discriminate]. binds. destruct v as ((b, e), st). injection H as <-.
      apply IH in E1. destruct (proj1 (axis_ok_passes margin shift bb n b e st) (conj E E0)) as (A & _).
      constructor; assumption.
    + intros H. inversion H as [|bb' n' ax bbs ns axs A G]; subst. pose proof A as A'.
      destruct A' as (b0 & b1 & rest & Ebb & N & -> & T).
      destruct (proj2 (axis_ok_passes margin shift bb n b0 (last bb 0) (b1 - b0)) (conj A eq_refl)) as (B & C).
      rewrite B. cbn [bind]. rewrite C. cbn [bind]. rewrite (proj2 (IH _ _) G). reflexivity.
Qed.
Lemma render_functor_ok : forall k f c, render_functor k f = Ok c <-> exists f', f = Some f' /\ passes k f' c.
Proof.
  intros k [[s|h]|] c; cbn [render_functor].
  - split; [intros [= <-]; eexists; split; [reflexivity|constructor]|]. intros (f' & [= <-] & P). inversion P; subst. reflexivity.
  - assert (M : axes_margin_shift k = (fdim k, fmargin k, fshift k)).
    { destruct k; cbn [axes_margin_shift fdim fmargin fshift]; repeat (f_equal; try lra). }
    destruct (Nat.eqb_spec (List.length (h_axes h)) (fdim k)) as [L|L]; cbn [negb].
    + split.
      * intros H. binds. injection H as <-. apply grid_axes_ok in E. eexists; split; [reflexivity|]. econstructor; eassumption.
      * intros (f' & [= <-] & P). inversion P as [|h' axs n margin shift E L' G]; subst. rewrite M in E. injection E as E1 E2 E3. subst.
        rewrite (proj2 (grid_axes_ok _ _ _ _ _) G). reflexivity.
    + split; [discriminate|]. intros (f' & [= <-] & P). inversion P as [|h' axs n margin shift E L' G]; subst. rewrite M in E.
      injection E as E1 E2 E3. congruence.
  - split; [discriminate|intros (f' & H & _); discriminate].
Qed.

Lemma word_in_ok : forall s l, word_in s l = true <-> In s l.
Proof.
  intros s l. unfold word_in. rewrite existsb_exists. split.
  - intros (x & I & E). apply String.eqb_eq in E. congruence.
  - intros I. exists s. split; [assumption|apply String.eqb_refl].
Qed.
Lemma word_in_no : forall s l, word_in s l = false <-> ~ In s l.
Proof. intros s l. rewrite <- word_in_ok. destruct (word_in s l); split; congruence. Qed.

(* an element inside which everything is done *)
Fixpoint inside (e : env) (it : item) (cs : list xml) : result item :=
  match cs with
  | [] => Ok it
  | c :: cs => let! i := parse_elem e c in let! it := receive it i in inside e it cs
  end.
Lemma parse_elem_eq : forall e tag attrs cs, parse_elem e (Elem tag attrs cs) = (let! it := start e tag attrs in inside e it cs).
Proof.
  intros e tag attrs cs. cbn [parse_elem]. destruct (start e tag attrs) as [it|x]; [|reflexivity]. cbn [bind].
  revert it. induction cs as [|c cs IH]; intros it; [reflexivity|]. cbn [inside].
  destruct (parse_elem e c) as [i|x]; [|reflexivity]. cbn [bind]. destruct (receive it i) as [it'|x]; [|reflexivity]. cbn [bind]. apply IH.
Qed.

Definition present (o : option string) : option string := match o with Some s => if String.eqb s "" then None else Some s | None => None end.
Lemma present_cases : forall attrs name, NoDup (map fst attrs) ->
  (present (get name attrs) = None /\ void attrs name) \/ (exists t, present (get name attrs) = Some t /\ given attrs name t).
Proof.
  intros attrs name D. unfold void, given. destruct (get_cases attrs name D) as [(-> & A)|(t & -> & H)]; cbn [present]; [left; auto|].
  destruct (String.eqb_spec t "") as [->|N]; [left; auto|right; eauto].
Qed.
Lemma given_fun : forall attrs name t t', NoDup (map fst attrs) -> given attrs name t -> given attrs name t' -> t = t'.
Proof. intros attrs name t t' D (H & _) (H' & _). eapply has_fun; eassumption. Qed.
Lemma void_given : forall attrs name t, NoDup (map fst attrs) -> void attrs name -> given attrs name t -> False.
Proof. intros attrs name t D [A|H] (H' & N); [exact (A _ H')|]. apply N. eapply has_fun; eassumption. Qed.

Ltac vg := exfalso; match goal with D : NoDup (map fst ?a), V : void ?a ?n, G : given ?a ?n _ |- _ => exact (void_given _ _ _ D V G) end.
Definition gridsqe_spec (e : env) (attrs : list (string * string)) (h' : hist) : Prop :=
  exists h, (exists p, (given attrs "idf-data-path" p /\ e_idf e p = Ok h)
               \/ (void attrs "idf-data-path" /\ given attrs "histogram-hdf-path" p /\ e_hdf e p = Ok h))
  /\ ((void attrs "auto-normalization" /\ h' = h)
     \/ (exists t, given attrs "auto-normalization" t
           /\ ((In (lower t) ["on"; "yes"; "1"; "true"] /\ normalized h = Ok h') \/ (In (lower t) ["off"; "no"; "0"; "false"] /\ h' = h)))).
Lemma grid_sqe_ok : forall e attrs f, NoDup (map fst attrs) ->
  (grid_sqe e attrs = Ok f <-> exists h', f = FGrid h' /\ gridsqe_spec e attrs h').
Proof.
  intros e attrs f D. unfold gridsqe_spec.
  set (load := match present (get "idf-data-path" attrs) with
            | Some p => e_idf e p
            | None => match present (get "histogram-hdf-path" attrs) with Some p => e_hdf e p | None => Err ValueError end
            end).
  assert (G0 : grid_sqe e attrs = (let! h := load in let! auto := match present (get "auto-normalization" attrs) with
               | None => Ok false
               | Some s => if word_in (lower s) ["on"; "yes"; "1"; "true"] then Ok true
                           else if word_in (lower s) ["off"; "no"; "0"; "false"] then Ok false else Err ValueError
               end in (if auto then let! h := normalized h in Ok (FGrid h) else Ok (FGrid h)))) by reflexivity.
  rewrite G0. clear G0.
  assert (L : forall h, load = Ok h <-> exists p, (given attrs "idf-data-path" p /\ e_idf e p = Ok h)
               \/ (void attrs "idf-data-path" /\ given attrs "histogram-hdf-path" p /\ e_hdf e p = Ok h)).
  { intros h. unfold load. destruct (present_cases attrs "idf-data-path" D) as [(-> & V)|(t & -> & G)].
    - destruct (present_cases attrs "histogram-hdf-path" D) as [(-> & V')|(t & -> & G)].
      + split; [discriminate|]. intros (p & [(G & _)|(_ & G & _)]); vg.
      + split; [eauto 6|]. intros (p & [(G' & _)|(_ & G' & E)]); [vg|].
        rewrite (given_fun _ _ _ _ D G G'). exact E.
    - split; [eauto|]. intros (p & [(G' & E)|(V & _)]); [rewrite (given_fun _ _ _ _ D G G'); exact E|vg]. }
  clearbody load. rewrite bind_ok.
  assert (X : forall h, (let! auto := match present (get "auto-normalization" attrs) with
               | None => Ok false
               | Some s => if word_in (lower s) ["on"; "yes"; "1"; "true"] then Ok true
                           else if word_in (lower s) ["off"; "no"; "0"; "false"] then Ok false else Err ValueError
               end in (if auto then let! h := normalized h in Ok (FGrid h) else Ok (FGrid h))) = Ok f
             <-> exists h', f = FGrid h' /\ ((void attrs "auto-normalization" /\ h' = h)
     \/ (exists t, given attrs "auto-normalization" t
           /\ ((In (lower t) ["on"; "yes"; "1"; "true"] /\ normalized h = Ok h') \/ (In (lower t) ["off"; "no"; "0"; "false"] /\ h' = h))))).
  { intros h. destruct (present_cases attrs "auto-normalization" D) as [(-> & V)|(t & -> & G)].
    - cbn [bind]. split; [intros [= <-]; eauto|]. intros (h' & -> & [(_ & ->)|(t & G & _)]); [reflexivity|vg].
    - assert (Dis : In (lower t) ["on"; "yes"; "1"; "true"] -> In (lower t) ["off"; "no"; "0"; "false"] -> False).
      { generalize (lower t). intros s H1 H2. cbn in H1, H2. intuition congruence. }
      destruct (word_in (lower t) ["on"; "yes"; "1"; "true"]) eqn:On; [apply word_in_ok in On|apply word_in_no in On].
      + cbn [bind]. split.
        * intros H. binds. injection H as <-. eauto 8.
        * intros (h' & -> & [(V & _)|(t' & G' & [(_ & N)|(O & _)])]).
          -- vg.
          -- rewrite N. reflexivity.
          -- exfalso. rewrite <- (given_fun _ _ _ _ D G G') in O. auto.
      + destruct (word_in (lower t) ["off"; "no"; "0"; "false"]) eqn:Off; [apply word_in_ok in Off|apply word_in_no in Off]; cbn [bind].
        * split; [intros [= <-]; eauto 8|]. intros (h' & -> & [(V & _)|(t' & G' & [(O & _)|(_ & ->)])]).
          -- vg.
          -- exfalso. rewrite <- (given_fun _ _ _ _ D G G') in O. auto.
          -- reflexivity.
        * split; [discriminate|]. intros (h' & -> & [(V & _)|(t' & G' & K)]).
          -- vg.
          -- exfalso. rewrite <- (given_fun _ _ _ _ D G G') in K. tauto. }
  split.
  - intros (h & E & H). apply L in E. apply X in H. destruct H as (h' & -> & H). eauto.
  - intros (h' & -> & h & E & H). exists h. split; [apply L; exact E|apply X; eauto].
Qed.

Lemma functor_children : forall e tag f cs it, inside e (IFunctor tag f) cs = Ok it -> cs = [] /\ it = IFunctor tag f.
Proof.
  intros e tag f [|c cs] it H; [cbn in H; injection H as <-; auto|]. cbn [inside] in H. binds. destruct v; discriminate.
Qed.
Definition fill (it : item) : Prop := match it with IKernel _ _ => True | IFunctor _ _ => False end.
Lemma receive_kernel : forall it i it', receive it i = Ok it' -> fill it /\ fill it'.
Proof.
  intros [cls k|tag f] [c k'|c f'] it' H; cbn [receive] in H.
  - destruct k as [w m o l|w m a es]; [destruct l; discriminate|injection H as <-; cbn; auto].
  - destruct k as [w m o l|w m a es]; [|discriminate].
    destruct l; try discriminate; destruct (word_in c _); try discriminate; injection H as <-; cbn; auto.
  - discriminate.
  - discriminate.
Qed.
Lemma inside_kernel : forall e cs it it', inside e it cs = Ok it' -> fill it -> fill it'.
Proof.
  intros e. induction cs as [|c cs IH]; intros it it' H F; cbn [inside] in H; [injection H as <-; exact F|].
  binds. apply receive_kernel in E0. apply (IH v0); tauto.
Qed.
(* reading of functors *)
Lemma parse_functor : forall e x k f tag, well_formed x -> In tag (tags_of k) ->
  (parse_elem e x = Ok (IFunctor tag f) -> reads_functor e k x f).
Proof.
  intros e [tag' attrs cs] k f tag W I H. inversion W as [t a c D F]; subst. rewrite parse_elem_eq in H. binds.
  unfold start in E. destruct (word_in tag' leaf_tags).
  { binds. injection E as <-. apply inside_kernel in H; [destruct H|exact Logic.I]. }
  destruct (String.eqb tag' "KernelContainer").
  { binds. injection E as <-. apply inside_kernel in H; [destruct H|exact Logic.I]. }
  destruct (word_in tag' functor_tags) eqn:T; [|discriminate]. binds. injection E as <-. apply functor_children in H. destruct H as (-> & [= <- <-]).
  clear T. unfold createFunctor in E0. destruct (word_in tag ["SQE_fromexpression"; "SQ_fromexpression"]) eqn:X.
  { apply word_in_ok in X. injection E0 as <-. apply r_expr; [assumption|cbn in X; intuition|].
    destruct (get_cases attrs "expression" D) as [(-> & A)|(s & -> & A)]; auto. }
  apply word_in_no in X. destruct (String.eqb_spec tag "GridSQE") as [->|N].
  { apply grid_sqe_ok in E0; [|assumption]. destruct E0 as (h' & -> & h & L & A). econstructor; eassumption. }
  binds. injection E0 as <-. destruct (get_cases attrs "histogram-hdf-path" D) as [(Gn & A)|(s & Gs & A)].
  { rewrite Gn in E. discriminate. }
  rewrite Gs in E. apply r_grid with s; try assumption. destruct k; cbn in I; repeat destruct I as [I|I]; subst; auto; try contradiction; try congruence; exfalso; apply X; cbn; auto.
Qed.
Lemma functor_parse : forall e x k f, well_formed x -> reads_functor e k x f -> exists tag, In tag (tags_of k) /\ parse_elem e x = Ok (IFunctor tag f).
Proof.
  intros e x k f W H. inversion H as [tag attrs s I T S|tag attrs p h I T S L|attrs h h' I L N]; subst; inversion W as [t' a' c' D F]; subst;
    [exists tag|exists tag|exists "GridSQE"]; (split; [assumption|]); rewrite parse_elem_eq; apply bind_ok; eexists; (split; [|reflexivity]).
  - assert (C : createFunctor e tag attrs = Ok (FExpr s)).
    { unfold createFunctor. replace (word_in tag ["SQE_fromexpression"; "SQ_fromexpression"]) with true
        by (destruct T as [-> | ->]; reflexivity).
      destruct S as [S|(A & ->)]; [rewrite (proj2 (get_some _ _ _ D) S); reflexivity|rewrite (proj2 (get_none _ _) A); reflexivity]. }
    unfold start. replace (word_in tag leaf_tags) with false by (destruct T as [-> | ->]; reflexivity).
    replace (String.eqb tag "KernelContainer") with false by (destruct T as [-> | ->]; reflexivity).
    replace (word_in tag functor_tags) with true by (destruct T as [-> | ->]; reflexivity). rewrite C. reflexivity.
  - assert (C : createFunctor e tag attrs = Ok (FGrid h)).
    { unfold createFunctor. replace (word_in tag ["SQE_fromexpression"; "SQ_fromexpression"]) with false
        by (destruct T as [-> | ->]; reflexivity).
      replace (String.eqb tag "GridSQE") with false by (destruct T as [-> | ->]; reflexivity).
      rewrite (proj2 (get_some _ _ _ D) S), L. reflexivity. }
    unfold start. replace (word_in tag leaf_tags) with false by (destruct T as [-> | ->]; reflexivity).
    replace (String.eqb tag "KernelContainer") with false by (destruct T as [-> | ->]; reflexivity).
    replace (word_in tag functor_tags) with true by (destruct T as [-> | ->]; reflexivity). rewrite C. reflexivity.
  - assert (C : grid_sqe e attrs = Ok (FGrid h')) by (apply grid_sqe_ok; [assumption|exists h'; split; [reflexivity|exists h; auto]]).
    change (start e "GridSQE" attrs) with (let! f := grid_sqe e attrs in Ok (IFunctor "GridSQE" f)). rewrite C. reflexivity.
Qed.

(* kernels that hold a functor: which kind, and the kernel with the functor replaced *)
Definition holds (l : leaf) : option fkind :=
  match l with KSQE _ _ _ | KSQEF _ _ _ _ _ _ _ => Some FSQE | KSQ _ _ => Some FSQ | KSvQ _ => Some FSvQ | _ => None end.
Definition put (l : leaf) (f : functor) : leaf :=
  match l with
  | KSQE Qr Er _ => KSQE Qr Er (Some f) | KSQEF a s Qr Er Ef dEf _ => KSQEF a s Qr Er Ef dEf (Some f)
  | KSQ Qr _ => KSQ Qr (Some f) | KSvQ _ => KSvQ (Some f) | l => l
  end.
Lemma receive_leaf : forall cls w m o l i it, receive (IKernel cls (Leaf w m o l)) i = Ok it ->
  exists k tag f, holds l = Some k /\ i = IFunctor tag f /\ In tag (tags_of k) /\ it = IKernel cls (Leaf w m o (put l f)).
Proof.
  intros cls w m o l [c k|c f] it H; [destruct l; discriminate|].
  destruct l; try discriminate; cbn [receive] in H;
    match type of H with (if ?b then _ else _) = _ => destruct b eqn:T; [|discriminate] end; apply word_in_ok in T; injection H as <-;
    cbn [holds put]; do 3 eexists; (split; [reflexivity|split; [reflexivity|split; [exact T|reflexivity]]]).
Qed.
Lemma leaf_receive : forall cls w m o l k tag f, holds l = Some k -> In tag (tags_of k) ->
  receive (IKernel cls (Leaf w m o l)) (IFunctor tag f) = Ok (IKernel cls (Leaf w m o (put l f))).
Proof.
  intros cls w m o l k tag f H I. apply word_in_ok in I. destruct l; try discriminate; injection H as <-; cbn [receive put]; cbn [tags_of] in I; rewrite I; reflexivity.
Qed.
Lemma holds_put : forall l f, holds (put l f) = holds l. Proof. intros [] f; reflexivity. Qed.
Lemma put_put : forall l f f', put (put l f) f' = put l f'. Proof. intros [] f f'; reflexivity. Qed.
Definition put_all (l : leaf) (fs : list functor) : leaf := fold_left put fs l.
Lemma put_all_holds : forall fs l, holds (put_all l fs) = holds l.
Proof. induction fs as [|f fs IH]; intros l; [reflexivity|]. cbn. change (holds (put_all (put l f) fs) = holds l). rewrite IH. apply holds_put. Qed.
Lemma put_all_app : forall fs l f, put_all l (fs ++ [f])%list = put l f.
Proof.
  intros fs l f. unfold put_all. rewrite fold_left_app. cbn. revert l. induction fs as [|g fs IH]; intros l; [reflexivity|]. cbn. rewrite IH. apply put_put.
Qed.
Lemma inside_leaf : forall e cs cls w m o l it, Forall well_formed cs -> inside e (IKernel cls (Leaf w m o l)) cs = Ok it ->
  exists fs, it = IKernel cls (Leaf w m o (put_all l fs)) /\
    match holds l with None => cs = [] | Some k => Forall2 (reads_functor e k) cs fs end.
Proof.
  intros e. induction cs as [|c cs IH]; intros cls w m o l it W H; cbn [inside] in H.
  - injection H as <-. exists []. split; [reflexivity|]. destruct (holds l); [constructor|reflexivity].
  - inversion W as [|c' cs' Wc Wcs]; subst. binds. apply receive_leaf in E0. destruct E0 as (k & tag & f & K & -> & I & ->).
    apply IH in H; [|assumption]. destruct H as (fs & -> & H). rewrite holds_put, K in H. exists (f :: fs). split; [reflexivity|]. rewrite K.
    constructor; [|assumption]. eapply parse_functor; eassumption.
Qed.
Lemma leaf_inside : forall e cs cls w m o l fs k, Forall well_formed cs -> holds l = Some k -> Forall2 (reads_functor e k) cs fs ->
  inside e (IKernel cls (Leaf w m o l)) cs = Ok (IKernel cls (Leaf w m o (put_all l fs))).
Proof.
  intros e cs cls w m o l fs k W K F. revert l K. induction F as [|c f cs fs R F IH]; intros l K; [reflexivity|].
  inversion W as [|c' cs' Wc Wcs]; subst. cbn [inside]. destruct (functor_parse _ _ _ _ Wc R) as (tag & I & ->). cbn [bind].
  rewrite (leaf_receive _ _ _ _ _ _ _ _ K I). cbn [bind]. rewrite IH; [reflexivity|assumption|rewrite holds_put; exact K].
Qed.
