(** Proofs about the engine as a whole, uniform grids, and normalisation. *)
From Coq Require Import Reals ZArith Lra Lia.
From Verif Require Import Base RotModel ChanModel ChanProofs ShapeModel ShapeProofs2 GridModel KxmlModel KxmlSpec KxmlProofs KxmlProofs2 KxmlProofs3.
Open Scope string_scope. Open Scope R_scope.

Lemma setting_ok : forall (A : Type) (convert : string -> result A) attrs name d x, NoDup (map fst attrs) ->
  ((exists s, setting_of convert attrs name = Ok s /\ set_value (or_default s d) = Ok x) <-> setting_means convert attrs name d x).
Proof.
  intros A convert attrs name d x D. unfold setting_of, setting_means. destruct (get_cases attrs name D) as [(-> & N)|(t & -> & H)].
  - split; [intros (s & [= <-] & [= <-]); auto|]. intros [(_ & ->)|(t & H & _)]; [exists Unset; auto|exfalso; exact (N _ H)].
  - destruct (String.eqb_spec t "") as [->|Nt].
    + split; [intros (s & [= <-] & E); discriminate|]. intros [(N & _)|(t & H' & Nt & _)]; [exfalso; exact (N _ H)|].
      exfalso; apply Nt; eapply has_fun; eassumption.
    + split.
      * intros (s & E & E'). binds. injection E as <-. injection E' as <-. right; eauto.
      * intros [(N & _)|(t' & H' & _ & C)]; [exfalso; exact (N _ H)|]. rewrite (has_fun _ _ _ _ D H H'), C. cbn. eauto.
Qed.
Lemma mcweights_ok : forall e attrs a s t, NoDup (map fst attrs) ->
  (mcweights_of e attrs = Ok [Plain a; Plain s; Plain t] <->
   ((absent attrs "mcweights" \/ has attrs "mcweights" "") /\ a = 0 /\ s = 1 /\ t = 5 / 100)
   \/ (exists tx, has attrs "mcweights" tx /\ tx <> "" /\ e_parse e tx = Ok (Tup [Plain a; Plain s; Plain t]))).
Proof.
  intros e attrs a s t D. unfold mcweights_of. cbv zeta. destruct (get_cases attrs "mcweights" D) as [(-> & N)|(x & -> & H)].
  - split; [intros H; injection H as <- <- <-; auto|]. intros [(_ & -> & -> & ->)|(x & H & _)]; [reflexivity|exfalso; exact (N _ H)].
  - destruct (String.eqb_spec x "") as [->|Nx].
    + split; [intros E; injection E as <- <- <-; auto|]. intros [(_ & -> & -> & ->)|(x & H' & Nx & _)]; [reflexivity|].
      exfalso; apply Nx; eapply has_fun; eassumption.
    + split.
      * intros E. binds. destruct v as [v|l]; [discriminate|]. destruct (nth_error l 2); [|discriminate]. injection E as ->. right; eauto.
      * intros [([N|H'] & _)|(x' & H' & _ & P)].
        -- exfalso; exact (N _ H).
        -- exfalso; apply Nx; eapply has_fun; eassumption.
        -- rewrite (has_fun _ _ _ _ D H H'), P. reflexivity.
Qed.
Lemma settings_ok : forall e int attrs st, NoDup (map fst attrs) ->
  ((exists w mml mnp pf, mcweights_of e attrs = Ok w /\ setting_of int attrs "max_multiplescattering_loops" = Ok mml
      /\ setting_of (e_float e) attrs "min_neutron_probability" = Ok mnp /\ setting_of (e_float e) attrs "packing_factor" = Ok pf
      /\ forall k, settings_of (mkPS k w (or_default mml 5%Z) (or_default mnp 0) (or_default pf 1)) = Ok st)
   <-> settings_mean e int attrs st).
Proof.
  intros e int attrs [a s t l mn p] D. unfold settings_mean. cbn [cs_abs cs_sct cs_trans cs_loops cs_min cs_packing]. split.
  - intros (w & mml & mnp & pf & W & L & M & P & K). specialize (K (Comp None None ANone [])). unfold settings_of in K. cbn [ps_weights ps_loops ps_min ps_packing] in K.
    destruct w as [|[w0| |] [|[w1| |] [|[w2| |] [|]]]]; try discriminate. binds. injection K as -> -> -> -> -> ->.
    split; [apply mcweights_ok; assumption|]. split; [apply setting_ok; eauto|split; apply setting_ok; eauto].
  - intros (W & L & M & P). apply mcweights_ok in W; [|assumption]. apply setting_ok in L, M, P; try assumption.
    destruct L as (mml & L & L'), M as (mnp & M & M'), P as (pf & P & P'). exists [Plain a; Plain s; Plain t], mml, mnp, pf.
    do 4 (split; [assumption|]). intros k. unfold settings_of. cbn [ps_weights ps_loops ps_min ps_packing]. rewrite L'. cbn [bind]. rewrite M'. cbn [bind].
    rewrite P'. reflexivity.
Qed.
Lemma children_app : forall e cs k cs', scatterer_children e k (cs ++ cs')%list = (let! k' := scatterer_children e k cs in scatterer_children e k' cs').
Proof.
  intros e. induction cs as [|c cs IH]; intros k cs'; [reflexivity|]. cbn [app scatterer_children]. destruct (parse_elem e c) as [i|x]; [|reflexivity]. cbn [bind].
  destruct i; [apply IH|reflexivity].
Qed.
Definition parses (e : env) (x : xml) : Prop := exists cls k, parse_elem e x = Ok (IKernel cls k).
Lemma children_parse : forall e cs k, Forall (parses e) cs -> exists k', scatterer_children e k cs = Ok k'.
Proof.
  intros e cs k F. revert k. induction F as [|c cs (cls & kk & P) F IH]; intros k; [cbn; eauto|]. cbn [scatterer_children]. rewrite P. cbn [bind]. apply IH.
Qed.
Lemma scatterer_parts : forall e int m attrs cs c st,
  engine e int m (Elem "homogeneous_scatterer" attrs cs) = Ok (c, st) <->
  exists k, scatterer_children e None cs = Ok (Some k) /\ render e (set_origin m k) = Ok c
    /\ exists w mml mnp pf, mcweights_of e attrs = Ok w /\ setting_of int attrs "max_multiplescattering_loops" = Ok mml
      /\ setting_of (e_float e) attrs "min_neutron_probability" = Ok mnp /\ setting_of (e_float e) attrs "packing_factor" = Ok pf
      /\ forall k, settings_of (mkPS k w (or_default mml 5%Z) (or_default mnp 0) (or_default pf 1)) = Ok st.
Proof.
  intros e int m attrs cs c st. unfold engine, findkernel, parse_scatterer. cbn [String.eqb Ascii.eqb Bool.eqb negb]. split.
  - intros H. binds. injection H as <- <-. destruct v7 as [k|]; [|discriminate]. injection E2 as <-. injection E as <-. cbn [ps_kernel] in E0.
    exists k. split; [assumption|]. split; [assumption|]. exists v3, v4, v5, v6. do 4 (split; [assumption|]). intros k'. exact E1.
  - intros (k & C & R & w & mml & mnp & pf & W & L & M & P & K). rewrite W. cbn [bind]. rewrite L. cbn [bind]. rewrite M. cbn [bind]. rewrite P. cbn [bind].
    rewrite C. cbn [bind ps_kernel ps_weights ps_loops ps_min ps_packing]. rewrite R. cbn [bind]. rewrite K. reflexivity.
Qed.
Lemma engine_iff : forall e int m attrs child c st, e_meV e <> 0 -> well_formed (Elem "homogeneous_scatterer" attrs [child]) ->
  (engine e int m (Elem "homogeneous_scatterer" attrs [child]) = Ok (c, st) <-> kernel_means e m child c /\ settings_mean e int attrs st).
Proof.
  intros e int m attrs child c st M W. inversion W as [t a cc D F]; subst. inversion F as [|x l Wc _]; subst.
  rewrite scatterer_parts, <- (settings_ok e int attrs st D), <- (kernel_iff e m M child Wc c). unfold kernel_of. cbn [scatterer_children]. split.
  - intros (k & C & R & S). split; [|exact S]. binds. destruct v; [|discriminate]. injection C as ->. eauto.
  - intros ((cls & k & P & R) & S). exists k. split; [rewrite P; reflexivity|]. auto.
Qed.
Lemma engine_last : forall e int m attrs front child r, e_meV e <> 0 -> Forall well_formed front ->
  Forall (fun x => exists c, kernel_means e m x c) front ->
  (engine e int m (Elem "homogeneous_scatterer" attrs (front ++ [child])%list) = Ok r <->
   engine e int m (Elem "homogeneous_scatterer" attrs [child]) = Ok r).
Proof.
  intros e int m attrs front child (c, st) M W F. rewrite !scatterer_parts.
  assert (P : Forall (parses e) front).
  { rewrite Forall_forall in *. intros x I. destruct (F x I) as (c' & K). apply (kernel_iff e m M x (W x I)) in K. destruct K as (cls & k & P & _). exists cls, k. exact P. }
  destruct (children_parse e front None P) as (k' & E).
  assert (X : scatterer_children e None (front ++ [child])%list = scatterer_children e k' [child]) by (rewrite children_app, E; reflexivity).
  rewrite X. cbn [scatterer_children]. destruct (parse_elem e child) as [[cls k|cls f]|x]; cbn [bind]; reflexivity.
Qed.
Lemma engine_none : forall e int m attrs, (forall r, engine e int m (Elem "homogeneous_scatterer" attrs []) <> Ok r).
Proof. intros e int m attrs (c, st) H. apply scatterer_parts in H. destruct H as (k & H & _). discriminate. Qed.

(** uniform grids *)
Lemma last_map_seq : forall (f : nat -> R) n a, last (map f (seq a (S n))) 0 = f (a + n)%nat.
Proof.
  intros f. induction n as [|n IH]; intros a; [cbn; f_equal; lia|]. change (seq a (S (S n))) with (a :: seq (S a) (S n)). cbn [map].
  transitivity (last (map f (seq (S a) (S n))) 0); [reflexivity|]. rewrite IH. f_equal. lia.
Qed.
Lemma uniform_axis : forall margin shift b st n, st <> 0 -> (1 <= n)%nat -> 0 <= margin + shift < 1 ->
  axis_passes margin shift (uniform b st n) n (engine_axis margin (b, st, n)).
Proof.
  intros margin shift b st n S N M. unfold axis_passes, engine_axis. destruct n as [|n]; [lia|].
  exists (b + INR 0 * st), (b + INR 1 * st), (map (fun i => b + INR i * st) (seq 2 n)).
  assert (L : last (uniform b st (Datatypes.S n)) 0 = b + INR (Datatypes.S n) * st) by (unfold uniform; rewrite last_map_seq; reflexivity).
  assert (D : b + INR 1 * st - (b + INR 0 * st) = st) by (cbn; ring).
  split; [reflexivity|]. rewrite D, L. split; [assumption|]. split; [repeat (f_equal; try (cbn; ring))|].
  right. split; [discriminate|]. replace ((b + INR (Datatypes.S n) * st + margin * st - (b + INR 0 * st)) / st + shift) with (INR (Datatypes.S n) + (margin + shift)) by (cbn [INR]; field; assumption). lra.
Qed.
Lemma uniform_ok : forall k h axes n margin shift, axes_margin_shift k = (n, margin, shift) -> List.length axes = n -> uniform_hist h axes ->
  render_functor k (Some (FGrid h)) = Ok (CGrid (map (engine_axis margin) axes) (h_data h)).
Proof.
  intros k h axes n margin shift A L (Ua & Us & U). apply render_functor_ok. eexists; split; [reflexivity|]. econstructor; [exact A| |].
  - transitivity (List.length (map fst (h_axes h))); [rewrite map_length; reflexivity|]. rewrite Ua, map_length. exact L.
  - rewrite Ua, Us. assert (M : 0 <= margin + shift < 1) by (destruct k; injection A as _ <- <-; lra). clear - U M.
    induction U as [|((b, st), n) axes (S & N) U IH]; cbn [map]; [constructor|]. constructor; [apply uniform_axis; assumption|exact IH].
Qed.
(* width of an accepted axis *)
Lemma accepted_width : forall k h c, render_functor k (Some (FGrid h)) = Ok c ->
  forall margin shift d, axes_margin_shift k = (d, margin, shift) ->
  List.length (h_axes h) = d /\ (exists axs, c = CGrid axs (h_data h)) /\
  Forall2 (fun bb n => exists b0 b1 rest, bb = b0 :: b1 :: rest /\ b1 <> b0 /\
     ((1 <= n)%nat -> INR n - (margin + shift) <= (last bb 0 - b0) / (b1 - b0) < INR n + 1 - (margin + shift))) (map fst (h_axes h)) (h_shape h).
Proof.
  intros k h c H margin shift d A. apply render_functor_ok in H. destruct H as (f' & [= <-] & P). inversion P as [|h' axs n mg sh A' L G]; subst.
  rewrite A in A'. injection A' as <- <- <-. split; [reflexivity|]. split; [eauto|]. clear - G.
  induction G as [|bb n ax bbs ns axs (b0 & b1 & rest & -> & N & _ & I) G IH]; [constructor|]. constructor; [|exact IH].
  exists b0, b1, rest. split; [reflexivity|]. split; [lra|]. intros Np. destruct I as [(-> & _)|(_ & B)]; [lia|].
  set (l := last (b0 :: b1 :: rest) 0) in *. replace ((l + margin * (b1 - b0) - b0) / (b1 - b0)) with ((l - b0) / (b1 - b0) + margin) in B by (field; assumption).
  lra.
Qed.

(** normalisation *)
Lemma sum_cons : forall x l, sum (x :: l) = x + sum l. Proof. reflexivity. Qed.
Lemma sum_nil : sum [] = 0. Proof. reflexivity. Qed.
Lemma fold_left_sum : forall l a, fold_left Rplus l a = a + sum l.
Proof. induction l as [|x l IH]; intros a; cbn [fold_left]; [rewrite sum_nil; ring|]. rewrite IH, sum_cons. ring. Qed.
Lemma sum_app : forall l l', sum (l ++ l')%list = sum l + sum l'.
Proof. intros l l'. induction l as [|x l IH]; cbn [app]; [rewrite sum_nil; ring|]. rewrite !sum_cons, IH. ring. Qed.
Lemma sum_scale : forall q l, sum (map (fun x => x * q) l) = q * sum l.
Proof. intros q l. induction l as [|x l IH]; cbn [map]; [rewrite sum_nil; ring|]. rewrite !sum_cons, IH. ring. Qed.
Lemma weigh_rows_ok : forall ne qs rows, List.length qs = List.length rows -> Forall (fun r => List.length r = ne) rows ->
  List.length (weigh_rows qs ne (List.concat rows)) = (List.length qs * ne)%nat
  /\ sum (weigh_rows qs ne (List.concat rows)) = sum (map (fun p => fst p * sum (snd p)) (combine qs rows)).
Proof.
  intros ne. induction qs as [|q qs IH]; intros [|r rows] L F; try discriminate; [cbn; auto|]. inversion F as [|r' rows' Lr F']; subst r' rows'.
  cbn [List.concat weigh_rows combine map fst snd List.length]. injection L as L.
  assert (A : firstn ne (r ++ List.concat rows) = r) by (rewrite <- Lr, firstn_app, Nat.sub_diag, firstn_all; cbn; apply app_nil_r).
  assert (B : skipn ne (r ++ List.concat rows) = List.concat rows) by (rewrite <- Lr, skipn_app, Nat.sub_diag, skipn_all; reflexivity).
  rewrite A, B. destruct (IH rows L F') as (I1 & I2). rewrite app_length, map_length, I1, sum_app, sum_scale, I2. split; [lia|reflexivity].
Qed.
Lemma calcNorm_ok : forall bq qs axe nq ne rows, List.length qs = List.length rows -> Forall (fun r => List.length r = ne) rows ->
  (1 <= List.length qs)%nat -> (1 <= ne)%nat ->
  calcNorm (mkH [(bq, qs); axe] [nq; ne] (List.concat rows)) = Ok (mean_QS qs rows ne).
Proof.
  intros bq qs axe nq ne rows L F P Q. unfold calcNorm. cbn [h_axes h_shape h_data]. destruct (weigh_rows_ok ne qs rows L F) as (I1 & I2).
  destruct (weigh_rows qs ne (List.concat rows)) as [|x l] eqn:E.
  - cbn in I1. assert ((1 <= List.length qs * ne)%nat) by nia. lia.
  - f_equal. unfold mean_QS. rewrite I1, mult_INR, <- I2, fold_left_sum. f_equal. ring.
Qed.
Lemma mean_scale : forall qs rows ne M, mean_QS qs (map (map (fun x => x / M)) rows) ne = mean_QS qs rows ne / M.
Proof.
  intros qs rows ne M. unfold mean_QS.
  assert (E : sum (map (fun p => fst p * sum (snd p)) (combine qs (map (map (fun x => x / M)) rows))) = sum (map (fun p => fst p * sum (snd p)) (combine qs rows)) / M).
  { unfold Rdiv. revert rows. induction qs as [|q qs IH]; intros [|r rows]; cbn [combine map]; rewrite ?sum_nil; try ring. rewrite !sum_cons. cbn [fst snd].
    rewrite IH, (sum_scale (/ M) r). ring. }
  rewrite E. unfold Rdiv. ring.
Qed.
Lemma concat_scale : forall (f : R -> R) rows, map f (List.concat rows) = List.concat (map (map f) rows).
Proof. intros f rows. apply concat_map. Qed.
Lemma normalized_ok : forall bq qs axe nq ne rows, List.length qs = List.length rows -> Forall (fun r => List.length r = ne) rows ->
  (1 <= List.length qs)%nat -> (1 <= ne)%nat ->
  let h := mkH [(bq, qs); axe] [nq; ne] (List.concat rows) in
  let M := mean_QS qs rows ne in
  (Rabs (M - 1) <= 2 / 10 -> normalized h = Ok h)
  /\ (2 / 10 < Rabs (M - 1) -> M <> 0 -> exists rows', normalized h = Ok (mkH [(bq, qs); axe] [nq; ne] (List.concat rows'))
        /\ rows' = map (map (fun x => x / M)) rows /\ mean_QS qs rows' ne = 1)
  /\ (M = 0 -> exists x, normalized h = Err x).
Proof.
  intros bq qs axe nq ne rows L F P Q h M. unfold normalized, h. rewrite (calcNorm_ok bq qs axe nq ne rows L F P Q). cbn [bind]. fold M. cbn [h_axes h_shape h_data].
  clearbody h. split; [|split].
  - intros A. destruct (Rltb (2 / 10) (Rabs (M - 1))) eqn:B; [|reflexivity]. apply Rltb_t in B. lra.
  - intros A N. destruct (Rltb (2 / 10) (Rabs (M - 1))) eqn:B; [|apply Rltb_f in B; lra].
    destruct (Reqb M 0) eqn:Z0; [apply Reqb_true in Z0; congruence|]. eexists. rewrite concat_scale. split; [reflexivity|]. split; [reflexivity|].
    rewrite mean_scale. fold M. field. assumption.
  - intros Z. destruct (Rltb (2 / 10) (Rabs (M - 1))) eqn:B; [|apply Rltb_f in B; rewrite Z, Rabs_left in B by lra; lra].
    destruct (Reqb M 0) eqn:Z0; [eauto|apply Reqb_false in Z0; congruence].
Qed.
