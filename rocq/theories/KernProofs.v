(** Proofs for C39. *)
From Coq Require Import Reals Lra Lia.
From Coquelicot Require Import Coquelicot.
From Verif Require Import Base RotModel RotSpec ChanModel ChanProofs ShapeModel ShapeProofs ScatModel ScatSpec ScatProofs3 KernModel KernSpec.
Open Scope R_scope.

Lemma fold_total l : forall a, fold_left Rplus l a = a + total l.
Proof. induction l as [|x l IH]; intros a; cbn; [ring|]. rewrite IH. unfold total; cbn. ring. Qed.
Lemma divide_all_ok ws tw : tw <> 0 -> divide_all ws tw = Ok (map (fun w => w / tw) ws).
Proof. intros H. induction ws as [|w l IH]; cbn; [reflexivity|]. rewrite div_ok by exact H. cbn. rewrite IH. reflexivity. Qed.
Lemma total_scaled ws tw : total (map (fun w => w / tw) ws) = total ws / tw.
Proof. induction ws as [|w l IH]; unfold total in *; cbn; [unfold Rdiv; ring|]. rewrite IH. unfold Rdiv; ring. Qed.
Lemma before_scaled ws tw i : before (map (fun w => w / tw) ws) i = before ws i / tw.
Proof. unfold before. rewrite firstn_map. apply total_scaled. Qed.
Lemma total_nonneg l : Forall (Rle 0) l -> 0 <= total l.
Proof. induction 1; unfold total in *; cbn; lra. Qed.

(** ** the constructor *)

Definition count (l : list bool) : nat := List.length (filter (fun b => b) l).
Lemma find_total_err n ind i l : (n <= 1)%nat -> (1 < n + count l)%nat -> find_total n ind i l = Err CppException.
Proof.
  revert n ind i. induction l as [|b l IH]; intros n ind i A B; [cbn in B; lia|]. cbn [find_total].
  destruct b; cbn in B; [|replace (Nat.ltb 1 n) with false by (symmetry; apply Nat.ltb_ge; lia); apply IH; unfold count in *; lia].
  destruct (Nat.ltb 1 (S n)) eqn:E; [reflexivity|]. apply Nat.ltb_ge in E. apply IH; unfold count in *; lia.
Qed.
Lemma find_total_none n ind i l : (n <= 1)%nat -> count l = O -> find_total n ind i l = Ok ind.
Proof.
  revert n ind i. induction l as [|b l IH]; intros n ind i A B; [reflexivity|]. cbn [find_total]. destruct b; [discriminate|].
  replace (Nat.ltb 1 n) with false by (symmetry; apply Nat.ltb_ge; lia). now apply IH.
Qed.
Lemma find_total_one i l j : count l = 1%nat -> nth_error l j = Some true -> find_total 0 None i l = Ok (Some (i + j)%nat).
Proof.
  revert i j. induction l as [|b l IH]; intros i j A B; [discriminate|]. cbn [find_total]. destruct b.
  - cbn [Nat.ltb Nat.leb]. assert (C0 : count l = O) by (unfold count in *; cbn in A; lia). rewrite find_total_none by (auto; lia).
    destruct j; [now rewrite Nat.add_0_r|]. exfalso. cbn in B. apply nth_error_In in B. unfold count in C0. 
    assert (K : In true (filter (fun b => b) l)) by (apply filter_In; auto). destruct (filter (fun b => b) l); [exact K|discriminate].
  - destruct j; [discriminate|]. cbn [Nat.ltb Nat.leb]. rewrite (IH (S i) j) by (try exact A; try exact B). do 2 f_equal. lia.
Qed.
Lemma constructed ks ws ms av : List.length ks = List.length ws -> List.length ms = List.length ws -> (count (map snd ks) <= 1)%nat -> total ws <> 0 ->
  exists c, composite_kernel ks ws ms av = Ok c /\ c_kernels c = map fst ks /\ c_average c = av /\ c_weights c = map (fun w => w / total ws) ws /\ c_rotmats c = ms /\
    (forall i, c_total c = Some i <-> nth_error (map snd ks) i = Some true).
Proof.
  intros A B C D. unfold composite_kernel. rewrite A, B, !Nat.eqb_refl. cbn [negb]. rewrite fold_total, Rplus_0_l, divide_all_ok by exact D.
  assert (E : exists o, find_total 0 None 0 (map snd ks) = Ok o /\ forall i, o = Some i <-> nth_error (map snd ks) i = Some true).
  { destruct (Nat.eq_dec (count (map snd ks)) 0) as [Z|Z].
    - exists None. split; [apply find_total_none; [lia|exact Z]|]. intros i. split; [discriminate|]. intros N. exfalso. apply nth_error_In in N.
      assert (K : In true (filter (fun b => b) (map snd ks))) by (apply filter_In; auto). unfold count in Z. destruct (filter _ _); [exact K|discriminate].
    - assert (O1 : count (map snd ks) = 1%nat) by lia. 
      assert (X : exists j, nth_error (map snd ks) j = Some true).
      { unfold count in O1. destruct (filter (fun b => b) (map snd ks)) as [|b l] eqn:F; [discriminate|]. assert (K : In b (filter (fun b => b) (map snd ks))) by (rewrite F; now left).
        apply filter_In in K. destruct K as (K & ->). apply In_nth_error in K. exact K. }
      destruct X as (j & X). exists (Some j). split; [rewrite (find_total_one 0 _ j O1 X); reflexivity|]. intros i. split; [intros K; injection K as <-; exact X|].
      intros N. pose proof (find_total_one 0 _ j O1 X) as F1. pose proof (find_total_one 0 _ i O1 N) as F2. cbn in F1, F2. congruence. }
  destruct E as (o & -> & O). cbn [bind]. eexists. split; [reflexivity|]. cbn. repeat (split; [reflexivity|]). exact O.
Qed.
Lemma too_many ks ws ms av : List.length ks = List.length ws -> List.length ms = List.length ws -> (1 < count (map snd ks))%nat -> composite_kernel ks ws ms av = Err CppException.
Proof. intros A B C. unfold composite_kernel. rewrite A, B, !Nat.eqb_refl. cbn [negb]. rewrite find_total_err by (cbn; lia). reflexivity. Qed.

(** ** selection *)

Lemma total_cons w l : total (w :: l) = w + total l.
Proof. reflexivity. Qed.
Lemma before_S w l i : before (w :: l) (S i) = w + before l i.
Proof. reflexivity. Qed.
Lemma before_nonneg l i : Forall (Rle 0) l -> 0 <= before l i.
Proof. intros F. apply total_nonneg. revert i. induction F; intros [|i]; cbn; constructor; auto. Qed.
Lemma select_shift x t i l : select_loop x t i l = option_map (Nat.add i) (select_loop x t 0 l).
Proof.
  revert t i. induction l as [|w l IH]; intros t i; cbn; [reflexivity|]. destruct (Rltb x (t + w)); [cbn; now rewrite Nat.add_0_r|].
  rewrite (IH (t + w) (S i)), (IH (t + w) 1%nat). destruct (select_loop x (t + w) 0 l); cbn; [f_equal; lia|reflexivity].
Qed.
Lemma select_right l : Forall (Rle 0) l -> forall x t j, t <= x ->
  select_loop x t 0 l = Some j <-> (j < List.length l)%nat /\ t + before l j <= x < t + before l (S j).
Proof.
  induction 1 as [|w l Hw F IH]; intros x t j L; cbn [select_loop].
  - cbn. split; [discriminate|lia].
  - destruct (Rltb x (t + w)) eqn:E.
    + apply Rltb_t in E. split.
      * intros K. injection K as <-. split; [cbn; lia|]. unfold before, total; cbn. lra.
      * intros (J & A & B). destruct j as [|j]; [reflexivity|exfalso]. rewrite before_S in A. pose proof (before_nonneg l j F). lra.
    + apply Rltb_f in E. rewrite select_shift. destruct j as [|j].
      * split; [destruct (select_loop x (t + w) 0 l); discriminate|]. intros (_ & _ & B). unfold before, total in B; cbn in B. lra.
      * rewrite !before_S. pose proof (IH x (t + w) j E) as K. cbn [List.length]. split.
        -- destruct (select_loop x (t + w) 0 l) as [j'|]; [|discriminate]. intros Q. cbn in Q. injection Q as <-. destruct (proj1 K eq_refl). split; [lia|lra].
        -- intros (J & B). rewrite (proj2 K); [reflexivity|]. split; [lia|lra].
Qed.
Lemma before_all l i : (List.length l <= i)%nat -> before l i = total l.
Proof. intros H. unfold before. now rewrite firstn_all2. Qed.
Lemma covered l x t : Forall (Rle 0) l -> t <= x < t + total l -> exists j, select_loop x t 0 l = Some j.
Proof.
  intros F. revert t. induction F as [|w l Hw F IH]; intros t H; [unfold total in H; cbn in H; lra|]. cbn [select_loop]. destruct (Rltb x (t + w)) eqn:E; [eexists; reflexivity|].
  apply Rltb_f in E. rewrite total_cons in H. destruct (IH (t + w)) as (j & J); [lra|]. rewrite select_shift, J. eexists. reflexivity.
Qed.

(** The composite kernels that the constructor makes of weights that are not negative and not all zero. *)
Definition made (c : ckernel) (ks : list kernel) (ws : list R) (ms : list mat3) : Prop :=
  c_kernels c = ks /\ c_weights c = map (fun w => w / total ws) ws /\ c_rotmats c = ms /\
  List.length ks = List.length ws /\ List.length ms = List.length ws /\ Forall (Rle 0) ws /\ 0 < total ws.
Lemma made_by ks ws ms av c : composite_kernel ks ws ms av = Ok c -> Forall (Rle 0) ws -> 0 < total ws -> made c (map fst ks) ws ms.
Proof.
  unfold composite_kernel. destruct (Nat.eqb_spec (List.length ks) (List.length ws)) as [A|A]; [|discriminate]. destruct (Nat.eqb_spec (List.length ms) (List.length ws)) as [B|B]; [|discriminate].
  cbn [negb]. destruct (find_total _ _ _ _) as [o|]; [|discriminate]. cbn [bind]. rewrite fold_total, Rplus_0_l. intros H F P. rewrite divide_all_ok in H by lra. cbn [bind] in H. injection H as <-.
  repeat split; cbn; auto. now rewrite map_length.
Qed.
Section made.
Variables (c : ckernel) (ks : list kernel) (ws : list R) (ms : list mat3).
Hypothesis MD : made c ks ws ms.
Let W := total ws.
Lemma made_nonneg : Forall (Rle 0) (c_weights c).
Proof.
  destruct MD as (_ & -> & _ & _ & _ & F & P). apply Forall_forall. intros w H. apply in_map_iff in H. destruct H as (v & <- & H). rewrite Forall_forall in F.
  specialize (F v H). unfold Rdiv. rewrite <- (Rmult_0_l (/ total ws)). apply Rmult_le_compat_r; [apply Rlt_le, Rinv_0_lt_compat, P|exact F].
Qed.
Lemma made_total : total (c_weights c) = 1.
Proof. destruct MD as (_ & -> & _ & _ & _ & _ & P). rewrite total_scaled. field. lra. Qed.
Lemma made_some : ws <> [].
Proof. destruct MD as (_ & _ & _ & _ & _ & _ & P). intros ->. unfold total in P; cbn in P. lra. Qed.
Lemma select_spec x i : 0 <= x < 1 -> select_kernel c x = Ok i <-> (i < List.length ws)%nat /\ before ws i <= x * W < before ws (S i).
Proof.
  intros X. pose proof made_nonneg as F. pose proof made_total as T1. pose proof made_some as NE. destruct MD as (K & CW & _ & LK & _ & F0 & P). fold W in P.
  assert (S1 : forall j, select_loop x 0 0 (c_weights c) = Some j <-> (j < List.length ws)%nat /\ before ws j <= x * W < before ws (S j)).
  { intros j. rewrite (select_right _ F x 0 j) by lra. rewrite CW, map_length, !before_scaled. fold W. rewrite !Rplus_0_l.
    pose proof (scaled_piece2 (before ws j) W P x). pose proof (scaled_piece (before ws (S j)) W P x). tauto. }
  destruct (covered (c_weights c) x 0 F) as (j & J); [rewrite T1; lra|].
  unfold select_kernel. rewrite K, LK. destruct ws as [|w [|w' l]] eqn:EW; [contradiction| |].
  - cbn [List.length]. assert (j = 0)%nat by (apply S1 in J; cbn in J; lia). subst j. split; [intros H; injection H as <-; now apply S1|]. intros (I & _). cbn in I. f_equal. lia.
  - cbn [List.length] in *. rewrite J. split; [intros H; injection H as <-; now apply S1|]. intros H. apply S1 in H. congruence.
Qed.
Lemma select_some x : 0 <= x < 1 -> exists i, select_kernel c x = Ok i.
Proof.
  intros X. pose proof made_nonneg as F. pose proof made_total as T1. pose proof made_some as NE. destruct MD as (K & CW & _ & LK & _ & F0 & P).
  destruct (covered (c_weights c) x 0 F) as (j & J); [rewrite T1; lra|].
  unfold select_kernel. rewrite K, LK. destruct ws as [|w [|w' l]]; [contradiction|eexists; reflexivity|]. cbn [List.length]. rewrite J. eexists; reflexivity.
Qed.
Lemma before_nth l i : before l (S i) = before l i + nth i l 0.
Proof.
  revert i. induction l as [|w l IH]; intros [|i]; try (unfold before, total; cbn; ring). rewrite before_S, IH, before_S. cbn. ring.
Qed.
Lemma never_zero x i : 0 <= x < 1 -> select_kernel c x = Ok i -> 0 < nth i ws 0.
Proof. intros X H. apply select_spec in H; [|exact X]. destruct H as (_ & H). rewrite before_nth in H. lra. Qed.

(** ** means *)

Fixpoint weighted (h : nat -> R) (i : nat) (l : list R) : R := match l with [] => 0 | w :: l => w * h i + weighted h (S i) l end.
Lemma pieces l : Forall (Rle 0) l -> forall h (g : R -> R) t i, (forall x j, t < x < t + total l -> select_loop x t i l = Some j -> g x = h j) -> is_RInt g t (t + total l) (weighted h i l).
Proof.
  induction 1 as [|w l Hw F IH]; intros h g t i G.
  - cbn [weighted]. unfold total; cbn. rewrite Rplus_0_r. exact (@is_RInt_point R_NormedModule g t).
  - pose proof (total_nonneg l F) as TL. rewrite total_cons in *. cbn [weighted].
    apply (@is_RInt_Chasles R_NormedModule g t (t + w)).
    + replace (w * h i) with ((t + w - t) * h i) by ring. apply const_int; [lra|]. intros x Hx. apply G; [lra|]. cbn [select_loop].
      replace (Rltb x (t + w)) with true by (symmetry; apply Rltb_t; lra). reflexivity.
    + replace (t + (w + total l)) with (t + w + total l) by ring. apply IH. intros x j Hx J. apply G; [lra|]. cbn [select_loop].
      replace (Rltb x (t + w)) with false by (symmetry; apply Rltb_f; lra). exact J.
Qed.
Lemma mean_selected (g : R -> R) h : (forall x j, 0 < x < 1 -> select_kernel c x = Ok j -> g x = h j) -> mean1 g (weighted h 0 (c_weights c)).
Proof.
  intros G. pose proof (pieces _ made_nonneg h g 0 0%nat) as K. rewrite Rplus_0_l, made_total in K. apply K. clear K.
  intros x j X J. apply G; [exact X|]. pose proof made_some as NE. pose proof made_nonneg as F. destruct MD as (KK & CW & _ & LK & _ & _ & _). unfold select_kernel. rewrite KK, LK.
  apply (select_right _ F x 0 j) in J; [|lra]. destruct J as (J1 & J2). rewrite CW, map_length in J1.
  destruct ws as [|w [|w' l]]; [contradiction|cbn in J1; cbn; f_equal; lia|]. cbn [List.length]. assert (Q : select_loop x 0 0 (c_weights c) = Some j) by (apply (select_right _ F x 0 j); [lra|split; [rewrite CW, map_length; exact J1|exact J2]]).
  rewrite Q. reflexivity.
Qed.
Lemma probability i : (i < List.length ws)%nat -> mean1 (fun x => match select_kernel c x with Ok j => if Nat.eqb j i then 1 else 0 | Err _ => 0 end) (share ws i).
Proof.
  intros Hi. replace (share ws i) with (weighted (fun j => if Nat.eqb j i then 1 else 0) 0 (c_weights c)).
  - apply mean_selected. intros x j X J. now rewrite J.
  - destruct MD as (_ & -> & _). unfold share. fold W. clear MD.
    assert (Z : forall l k i, (i < k)%nat -> weighted (fun j => if Nat.eqb j i then 1 else 0) k (map (fun w => w / W) l) = 0).
    { induction l as [|w l IH]; intros k i0 H; cbn; [reflexivity|]. rewrite IH by lia. destruct (Nat.eqb_spec k i0); [lia|ring]. }
    assert (G : forall l k i, (i < List.length l)%nat -> weighted (fun j => if Nat.eqb j (k + i) then 1 else 0) k (map (fun w => w / W) l) = nth i l 0 / W).
    { induction l as [|w l IH]; intros k i0 H; cbn in *; [lia|]. destruct i0 as [|i0].
      - rewrite Nat.add_0_r, Nat.eqb_refl, Z by lia. ring.
      - destruct (Nat.eqb_spec k (k + S i0)); [lia|]. rewrite Rmult_0_r, Rplus_0_l. replace (k + S i0)%nat with (S k + i0)%nat by lia. apply IH. lia. }
    apply (G ws 0%nat i Hi).
Qed.
Lemma mounted_linear act m : linear act -> linear (mounted act m).
Proof.
  intros L e e' k K S P. destruct S as (A & B & C & D & E). unfold mounted.
  assert (Q : same_but_weight (mkE (e_r e) (dot_mv (transpose m) (e_v e)) (e_s1 e) (e_s2 e) (e_t e) (e_p e)) (mkE (e_r e') (dot_mv (transpose m) (e_v e')) (e_s1 e') (e_s2 e') (e_t e') (e_p e'))).
  { unfold same_but_weight; cbn. rewrite A, B, C, D, E. repeat split. }
  destruct (L _ _ k K Q P) as ((A1 & B1 & C1 & D1 & E1) & P1). split; [|exact P1]. unfold same_but_weight; cbn. rewrite A1, B1, C1, D1, E1. repeat split.
Qed.
Lemma delegated_mean act n ev Q : (forall k, In k ks -> linear (act k n)) -> (forall a b, same_but_weight a b -> Q a = Q b) ->
  mean1 (fun x => seen_in Q (delegate act c x n ev)) (over (fun k m => seen Q (mounted (act k n) m ev)) ks ws ms).
Proof.
  intros LI QB.
  pose (h := fun j => match nth_error ks j, nth_error ws j, nth_error ms j with
                      | Some k, Some w, Some m => if Rlt_dec 0 w then seen Q (mounted (act k n) m ev) * (W / w) else 0 | _, _, _ => 0 end).
  replace (over _ ks ws ms) with (weighted h 0 (c_weights c)).
  - apply mean_selected. intros x j X J. pose proof (never_zero x j ltac:(lra) J) as PN. unfold delegate. rewrite J. cbn [bind].
    apply select_spec in J; [|lra]. destruct J as (JL & _). destruct MD as (-> & -> & -> & LK & LM & _ & P). fold W in P. fold W.
    unfold h. rewrite (map_nth_error (fun w => w / W) j ws (nth_error_nth' ws 0 JL)). rewrite (nth_error_nth' ws 0 JL).
    destruct (nth_error ms j) as [m|] eqn:EM; [|apply nth_error_None in EM; lia]. destruct (nth_error ks j) as [k|] eqn:EK; [|apply nth_error_None in EK; lia].
    set (w := nth j ws 0) in *. destruct (Rlt_dec 0 w) as [_|N]; [|contradiction].
    assert (PW : 0 < w / W) by (apply Rdiv_lt_0_compat; assumption). rewrite div_ok by lra. cbn [bind seen_in].
    pose proof (mounted_linear (act k n) m (LI k (nth_error_In _ _ EK))) as LM2.
    destruct (LM2 ev (set_p ev (e_p ev / (w / W))) (W / w)) as (S1 & P1); [apply Rdiv_lt_0_compat; assumption|repeat split|cbn; field; lra|].
    change (tohostkernel (act k n (tosubkernel (set_p ev (e_p ev / (w / W))) m)) m) with (mounted (act k n) m (set_p ev (e_p ev / (w / W)))).
    unfold seen. rewrite <- (QB _ _ S1), P1. ring.
  - assert (G : forall kl wl ml i, List.length kl = List.length wl -> List.length ml = List.length wl -> Forall (Rle 0) wl ->
       (forall j, nth_error kl j = nth_error ks (i + j) /\ nth_error wl j = nth_error ws (i + j) /\ nth_error ml j = nth_error ms (i + j)) ->
       weighted h i (map (fun w => w / W) wl) = over (fun k m => seen Q (mounted (act k n) m ev)) kl wl ml).
    { induction kl as [|k kl IH]; intros [|w wl] [|m ml] i L1 L2 F E; try discriminate; [reflexivity|]. cbn [map weighted over]. inversion F as [|? ? F1 F2]; subst.
      rewrite (IH wl ml (S i)); [|cbn in *; lia|cbn in *; lia|exact F2|].
      2:{ intros j. specialize (E (S j)). cbn in E. replace (S i + j)%nat with (i + S j)%nat by lia. exact E. }
      f_equal. destruct (E 0%nat) as (E1 & E2 & E3). rewrite Nat.add_0_r in E1, E2, E3. cbn in E1, E2, E3. unfold h. rewrite <- E1, <- E2, <- E3.
      destruct MD as (_ & _ & _ & _ & _ & _ & P). fold W in P. destruct (Rlt_dec 0 w); [field; lra|ring]. }
    destruct MD as (_ & -> & _ & LK & LM & F & P). apply G; auto.
Qed.
End made.
Lemma over_positive f ks ws ms : List.length ks = List.length ws -> List.length ms = List.length ws -> Forall (Rlt 0) ws ->
  over f ks ws ms = total (map (fun '(k, m) => f k m) (combine ks ms)).
Proof.
  intros A B F. revert ks ms A B. induction F as [|w ws Hw F IH]; intros [|k ks] [|m ms] A B; try discriminate; [reflexivity|].
  cbn [over combine map]. destruct (Rlt_dec 0 w); [|contradiction]. rewrite IH by (cbn in *; lia). reflexivity.
Qed.
