(** C39: composite scattering kernels. *)
From Coq Require Import Reals Lra Lia.
From Coquelicot Require Import Coquelicot.
From Verif Require Import Base RotModel RotSpec ChanModel ShapeModel ShapeSpec ShapeProofs ScatModel ScatSpec ScatProofs2 ScatProofs3 KernModel KernSpec KernProofs.
Open Scope R_scope.

(** A composite is made of any kernels with weights whose sum is not zero, at most one of which claims to do total scattering; its weights
    are the shares of the weights given. *)
Theorem C39_constructor : forall ks ws ms av, List.length ks = List.length ws -> List.length ms = List.length ws ->
  (List.length (filter (fun b => b) (map snd ks)) <= 1)%nat -> total ws <> 0 ->
  exists c, composite_kernel ks ws ms av = Ok c /\ c_kernels c = map fst ks /\ c_average c = av /\ c_weights c = map (fun w => w / total ws) ws /\ c_rotmats c = ms /\
    (forall i, c_total c = Some i <-> nth_error (map snd ks) i = Some true).
Proof. exact constructed. Qed.
Theorem C39_constructor_fails : forall ks ws ms av, List.length ks = List.length ws -> List.length ms = List.length ws ->
  (1 < List.length (filter (fun b => b) (map snd ks)))%nat -> composite_kernel ks ws ms av = Err CppException.
Proof. exact too_many. Qed.

(** Every random number in [0,1) selects the kernel in whose slice of the summed weights it falls, and there is one. *)
Theorem C39_selects : forall ks ws ms av c x, composite_kernel ks ws ms av = Ok c -> Forall (Rle 0) ws -> 0 < total ws -> 0 <= x < 1 ->
  (exists i, select_kernel c x = Ok i) /\
  forall i, select_kernel c x = Ok i <-> (i < List.length ws)%nat /\ before ws i <= x * total ws < before ws (S i).
Proof.
  intros ks ws ms av c x H F P X. pose proof (made_by ks ws ms av c H F P) as MD. split; [exact (select_some c _ ws ms MD x X)|]. intros i. exact (select_spec c _ ws ms MD x i X).
Qed.
(** Kernels with weight zero are not among them. *)
Theorem C39_zero_weight_not_selected : forall ks ws ms av c x i, composite_kernel ks ws ms av = Ok c -> Forall (Rle 0) ws -> 0 < total ws -> 0 <= x < 1 ->
  select_kernel c x = Ok i -> 0 < nth i ws 0.
Proof. intros ks ws ms av c x i H F P. exact (never_zero c _ ws ms (made_by ks ws ms av c H F P) x i). Qed.
(** Kernel [i] is selected with the probability given by its share of the weights. *)
Theorem C39_probability : forall ks ws ms av c i, composite_kernel ks ws ms av = Ok c -> Forall (Rle 0) ws -> 0 < total ws -> (i < List.length ws)%nat ->
  mean1 (fun x => match select_kernel c x with Ok j => if Nat.eqb j i then 1 else 0 | Err _ => 0 end) (share ws i).
Proof. intros ks ws ms av c i H F P. exact (probability c _ ws ms (made_by ks ws ms av c H F P) i). Qed.

(** For every observable, the mean over the selection is the sum of what the kernels with positive weight do on their own, each in its own
    orientation: the weights themselves do not appear. *)
Theorem C39_scatter_unbiased : forall ks ws ms av c n ev Q, composite_kernel ks ws ms av = Ok c -> Forall (Rle 0) ws -> 0 < total ws ->
  (forall k, In k (map fst ks) -> linear (k_scatter k n)) -> (forall a b, same_but_weight a b -> Q a = Q b) ->
  mean1 (fun x => seen_in Q (composite_scatter c x n ev)) (over (fun k m => seen Q (mounted (k_scatter k n) m ev)) (map fst ks) ws ms).
Proof. intros ks ws ms av c n ev Q H F P. exact (delegated_mean c _ ws ms (made_by ks ws ms av c H F P) k_scatter n ev Q). Qed.
Theorem C39_absorb_unbiased : forall ks ws ms av c n ev Q, composite_kernel ks ws ms av = Ok c -> Forall (Rle 0) ws -> 0 < total ws ->
  (forall k, In k (map fst ks) -> linear (k_absorb k n)) -> (forall a b, same_but_weight a b -> Q a = Q b) ->
  mean1 (fun x => seen_in Q (composite_absorb c x n ev)) (over (fun k m => seen Q (mounted (k_absorb k n) m ev)) (map fst ks) ws ms).
Proof. intros ks ws ms av c n ev Q H F P. exact (delegated_mean c _ ws ms (made_by ks ws ms av c H F P) k_absorb n ev Q). Qed.
(** With positive weights it is the sum over all. *)
Theorem C39_positive_weights : forall f ks ws ms, List.length ks = List.length ws -> List.length ms = List.length ws -> Forall (Rlt 0) ws ->
  over f ks ws ms = total (map (fun '(k, m) => f k m) (combine ks ms)).
Proof. exact over_positive. Qed.
(** Turning a kernel that does not care about directions has no effect. *)
Theorem C39_orientation : forall act m ev, orthogonal m ->
  (forall e, act (mkE (e_r e) (dot_mv (transpose m) (e_v e)) (e_s1 e) (e_s2 e) (e_t e) (e_p e)) =
             let o := act e in mkE (e_r o) (dot_mv (transpose m) (e_v o)) (e_s1 o) (e_s2 o) (e_t o) (e_p o)) ->
  mounted act m ev = act ev.
Proof.
  intros act m ev O C. unfold mounted. rewrite C. cbv zeta. cbn [e_r e_v e_s1 e_s2 e_t e_p]. rewrite (orth_right m _ O). now destruct (act ev).
Qed.

(** Coefficients: absorption is averaged over the kernels; scattering is that of the kernel which claims all of it, else the sum, averaged
    on request. *)
Theorem C39_coefficients : forall c ev, c_kernels c <> [] ->
  composite_absorption c ev = Ok (total (map (fun k => k_absorption k ev) (c_kernels c)) / INR (List.length (c_kernels c))) /\
  (c_total c = None -> composite_scattering c ev =
     Ok (if c_average c then total (map (fun k => k_scattering k ev) (c_kernels c)) / INR (List.length (c_kernels c)) else total (map (fun k => k_scattering k ev) (c_kernels c)))) /\
  (forall i k, c_total c = Some i -> nth_error (c_kernels c) i = Some k -> composite_scattering c ev = Ok (k_scattering k ev)).
Proof.
  intros c ev NE. assert (NZ : INR (List.length (c_kernels c)) <> 0) by (apply not_0_INR; destruct (c_kernels c); [contradiction|discriminate]).
  unfold composite_absorption, composite_scattering. rewrite !fold_total, !Rplus_0_l. split; [now apply div_ok|]. split.
  - intros ->. destruct (c_average c); [now apply div_ok|reflexivity].
  - intros i k -> ->. reflexivity.
Qed.

(** "Kernels with weight zero are never selected": false for the random number 1, which selects the last one; the weight is then divided by zero. *)
Definition plain : kernel := mkK (fun _ => 1) (fun _ => 1) (fun _ ev => ev) (fun _ ev => ev).
Theorem C39_zero_weight_last_refuted : exists ks ws ms c, composite_kernel ks ws ms false = Ok c /\ Forall (Rle 0) ws /\ nth 1 ws 0 = 0 /\
  select_kernel c 1 = Ok 1%nat /\ forall n ev, composite_scatter c 1 n ev = Err ZeroDivisionError.
Proof.
  exists [(plain, false); (plain, false)], [1; 0], [I3m; I3m], (mkC [plain; plain] false [1; 0] [I3m; I3m] None).
  assert (E : composite_kernel [(plain, false); (plain, false)] [1; 0] [I3m; I3m] false = Ok (mkC [plain; plain] false [1; 0] [I3m; I3m] None)).
  { unfold composite_kernel. cbn [List.length Nat.eqb negb map snd find_total Nat.ltb Nat.leb bind fold_left]. rewrite divide_all_ok by lra. cbn [map bind fst]. do 2 f_equal. f_equal; [field|f_equal; field]. }
  split; [exact E|]. split; [repeat (constructor; try lra)|]. split; [reflexivity|].
  assert (SEL : select_kernel (mkC [plain; plain] false [1; 0] [I3m; I3m] None) 1 = Ok 1%nat).
  { unfold select_kernel. cbn. replace (Rltb 1 (0 + 1)) with false by (symmetry; apply ChanProofs.Rltb_f; lra). replace (Rltb 1 (0 + 1 + 0)) with false by (symmetry; apply ChanProofs.Rltb_f; lra). reflexivity. }
  split; [exact SEL|]. intros n ev. unfold composite_scatter, delegate. rewrite SEL. cbn [bind nth_error c_weights c_rotmats c_kernels]. unfold divide. destruct (Req_EM_T 0 0); [reflexivity|contradiction].
Qed.
(** "A kernel given weight zero is not used": false, from Python its weight becomes 1. *)
Theorem C39_rendered_zero_weight_refuted : exists es c, onCompositeKernel es None = Ok c /\ map el_weight es = [Some 1; Some 0] /\ select_kernel c (3 / 4) = Ok 1%nat.
Proof.
  exists [mkEl plain false (Some 1) None; mkEl plain false (Some 0) None]. set (I := mkM 1 0 0 0 1 0 0 0 1). exists (mkC [plain; plain] false [1 / 2; 1 / 2] [I; I] None).
  split; [|split; [reflexivity|]].
  - unfold onCompositeKernel. cbn [map el_kernel el_total el_weight el_rotmat render_weight render_rotmat]. destruct (Req_EM_T 1 0) as [Z|_]; [exfalso; lra|]. destruct (Req_EM_T 0 0) as [_|Z]; [|contradiction].
    unfold composite_kernel. cbn [List.length Nat.eqb negb map snd find_total Nat.ltb Nat.leb bind fold_left]. rewrite divide_all_ok by lra. cbn [map bind fst]. do 2 f_equal. f_equal; [field|f_equal; field].
  - unfold select_kernel. cbn. replace (Rltb (3 / 4) (0 + 1 / 2)) with false by (symmetry; apply ChanProofs.Rltb_f; lra). replace (Rltb (3 / 4) (0 + 1 / 2 + 1 / 2)) with true by (symmetry; apply ChanProofs.Rltb_t; lra). reflexivity.
Qed.
(** "The weight handed on for absorption is the weight absorbed": false; with two kernels it is twice that, though the absorption coefficient is
    their average.  In the same way "what is scattered agrees with the scattering coefficient" is false if this is averaged. *)
Theorem C39_absorbed_weight_refuted : exists ks ws ms c ev, composite_kernel ks ws ms true = Ok c /\ composite_absorption c ev = Ok 1 /\ composite_scattering c ev = Ok 1 /\
  forall n, mean1 (fun x => seen_in (fun _ => 1) (composite_absorb c x n ev)) (2 * e_p ev) /\ mean1 (fun x => seen_in (fun _ => 1) (composite_scatter c x n ev)) (2 * e_p ev).
Proof.
  set (ev := mkE (mkV 0 0 0) (mkV 0 0 1) 0 0 0 1).
  exists [(plain, false); (plain, false)], [1; 1], [I3m; I3m], (mkC [plain; plain] true [1 / 2; 1 / 2] [I3m; I3m] None), ev.
  assert (E : composite_kernel [(plain, false); (plain, false)] [1; 1] [I3m; I3m] true = Ok (mkC [plain; plain] true [1 / 2; 1 / 2] [I3m; I3m] None)).
  { unfold composite_kernel. cbn [List.length Nat.eqb negb map snd find_total Nat.ltb Nat.leb bind fold_left]. rewrite divide_all_ok by lra. cbn [map bind fst]. do 2 f_equal. f_equal; [field|f_equal; field]. }
  split; [exact E|]. destruct (C39_coefficients (mkC [plain; plain] true [1 / 2; 1 / 2] [I3m; I3m] None) ev ltac:(discriminate)) as (A & B & _).
  split; [rewrite A; cbn; f_equal; field|]. split; [rewrite (B eq_refl); cbn; f_equal; field|]. intros n.
  assert (F : Forall (Rle 0) [1; 1]) by (constructor; [lra|constructor; [lra|constructor]]). assert (P : 0 < total [1; 1]) by (unfold total; cbn; lra).
  assert (LI : forall k, In k [plain; plain] -> linear (k_absorb k n) /\ linear (k_scatter k n)).
  { intros k [<-|[<-|[]]]; split; intros e e' q Q S PP; split; assumption. }
  split.
  - pose proof (C39_absorb_unbiased _ _ _ _ _ n ev (fun _ => 1) E F P (fun k H => proj1 (LI k H)) ltac:(reflexivity)) as M.
    replace (over _ _ _ _) with (2 * e_p ev) in M; [exact M|]. rewrite C39_positive_weights; [|reflexivity|reflexivity|constructor; [lra|constructor; [lra|constructor]]]. unfold total, seen, mounted; cbn. ring.
  - pose proof (C39_scatter_unbiased _ _ _ _ _ n ev (fun _ => 1) E F P (fun k H => proj2 (LI k H)) ltac:(reflexivity)) as M.
    replace (over _ _ _ _) with (2 * e_p ev) in M; [exact M|]. rewrite C39_positive_weights; [|reflexivity|reflexivity|constructor; [lra|constructor; [lra|constructor]]]. unfold total, seen, mounted; cbn. ring.
Qed.

(** Three kernels with weights 1, 0, 3; the number 1/2 selects the last. *)
Example C39_example : exists c, composite_kernel [(plain, false); (plain, true); (plain, false)] [1; 0; 3] [I3m; I3m; I3m] false = Ok c /\
  c_total c = Some 1%nat /\ Forall (Rle 0) [1; 0; 3] /\ 0 < total [1; 0; 3] /\ select_kernel c (1 / 2) = Ok 2%nat /\ linear (k_scatter plain 0).
Proof.
  destruct (C39_constructor [(plain, false); (plain, true); (plain, false)] [1; 0; 3] [I3m; I3m; I3m] false) as (c & E & _ & _ & _ & _ & T); [reflexivity|reflexivity|cbn; lia|unfold total; cbn; lra|].
  exists c. split; [exact E|]. split; [now apply T|]. assert (F : Forall (Rle 0) [1; 0; 3]) by (constructor; [lra|constructor; [lra|constructor; [lra|constructor]]]). split; [exact F|].
  assert (P : 0 < total [1; 0; 3]) by (unfold total; cbn; lra). split; [exact P|].
  split; [|intros e e' q Q S PP; split; assumption]. apply (proj2 (C39_selects _ _ _ _ c (1 / 2) E F P ltac:(lra))). split; [cbn; lia|]. unfold before, total; cbn. lra.
Qed.

Print Assumptions C39_constructor.
Print Assumptions C39_constructor_fails.
Print Assumptions C39_selects.
Print Assumptions C39_zero_weight_not_selected.
Print Assumptions C39_probability.
Print Assumptions C39_scatter_unbiased.
Print Assumptions C39_absorb_unbiased.
Print Assumptions C39_positive_weights.
Print Assumptions C39_orientation.
Print Assumptions C39_coefficients.
Print Assumptions C39_zero_weight_last_refuted.
Print Assumptions C39_rendered_zero_weight_refuted.
Print Assumptions C39_absorbed_weight_refuted.
