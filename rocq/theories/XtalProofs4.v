(** Proofs for C58: the kernel that is made by the factory. *)
From Coq Require Import Reals Lra Lia Sorting.Sorted Sorting.Permutation.
From Coquelicot Require Import Coquelicot.
From Verif Require Import Base RotModel RotSpec ChanModel ChanProofs ShapeModel ShapeSpec ShapeProofs ScatModel ScatSpec UnitModel UnitSpec UnitProofs KinModel KinSpec KinProofs KinProofs3 KinProofs4 GridProofs PowdProofs XtalModel XtalSpec XtalProofs XtalProofs2 XtalProofs3.
Open Scope R_scope.

(** sorted *)
Lemma tuple_le_true lat x y : tuple_le (sort_key lat x) (sort_key lat y) = true -> speed (tau_of lat x) <= speed (tau_of lat y).
Proof. unfold sort_key. cbn [tuple_le]. change (vnorm (tau_of lat x)) with (speed (tau_of lat x)). change (vnorm (tau_of lat y)) with (speed (tau_of lat y)). destruct (Rltb _ _) eqn:A; [apply Rltb_t in A; lra|]. destruct (Rltb (speed (tau_of lat y)) _) eqn:B; [discriminate|]. apply Rltb_f in B. lra. Qed.
Lemma tuple_le_false lat x y : tuple_le (sort_key lat x) (sort_key lat y) = false -> speed (tau_of lat y) <= speed (tau_of lat x).
Proof. unfold sort_key. cbn [tuple_le]. change (vnorm (tau_of lat x)) with (speed (tau_of lat x)). change (vnorm (tau_of lat y)) with (speed (tau_of lat y)). destruct (Rltb _ _) eqn:A; [discriminate|]. apply Rltb_f in A. lra. Qed.
Lemma insert_perm lat x l : Permutation (sort_insert lat x l) (x :: l).
Proof. induction l as [|y l IH]; cbn [sort_insert]; [apply Permutation_refl|]. destruct (tuple_le _ _); [apply Permutation_refl|]. eapply perm_trans; [apply perm_skip; exact IH|apply perm_swap]. Qed.
Lemma sort_perm lat l : Permutation (fold_right (sort_insert lat) [] l) l.
Proof. induction l as [|x l IH]; cbn; [apply Permutation_refl|]. eapply perm_trans; [apply insert_perm|now apply perm_skip]. Qed.
Definition by_length (lat : lattice) (x y : hkl) : Prop := speed (tau_of lat x) <= speed (tau_of lat y).
Lemma insert_sorted lat x l : StronglySorted (by_length lat) l -> StronglySorted (by_length lat) (sort_insert lat x l).
Proof.
  induction l as [|y l IH]; intros S; cbn [sort_insert]; [repeat constructor|]. inversion S as [|? ? S' F]; subst. destruct (tuple_le _ _) eqn:T.
  - apply tuple_le_true in T. constructor; [exact S|]. constructor; [exact T|]. rewrite Forall_forall in *. intros z Z. specialize (F z Z). unfold by_length in *. lra.
  - apply tuple_le_false in T. constructor; [now apply IH|]. rewrite Forall_forall in *. intros z Z. apply (Permutation_in z (insert_perm lat x l)) in Z. destruct Z as [<-|Z]; [exact T|now apply F].
Qed.
Lemma sort_sorted lat l : StronglySorted (by_length lat) (fold_right (sort_insert lat) [] l).
Proof. induction l as [|x l IH]; cbn; [constructor|now apply insert_sorted]. Qed.
Lemma factory_inv a b c l mosaic dd ab k : py_singlecrystal a b c l mosaic dd ab = Ok (Some k) -> exists lat l', new_lattice a b c = Some lat /\ k = new_xtal lat l' mosaic dd ab /\
  Permutation l' (filter (fun x => Rltb 0 (F2 x)) l) /\ StronglySorted (by_length lat) l' /\ l' <> [].
Proof.
  unfold py_singlecrystal. destruct (new_lattice a b c) as [lat|] eqn:L; [|discriminate]. cbv zeta. set (fl := filter _ l). pose proof (sort_perm lat fl) as P. pose proof (sort_sorted lat fl) as S.
  destruct (fold_right (sort_insert lat) [] fl) as [|x l'] eqn:E; [discriminate|]. intros H. exists lat, (x :: l'). split; [reflexivity|]. split; [congruence|]. split; [exact P|]. split; [exact S|discriminate].
Qed.
Lemma factory_made a b c l mosaic dd ab lat : new_lattice a b c = Some lat -> (exists x, In x l /\ 0 < F2 x) -> exists k, py_singlecrystal a b c l mosaic dd ab = Ok (Some k).
Proof.
  intros L (x & I & P). unfold py_singlecrystal. rewrite L. cbv zeta. destruct (fold_right _ [] _) as [|y l'] eqn:E; [|eexists; reflexivity]. exfalso. pose proof (sort_perm lat (filter (fun x => Rltb 0 (F2 x)) l)) as Q. rewrite E in Q. apply Permutation_nil in Q.
  assert (Y : In x (filter (fun x => Rltb 0 (F2 x)) l)) by (apply filter_In; split; [exact I|now apply Rltb_t]). rewrite Q in Y. destruct Y.
Qed.
(** sums *)
Lemma over_perm mosaic dd ki pt g l l' : Permutation l l' -> over_reach mosaic dd ki pt g l = over_reach mosaic dd ki pt g l'.
Proof. induction 1; cbn; [reflexivity|now rewrite IHPermutation|ring|congruence]. Qed.
Lemma over_filter mosaic dd ki pt g l : over_reach mosaic dd ki pt g (filter (fun x => Rltb 0 (F2 x)) l) = over_reach mosaic dd ki pt g l.
Proof. induction l as [|x l IH]; cbn; [reflexivity|]. destruct (Rltb 0 (F2 x)) eqn:R; cbn; rewrite IH; [reflexivity|]. apply Rltb_f in R. destruct (Rlt_dec _ _); [lra|ring]. Qed.
Lemma over_ext mosaic dd ki pt g g' l : (forall x, In x l -> 0 < F2 x -> in_reach mosaic dd ki (pt x) = true -> g x = g' x) -> over_reach mosaic dd ki pt g l = over_reach mosaic dd ki pt g' l.
Proof.
  induction l as [|x l IH]; cbn; intros H; [reflexivity|]. rewrite IH by (intros; apply H; auto). f_equal. destruct (Rlt_dec _ _); [|reflexivity]. destruct (in_reach _ _ _ _) eqn:R; [|reflexivity]. apply H; auto.
Qed.
Lemma over_scale mosaic dd ki pt g k l : over_reach mosaic dd ki pt (fun x => k * g x) l = k * over_reach mosaic dd ki pt g l.
Proof. induction l as [|x l IH]; cbn; [ring|]. rewrite IH. destruct (Rlt_dec _ _); [|ring]. destruct (in_reach _ _ _ _); ring. Qed.
Lemma over_zero mosaic dd ki pt g l : (forall x, In x l -> 0 < F2 x -> in_reach mosaic dd ki (pt x) = false) -> over_reach mosaic dd ki pt g l = 0.
Proof. induction l as [|x l IH]; cbn; intros H; [reflexivity|]. rewrite IH by (intros; apply H; auto). destruct (Rlt_dec 0 (F2 x)) as [|]; [|ring]. rewrite (H x) by auto. ring. Qed.
Lemma over_pos mosaic dd ki pt g l : (forall x, In x l -> 0 < F2 x -> in_reach mosaic dd ki (pt x) = true -> 0 < g x) -> 0 <= over_reach mosaic dd ki pt g l /\ ((exists x, In x l /\ 0 < F2 x /\ in_reach mosaic dd ki (pt x) = true) -> 0 < over_reach mosaic dd ki pt g l).
Proof.
  induction l as [|x l IH]; cbn; intros H; [split; [lra|intros (x & [] & _)]|]. destruct IH as [A B]; [intros; apply H; auto|].
  assert (C : 0 <= (if Rlt_dec 0 (F2 x) then if in_reach mosaic dd ki (pt x) then g x else 0 else 0)). { destruct (Rlt_dec 0 (F2 x)); [|lra]. destruct (in_reach _ _ _ _) eqn:R; [|lra]. left. apply H; auto. }
  split; [lra|]. intros (y & [<-|Y] & P & R); [|assert (0 < over_reach mosaic dd ki pt g l) by (apply B; now exists y); lra]. destruct (Rlt_dec 0 (F2 x)); [|lra]. rewrite R. pose proof (H x (or_introl eq_refl) P R). lra.
Qed.
(** the reciprocal basis is unique *)
Lemma dual_unique a b c d d' : sdot a (vcross b c) <> 0 -> sdot a d = sdot a d' -> sdot b d = sdot b d' -> sdot c d = sdot c d' -> d = d'.
Proof.
  intros N A B C. assert (E : forall w, vscale (sdot a (vcross b c)) w = vadd (vadd (vscale (sdot a w) (vcross b c)) (vscale (sdot b w) (vcross c a))) (vscale (sdot c w) (vcross a b))) by (intros w; unfold sdot, vcross, vadd, vscale; cbn; f_equal; ring).
  assert (F : vscale (sdot a (vcross b c)) d = vscale (sdot a (vcross b c)) d') by (rewrite !E, A, B, C; reflexivity). set (V := sdot a (vcross b c)) in *. destruct d as [x y z], d' as [x' y' z']. unfold vscale in F; cbn in F. injection F; intros. f_equal; apply (Rmult_eq_reg_l V); assumption.
Qed.
Lemma reciprocal_unique a b c a1 b1 c1 a2 b2 c2 : sdot a (vcross b c) <> 0 -> reciprocal a b c a1 b1 c1 -> reciprocal a b c a2 b2 c2 -> a1 = a2 /\ b1 = b2 /\ c1 = c2.
Proof. intros N (A1 & A2 & A3 & A4 & A5 & A6 & A7 & A8 & A9) (B1 & B2 & B3 & B4 & B5 & B6 & B7 & B8 & B9). repeat split; apply (dual_unique a b c); congruence. Qed.
Lemma node_zero a b c a' b' c' x : reciprocal a b c a' b' c' -> node a' b' c' x = mkV 0 0 0 -> hh x = 0 /\ hk x = 0 /\ hl x = 0.
Proof.
  intros (A1 & A2 & A3 & A4 & A5 & A6 & A7 & A8 & A9) Z. pose proof PI_RGT_0.
  assert (X : forall w, sdot w (node a' b' c' x) = hh x * sdot w a' + hk x * sdot w b' + hl x * sdot w c') by (intros w; unfold node, sdot, vadd, vscale; cbn; ring).
  assert (Y : forall w, sdot w (mkV 0 0 0) = 0) by (intros w; unfold sdot; cbn; ring).
  pose proof (X a) as Xa. pose proof (X b) as Xb. pose proof (X c) as Xc. rewrite Z, Y in Xa, Xb, Xc. rewrite A1, A2, A3 in Xa. rewrite A4, A5, A6 in Xb. rewrite A7, A8, A9 in Xc. repeat split; apply (Rmult_eq_reg_r (2 * PI)); lra.
Qed.
Lemma wave_vector_iff ki v : v <> mkV 0 0 0 -> (wave_vector ki v <-> ki = vscale v2k v).
Proof.
  intros N. pose proof (speed_pos v N) as S. unfold wave_vector. split.
  - intros (kk & W & E). apply is_wavenumber_iff in W. subst kk. destruct ki as [x y z], v as [a b c]. set (s := speed (mkV a b c)) in *. unfold vscale in *; cbn in *. injection E; intros. f_equal; apply (Rmult_eq_reg_l s); lra.
  - intros ->. exists (v2k * speed v). split; [now apply is_wavenumber_iff|]. unfold vscale; cbn. f_equal; ring.
Qed.

Section made.
Variables (lat : lattice) (l' : list hkl) (mosaic dd ab : R) (ev : event).
Hypothesis VP : 0 < V0 lat.
Hypothesis SO : StronglySorted (by_length lat) l'.
Hypothesis M : 0 < mosaic.
Hypothesis D : 0 < dd < 1 / 5.
Hypothesis MD : rms * mosaic <= dd.
Hypothesis NV : e_v ev <> mkV 0 0 0.
Hypothesis FP : forall x, In x l' -> 0 < F2 x /\ tau_of lat x <> mkV 0 0 0.
Let k0 := new_xtal lat l' mosaic dd ab.
Let ki := vscale v2k (e_v ev).
Definition xrefl (x : hkl) : R := td_refl (tdx lat mosaic dd ki 0 x).
Definition xpoint (x : hkl) (z1 z2 : R) : vec3 := from_local (new_hkldata lat mosaic dd x) (local_point (tdx lat mosaic dd ki 0 x) z1 z2).
Let rl := reached_list lat mosaic dd ki 0 l'.
Let ts := map (fun p => tdx lat mosaic dd ki (fst p) (snd p)) rl.
Let over g := over_reach mosaic dd ki (tau_of lat) g l'.

Lemma ki_nz : ki <> mkV 0 0 0.
Proof. intros Z. apply NV. pose proof v2k_pos. unfold ki, vscale in Z. destruct (e_v ev) as [x y z]; cbn in Z. injection Z; intros. f_equal; apply (Rmult_eq_reg_l v2k); lra. Qed.
Lemma one_ok i x : In x l' -> in_reach mosaic dd ki (tau_of lat x) = true -> td_index (tdx lat mosaic dd ki i x) = i /\ 0 < xrefl x /\ td_refl (tdx lat mosaic dd ki i x) = xrefl x /\ td_xs (tdx lat mosaic dd ki i x) = xrefl x * F2 x / 100 /\
  lands (V0 lat) mosaic dd ki (tau_of lat x) (xrefl x) (xpoint x) /\ (forall z1 z2, speed (xpoint x z1 z2) = speed (local_point (tdx lat mosaic dd ki i x) z1 z2) /\ 0 < speed (xpoint x z1 z2) /\ xpoint x z1 z2 = from_local (new_hkldata lat mosaic dd x) (local_point (tdx lat mosaic dd ki i x) z1 z2)).
Proof.
  intros I R. destruct (FP x I) as [_ N]. destruct (tdx_same lat mosaic dd ki i x) as (S1 & S2 & S3). destruct (tdx_ok lat mosaic dd ki M D MD ki_nz VP i x N R) as (_ & T & _). destruct (tdx_ok lat mosaic dd ki M D MD ki_nz VP 0 x N R) as (_ & _ & P & X & L & Q).
  split; [exact T|]. split; [exact P|]. split; [exact S1|]. split; [rewrite S2; exact X|]. split; [exact L|]. intros z1 z2. destruct (hkldata_ok lat mosaic dd x M (proj1 D) N) as (O & _). unfold xpoint. rewrite S3, (from_speed _ _ O). auto.
Qed.
Lemma in_ts p : In p rl -> In (snd p) l' /\ in_reach mosaic dd ki (tau_of lat (snd p)) = true /\ nth_error l' (fst p) = Some (snd p).
Proof. destruct p as [j x]. intros I. apply (reached_in lat mosaic dd ki) in I. destruct I as (A & B & _ & C). rewrite Nat.sub_0_r in C. auto. Qed.
Lemma info : tau_info k0 (e_v ev) = Some (ts, over xrefl, over (fun x => xrefl x * F2 x / 100)).
Proof.
  unfold tau_info. cbn [k0 new_xtal x_lattice x_hkls x_delta_d_d]. fold ki. change (vnorm ki) with (speed ki). rewrite (list_ok lat mosaic dd ki M D MD ki_nz VP l' (fun x I => proj2 (FP x I)) SO 0). fold rl ts.
  unfold ts at 2. rewrite (fold_sum lat mosaic dd ki td_refl xrefl rl) by (intros p I; apply in_ts in I; now apply (one_ok (fst p) (snd p))). unfold ts at 2. rewrite (fold_sum lat mosaic dd ki td_xs (fun x => xrefl x * F2 x / 100) rl) by (intros p I; apply in_ts in I; now apply (one_ok (fst p) (snd p))).
  unfold rl. rewrite !(lsum_reach lat mosaic dd ki) by (intros x I; apply (FP x I)). unfold over. now rewrite !Rplus_0_l.
Qed.
Lemma refl_pos x : In x l' -> 0 < F2 x -> in_reach mosaic dd ki (tau_of lat x) = true -> 0 < xrefl x. Proof. intros I _ R. now apply (one_ok 0 x). Qed.
Lemma xs_pos x : In x l' -> 0 < F2 x -> in_reach mosaic dd ki (tau_of lat x) = true -> 0 < xrefl x * F2 x / 100.
Proof. intros I P R. pose proof (refl_pos x I P R). apply Rdiv_lt_0_compat; [apply Rmult_lt_0_compat; assumption|lra]. Qed.
Lemma none_out u z1 z2 : (forall x, In x l' -> in_reach mosaic dd ki (tau_of lat x) = false) -> from_info k0 (tau_info k0 (e_v ev)) u z1 z2 ev = Some (with_pv ev (-1) (Some (e_v ev))).
Proof. intros H. rewrite info. cbn [from_info]. unfold over. rewrite over_zero by (intros; now apply H). rewrite (proj2 (Rleb_true _ _)) by lra. reflexivity. Qed.
(** one neutron *)
Definition outcome (x : hkl) (z1 z2 : R) : kevent :=
  with_pv ev (e_p ev * (100 / V0 lat * (F2 x / 100) * over xrefl)) (Some (towards (speed (e_v ev)) (xpoint x z1 z2))).
Lemma some_total : (exists x, In x l' /\ in_reach mosaic dd ki (tau_of lat x) = true) -> 0 < over xrefl /\ 0 < over (fun x => xrefl x * F2 x / 100) /\ ts <> [].
Proof.
  intros (x & I & R). assert (Q : exists x, In x l' /\ 0 < F2 x /\ in_reach mosaic dd ki (tau_of lat x) = true) by (exists x; split; [exact I|]; split; [apply (FP x I)|exact R]).
  split; [apply (proj2 (over_pos _ _ _ _ _ _ refl_pos)); exact Q|]. split; [apply (proj2 (over_pos _ _ _ _ _ _ xs_pos)); exact Q|]. unfold ts. intros Z. apply map_eq_nil in Z.
  pose proof (proj2 (over_pos _ _ _ _ _ _ refl_pos) Q) as P. rewrite <- (lsum_reach lat mosaic dd ki xrefl l' 0) in P by (intros y Y; apply (FP y Y)). fold rl in P. rewrite Z in P. cbn in P. lra.
Qed.
Lemma out_of p u z1 z2 : (exists x, In x l' /\ in_reach mosaic dd ki (tau_of lat x) = true) -> In p rl ->
  find_reflection (random u 0 (over xrefl)) 0 ts = Some (tdx lat mosaic dd ki (fst p) (snd p)) -> from_info k0 (tau_info k0 (e_v ev)) u z1 z2 ev = Some (outcome (snd p) z1 z2).
Proof.
  intros X I F. destruct (some_total X) as (T1 & T2 & _). rewrite info. unfold from_info. rewrite (proj2 (Rleb_false _ _)) by lra. rewrite F. apply in_ts in I. destruct I as (I & R & N).
  destruct (one_ok (fst p) (snd p) I R) as (J & P & RE & XS & _ & SP). rewrite J. cbn [k0 new_xtal x_hkls x_lattice]. rewrite (map_nth_error (new_hkldata lat mosaic dd) _ _ N). destruct (SP z1 z2) as (S1 & S2 & S3). rewrite <- S1, RE, XS.
  rewrite (proj2 (Reqb_f _ _)) by lra. rewrite (proj2 (Reqb_f _ _)) by (apply Rgt_not_eq, Rmult_lt_0_compat; assumption). cbn [orb]. f_equal. unfold outcome. f_equal; [field; lra|]. f_equal. rewrite from_scale, <- S3. unfold towards.
  pose proof k2v_v2k as KV. destruct (xpoint (snd p) z1 z2) as [a b c]. set (s := speed (mkV a b c)) in *. unfold vscale; cbn. f_equal; replace (speed (e_v ev) / s) with (speed (e_v ev) * (k2v * v2k) / s) by (rewrite KV; field; lra); field; lra.
Qed.
Lemma some_out u z1 z2 : (exists x, In x l' /\ in_reach mosaic dd ki (tau_of lat x) = true) -> exists x, In x l' /\ in_reach mosaic dd ki (tau_of lat x) = true /\ from_info k0 (tau_info k0 (e_v ev)) u z1 z2 ev = Some (outcome x z1 z2).
Proof.
  intros X. destruct (some_total X) as (_ & _ & NE). destruct (find_some ts (random u 0 (over xrefl)) 0 NE) as (t & F & I). unfold ts in I. apply in_map_iff in I. destruct I as (p & <- & I). exists (snd p). pose proof (in_ts p I) as (A & B & _). split; [exact A|]. split; [exact B|]. now apply out_of.
Qed.
Lemma tsum_lsum q g l : (forall p, In p l -> q (tdx lat mosaic dd ki (fst p) (snd p)) = g (snd p)) -> tsum q (map (fun p => tdx lat mosaic dd ki (fst p) (snd p)) l) = lsum g l.
Proof. induction l as [|p l IH]; cbn; intros H; [reflexivity|]. rewrite IH by (intros; apply H; auto). rewrite H by auto. reflexivity. Qed.
Lemma mean_out G z1 z2 : (exists x, In x l' /\ in_reach mosaic dd ki (tau_of lat x) = true) ->
  is_RInt (fun u => carried G (comes_out (from_info k0 (tau_info k0 (e_v ev)) u z1 z2 ev))) 0 1 (e_p ev * over (fun x => 100 / V0 lat * (xrefl x * F2 x / 100) * G (towards (speed (e_v ev)) (xpoint x z1 z2)))).
Proof.
  intros X. destruct (some_total X) as (T1 & _ & NE).
  set (val := fun t : taudata => match nth_error l' (td_index t) with Some x => carried G (comes_out (Some (outcome x z1 z2))) | None => 0 end).
  assert (TR : tsum td_refl ts = over xrefl). { unfold ts. rewrite (tsum_lsum td_refl xrefl) by (intros p I; apply in_ts in I; now apply (one_ok (fst p) (snd p))). apply lsum_reach. intros x I. apply (FP x I). }
  assert (TP : forall t, In t ts -> 0 < td_refl t). { intros t I. unfold ts in I. apply in_map_iff in I. destruct I as (p & <- & I). apply in_ts in I. destruct I as (A & B & _). destruct (one_ok (fst p) (snd p) A B) as (_ & P & E & _). now rewrite E. }
  pose proof (find_int val ts 0 TP) as H. rewrite Rplus_0_l, TR in H. apply KinProofs3.scaled_int in H. pose proof (@is_RInt_scal R_NormedModule _ 0 1 (/ over xrefl) _ H) as H2. cbv beta in H2.
  match type of H2 with is_RInt _ _ _ ?v => replace v with (e_p ev * over (fun x => 100 / V0 lat * (xrefl x * F2 x / 100) * G (towards (speed (e_v ev)) (xpoint x z1 z2)))) in H2 end.
  - eapply int_ext01; [|exact H2]. intros u _. cbv beta. unfold scal; cbn. unfold mult; cbn. destruct (find_some ts (random u 0 (over xrefl)) 0 NE) as (t & F & I). rewrite F. unfold ts in I. apply in_map_iff in I. destruct I as (p & <- & I). rewrite (out_of p u z1 z2 X I F).
    apply in_ts in I. destruct I as (A & B & C). unfold val. rewrite (proj1 (one_ok (fst p) (snd p) A B)), C. field. lra.
  - unfold scal; cbn. unfold mult; cbn. unfold ts. rewrite (tsum_lsum _ (fun x => over xrefl * e_p ev * (100 / V0 lat * (xrefl x * F2 x / 100) * G (towards (speed (e_v ev)) (xpoint x z1 z2))))).
    + unfold rl. rewrite (lsum_reach lat mosaic dd ki) by (intros x I; apply (FP x I)). rewrite (over_scale mosaic dd ki (tau_of lat) (fun x => 100 / V0 lat * (xrefl x * F2 x / 100) * G (towards (speed (e_v ev)) (xpoint x z1 z2))) (over xrefl * e_p ev)). fold (over (fun x => 100 / V0 lat * (xrefl x * F2 x / 100) * G (towards (speed (e_v ev)) (xpoint x z1 z2)))). field. lra.
    + intros p I. apply in_ts in I. destruct I as (A & B & C). destruct (one_ok (fst p) (snd p) A B) as (J & _ & E & _). unfold val. rewrite J, C, E. unfold carried, comes_out, outcome, with_pv. cbn [k_v k_p]. field. lra.
Qed.
End made.
