(** Proofs for C58: statements in the form of the properties, and cases. *)
From Coq Require Import Reals Lra Lia Sorting.Sorted Sorting.Permutation.
From Coquelicot Require Import Coquelicot.
From Verif Require Import Base RotModel RotSpec ChanModel ChanProofs ShapeModel ShapeSpec ShapeProofs ScatModel ScatSpec UnitModel UnitSpec UnitProofs KinModel KinSpec KinProofs KinProofs3 KinProofs4 GridProofs PowdProofs XtalModel XtalSpec XtalProofs XtalProofs2 XtalProofs3 XtalProofs4.
Open Scope R_scope.

Lemma towards_speed s P : 0 <= s -> 0 < speed P -> speed (towards s P) = s.
Proof. intros S Q. unfold towards. rewrite speed_scale by (apply Rmult_le_pos; [exact S|left; now apply Rinv_0_lt_compat]). field. lra. Qed.
Lemma main a b c a' b' c' l mosaic dd ab k0 k ev ki :
  py_singlecrystal a b c l mosaic dd ab = Ok (Some k0) -> used k0 k -> reciprocal a b c a' b' c' -> 0 < mosaic -> 0 < dd < 1 / 5 -> rms * mosaic <= dd ->
  (forall x, In x l -> 0 < F2 x -> ~ (hh x = 0 /\ hk x = 0 /\ hl x = 0)) -> e_v ev <> mkV 0 0 0 -> wave_vector ki (e_v ev) ->
  let pt := node a' b' c' in let V := Rabs (sdot a (vcross b c)) in
  let active x := In x l /\ 0 < F2 x /\ in_reach mosaic dd ki (pt x) = true in
  let over g := over_reach mosaic dd ki pt g l in
  exists refl P,
    (forall x, active x -> lands V mosaic dd ki (pt x) (refl x) (P x) /\ 0 < refl x /\ forall z1 z2, 0 < speed (P x z1 z2)) /\
    snd (xtal_scattering k (e_v ev)) = Some (over (fun x => 100 / V * (refl x * F2 x / 100))) /\
    (~ (exists x, active x) -> forall u z1 z2, snd (xtal_scatter k u z1 z2 ev) = Some (with_pv ev (-1) (Some (e_v ev)))) /\
    ((exists x, active x) ->
      (forall u z1 z2, exists x o, active x /\ snd (xtal_scatter k u z1 z2 ev) = Some o /\ in_place ev o /\ k_v o = Some (towards (speed (e_v ev)) (P x z1 z2)) /\ speed (towards (speed (e_v ev)) (P x z1 z2)) = speed (e_v ev) /\
         k_p o = e_p ev * (100 / V * (F2 x / 100) * over refl)) /\
      (forall z1 z2 G, is_RInt (fun u => carried G (comes_out (snd (xtal_scatter k u z1 z2 ev)))) 0 1 (e_p ev * over (fun x => 100 / V * (refl x * F2 x / 100) * G (towards (speed (e_v ev)) (P x z1 z2)))))).
Proof.
  intros Mk U RE M D MD NZ NV WV pt V active over. apply (wave_vector_iff ki (e_v ev) NV) in WV. subst ki. set (ki := vscale v2k (e_v ev)) in *. destruct (factory_inv _ _ _ _ _ _ _ _ Mk) as (lat & l' & L & EK & PE & SO & _).
  destruct (lattice_ok a b c lat L) as (VP & VE & RL). fold V in VE. assert (NT : sdot a (vcross b c) <> 0) by (intros Z; rewrite VE in VP; unfold V in VP; rewrite Z, Rabs_R0 in VP; lra).
  destruct (reciprocal_unique _ _ _ _ _ _ _ _ _ NT RL RE) as (Ea & Eb & Ec). assert (PT : forall x, tau_of lat x = pt x) by (intros x; unfold tau_of, pt, node; now rewrite Ea, Eb, Ec).
  assert (IN : forall x, In x l' <-> In x l /\ 0 < F2 x). { intros x. split; [intros I; apply (Permutation_in x PE) in I; apply filter_In in I; rewrite Rltb_t in I; exact I|intros I; apply (Permutation_in x (Permutation_sym PE)), filter_In; now rewrite Rltb_t]. }
  assert (FP : forall x, In x l' -> 0 < F2 x /\ tau_of lat x <> mkV 0 0 0). { intros x I. apply IN in I. split; [apply I|]. rewrite PT. intros Z. apply (NZ x (proj1 I) (proj2 I)). now apply (node_zero a b c a' b' c'). }
  assert (OV : forall g, over_reach mosaic dd ki (tau_of lat) g l' = over g). { intros g. rewrite (over_perm _ _ _ _ _ _ _ PE), over_filter. unfold over. clear - PT. induction l as [|x l IH]; cbn; [reflexivity|]. now rewrite IH, PT. }
  assert (SK : same_kernel k0 k) by (apply used_same; [rewrite EK; reflexivity|exact U]).
  assert (AC : forall x, active x <-> In x l' /\ in_reach mosaic dd ki (tau_of lat x) = true). { intros x. unfold active. rewrite IN, PT. tauto. }
  exists (xrefl lat mosaic dd ev), (xpoint lat mosaic dd ev). rewrite <- VE. subst k0. set (k0 := new_xtal lat l' mosaic dd ab) in *.
  assert (VL : V0 (x_lattice k0) = V0 lat) by reflexivity.
  split; [|split; [|split]].
  - intros x A. apply AC in A. destruct A as [I R]. destruct (one_ok lat l' mosaic dd ev VP M D MD NV FP 0 x I R) as (_ & P & _ & _ & LA & SP). fold ki in LA. rewrite PT in LA. split; [exact LA|]. split; [exact P|]. intros z1 z2. apply SP.
  - rewrite (proj1 (scattering_same k0 k (e_v ev) SK)). pose proof (info lat l' mosaic dd ab ev VP SO M D MD NV FP) as IF. fold k0 ki in IF. rewrite IF. cbn [option_map snd]. rewrite OV, VL. f_equal. unfold over. rewrite over_scale. fold (over (fun x => xrefl lat mosaic dd ev x * F2 x / 100)). field. lra.
  - intros N u z1 z2. rewrite (proj1 (scatter_same k0 k u z1 z2 ev SK)). apply (none_out lat l' mosaic dd ab ev VP SO M D MD NV FP). intros x I. destruct (in_reach _ _ _ _) eqn:R; [|reflexivity]. exfalso. apply N. exists x. now apply AC.
  - intros (x0 & A0). assert (X : exists x, In x l' /\ in_reach mosaic dd ki (tau_of lat x) = true) by (exists x0; now apply AC). split.
    + intros u z1 z2. destruct (some_out lat l' mosaic dd ab ev VP SO M D MD NV FP u z1 z2 X) as (x & I & R & E). exists x. eexists. split; [now apply AC|]. rewrite (proj1 (scatter_same k0 k u z1 z2 ev SK)). split; [exact E|]. split; [repeat split; reflexivity|]. split; [reflexivity|].
      destruct (one_ok lat l' mosaic dd ev VP M D MD NV FP 0 x I R) as (_ & _ & _ & _ & _ & SP). split; [apply towards_speed; [left; now apply speed_pos|apply SP]|]. unfold outcome, with_pv. cbn [k_p]. fold ki. now rewrite OV.
    + intros z1 z2 G. eapply (@is_RInt_ext R_NormedModule); [|]. 2: { pose proof (mean_out lat l' mosaic dd ab ev VP SO M D MD NV FP G z1 z2 X) as H. cbv beta zeta in H. fold k0 ki in H. rewrite OV in H. exact H. }
      intros u _. cbv beta. now rewrite (proj1 (scatter_same k0 k u z1 z2 ev SK)).
Qed.
Lemma memory a b c l mosaic dd ab k0 k : py_singlecrystal a b c l mosaic dd ab = Ok (Some k0) -> used k0 k ->
  (forall u z1 z2 ev, snd (xtal_scatter k u z1 z2 ev) = snd (xtal_scatter k0 u z1 z2 ev)) /\ (forall v, snd (xtal_scattering k v) = snd (xtal_scattering k0 v)) /\ (forall v, xtal_absorption k v = xtal_absorption k0 v).
Proof.
  intros Mk U. destruct (factory_inv _ _ _ _ _ _ _ _ Mk) as (lat & l' & _ & EK & _). assert (N : x_cache k0 = None) by (rewrite EK; reflexivity). pose proof (used_same k0 k N U) as S. pose proof (used_same k0 k0 N (used_new k0)) as S0.
  split; [intros; rewrite (proj1 (scatter_same k0 k u z1 z2 ev S)), (proj1 (scatter_same k0 k0 u z1 z2 ev S0)); reflexivity|]. split; [intros; rewrite (proj1 (scattering_same k0 k v S)), (proj1 (scattering_same k0 k0 v S0)); reflexivity|].
  intros v. unfold xtal_absorption. destruct S as (_ & _ & _ & E & _). now rewrite E.
Qed.
Lemma absorbs a b c l mosaic dd ab k v : py_singlecrystal a b c l mosaic dd ab = Ok (Some k) -> v <> mkV 0 0 0 -> xtal_absorption k v = Some (100 * ab / Rabs (sdot a (vcross b c)) * (2200 / speed v)).
Proof.
  intros Mk N. destruct (factory_inv _ _ _ _ _ _ _ _ Mk) as (lat & l' & L & EK & _). destruct (lattice_ok a b c lat L) as (VP & VE & _). pose proof (speed_pos v N). unfold xtal_absorption. change (vnorm v) with (speed v). rewrite (proj2 (Reqb_f _ _)) by lra. subst k. cbn [new_xtal x_abs_coeff]. rewrite <- VE. f_equal. field. lra.
Qed.
Lemma made_when a b c l mosaic dd ab :
  (sdot a (vcross b c) = 0 -> py_singlecrystal a b c l mosaic dd ab = Ok None) /\
  (sdot a (vcross b c) <> 0 -> (forall x, In x l -> F2 x <= 0) -> py_singlecrystal a b c l mosaic dd ab = Err AssertionError) /\
  (sdot a (vcross b c) <> 0 -> (exists x, In x l /\ 0 < F2 x) -> exists k, py_singlecrystal a b c l mosaic dd ab = Ok (Some k)).
Proof.
  split; [|split].
  - intros Z. unfold py_singlecrystal, new_lattice. rewrite dot_is, Z, (proj2 (Reqb_t 0 0)) by reflexivity. reflexivity.
  - intros Z H. unfold py_singlecrystal, new_lattice. rewrite dot_is, (proj2 (Reqb_f _ 0)) by exact Z. replace (filter (fun x => Rltb 0 (F2 x)) l) with (@nil hkl); [reflexivity|]. symmetry. induction l as [|x l IH]; [reflexivity|]. cbn. rewrite (proj2 (Rltb_f _ _)) by (apply H; now left). apply IH. intros y Y. apply H. now right.
  - intros Z H. destruct (new_lattice a b c) as [lat|] eqn:L; [now apply (factory_made a b c l mosaic dd ab lat)|]. exfalso. unfold new_lattice in L. rewrite dot_is, (proj2 (Reqb_f _ 0)) in L by exact Z. discriminate.
Qed.
(** the reflection (0,0,0) *)
Lemma origin a b c l mosaic dd ab k x v : py_singlecrystal a b c l mosaic dd ab = Ok (Some k) -> dd < 1 / 5 -> In x l -> 0 < F2 x -> hh x = 0 -> hk x = 0 -> hl x = 0 -> snd (xtal_scattering k v) = None.
Proof.
  intros Mk D I P H0 K0 L0. destruct (factory_inv _ _ _ _ _ _ _ _ Mk) as (lat & l' & L & EK & PE & SO & NE). assert (N : x_cache k = None) by (rewrite EK; reflexivity). rewrite (proj1 (scattering_same k k v (used_same k k N (used_new k)))).
  assert (IX : In x l') by (apply (Permutation_in x (Permutation_sym PE)), filter_In; now rewrite Rltb_t).
  assert (Z0 : tau_of lat x = mkV 0 0 0) by (unfold tau_of; rewrite H0, K0, L0; unfold vadd, vscale; cbn; f_equal; ring). assert (S0 : speed (mkV 0 0 0) = 0) by (unfold speed; replace (norm2 (mkV 0 0 0)) with 0 by (unfold norm2, sdot; cbn; ring); apply sqrt_0).
  destruct l' as [|y l']; [now elim NE|]. inversion SO as [|? ? _ F]; subst. assert (TY : speed (tau_of lat y) = 0). { destruct IX as [->|IX]; [now rewrite Z0|]. rewrite Forall_forall in F. specialize (F x IX). unfold by_length in F. rewrite Z0, S0 in F. pose proof (speed_nonneg (tau_of lat y)). lra. }
  assert (ZY : tau_of lat y = mkV 0 0 0) by now apply speed_zero. unfold tau_info. cbn [new_xtal x_hkls x_lattice x_delta_d_d map tau_list]. set (f := _ / _). set (ki := vscale v2k v).
  change (hd_tau_length (new_hkldata lat mosaic dd y)) with (speed (tau_of lat y)). change (hd_tau (new_hkldata lat mosaic dd y)) with (tau_of lat y). rewrite TY, ZY. change (vnorm ki) with (speed ki).
  pose proof (speed_nonneg ki). unfold beyond. rewrite (proj2 (Reqb_f _ _)) by lra. rewrite (proj2 (Rltb_f _ _)) by (apply Rmult_le_pos; [lra|left; apply Rinv_0_lt_compat; lra]).
  replace (vsub ki (mkV 0 0 0)) with ki by (destruct ki; unfold vsub; cbn; f_equal; ring). change (vnorm ki) with (speed ki). rewrite Rminus_eq_0, Rabs_R0.
  assert (CU : hd_cutoff (new_hkldata lat mosaic dd y) = 0). { unfold new_hkldata; cbn [hd_cutoff]. change (vnorm (tau_of lat y)) with (speed (tau_of lat y)). rewrite TY. replace (FWHM2RMS * dd * 0) with 0 by ring. replace (FWHM2RMS * 0 * mosaic) with 0 by ring. rewrite !(Rmax_left 0 0) by lra. ring. }
  rewrite CU, (proj2 (Rltb_f 0 0)) by lra. unfold new_taudata. replace (hd_finite (new_hkldata lat mosaic dd y)) with false; [reflexivity|]. unfold new_hkldata; cbn [hd_finite]. change (vnorm (tau_of lat y)) with (speed (tau_of lat y)). rewrite TY. replace (FWHM2RMS * dd * 0) with 0 by ring. rewrite (proj2 (Reqb_t 0 0)) by reflexivity. reflexivity.
Qed.

(** a cubic cell with reciprocal vectors of length 1 *)
Definition ea : vec3 := mkV (2 * PI) 0 0.
Definition eb : vec3 := mkV 0 (2 * PI) 0.
Definition ec : vec3 := mkV 0 0 (2 * PI).
Lemma cubic_reciprocal : reciprocal ea eb ec (mkV 1 0 0) (mkV 0 1 0) (mkV 0 0 1).
Proof. unfold reciprocal, ea, eb, ec, sdot; cbn. repeat split; ring. Qed.
Lemma cubic_volume : sdot ea (vcross eb ec) = (2 * PI) ^ 3. Proof. unfold ea, eb, ec, sdot, vcross; cbn. ring. Qed.
Lemma cubic_nz : sdot ea (vcross eb ec) <> 0. Proof. rewrite cubic_volume. pose proof PI_RGT_0. apply pow_nonzero. lra. Qed.
Lemma cubic_lattice : exists lat, new_lattice ea eb ec = Some lat /\ ra lat = mkV 1 0 0 /\ rb lat = mkV 0 1 0 /\ rc lat = mkV 0 0 1.
Proof.
  destruct (new_lattice ea eb ec) as [lat|] eqn:L; [|exfalso; unfold new_lattice in L; rewrite dot_is, (proj2 (Reqb_f _ 0) cubic_nz) in L; discriminate].
  destruct (lattice_ok _ _ _ _ L) as (_ & _ & R). destruct (reciprocal_unique _ _ _ _ _ _ _ _ _ cubic_nz R cubic_reciprocal) as (A & B & C). exists lat. auto.
Qed.
Definition some_hkls : list hkl := [mkHKL 5 0 0 7; mkHKL 0 1 0 0; mkHKL 2 0 0 4].
Definition bragg_event (ki : vec3) : event := RotModel.mkE (mkV 1 2 3) (vscale k2v ki) 1 0 0 1.
Lemma k2v_scale ki : vscale v2k (vscale k2v ki) = ki.
Proof. pose proof k2v_v2k. destruct ki; unfold vscale; cbn. f_equal; rewrite <- Rmult_assoc, (Rmult_comm v2k), H; ring. Qed.
Lemma bragg_nz ki : ki <> mkV 0 0 0 -> e_v (bragg_event ki) <> mkV 0 0 0.
Proof. intros N Z. apply N. cbn in Z. rewrite <- (k2v_scale ki), Z. unfold vscale; cbn. f_equal; ring. Qed.
Lemma bragg_wave ki : ki <> mkV 0 0 0 -> wave_vector ki (e_v (bragg_event ki)).
Proof. intros N. apply wave_vector_iff; [now apply bragg_nz|]. symmetry. apply k2v_scale. Qed.
Definition ki101 : vec3 := mkV 1 0 1.
Lemma ki101_nz : ki101 <> mkV 0 0 0. Proof. intros Z. injection Z. lra. Qed.
Lemma active101 mosaic dd : 0 < mosaic -> 0 < dd -> in_reach mosaic dd ki101 (node (mkV 1 0 0) (mkV 0 1 0) (mkV 0 0 1) (mkHKL 2 0 0 4)) = true.
Proof.
  intros M D. unfold in_reach. destruct (Rle_dec _ _) as [|Z]; [reflexivity|]. exfalso. apply Z. set (t := node _ _ _ _). replace (speed (vsub ki101 t)) with (speed ki101) by (unfold speed; f_equal; unfold t, node, ki101, norm2, sdot, vsub, vadd, vscale; cbn; ring).
  rewrite Rminus_eq_0, Rabs_R0. apply Rmult_le_pos; [lra|]. apply Rle_trans with (2 := Rmax_l _ _). unfold sig_along. pose proof (speed_nonneg t). assert (0 < rms) by (unfold rms; lra). apply Rmult_le_pos; [apply Rmult_le_pos; lra|assumption].
Qed.
(** reflections beyond tau_max *)
Lemma beyond_lost a b c l mosaic dd ab k u z1 z2 ev : py_singlecrystal a b c l mosaic dd ab = Ok (Some k) -> (forall lat x, new_lattice a b c = Some lat -> In x l -> 0 < F2 x -> beyond (speed (vscale v2k (e_v ev))) dd (speed (tau_of lat x)) = true) ->
  snd (xtal_scattering k (e_v ev)) = Some 0 /\ snd (xtal_scatter k u z1 z2 ev) = Some (with_pv ev (-1) (Some (e_v ev))).
Proof.
  intros Mk H. destruct (factory_inv _ _ _ _ _ _ _ _ Mk) as (lat & l' & L & EK & PE & SO & NE). assert (N : x_cache k = None) by (rewrite EK; reflexivity). pose proof (used_same k k N (used_new k)) as S. destruct l' as [|y l']; [now elim NE|].
  assert (I : In y l /\ 0 < F2 y). { pose proof (Permutation_in y PE (or_introl eq_refl)) as I. apply filter_In in I. rewrite Rltb_t in I. exact I. }
  assert (T : tau_info k (e_v ev) = Some ([], 0, 0)). { rewrite EK. unfold tau_info. cbn [new_xtal x_hkls x_lattice x_delta_d_d map tau_list]. set (f := _ / _). change (hd_tau_length (new_hkldata lat mosaic dd y)) with (speed (tau_of lat y)). change (vnorm (vscale v2k (e_v ev))) with (speed (vscale v2k (e_v ev))). rewrite (H lat y L (proj1 I) (proj2 I)). reflexivity. }
  rewrite (proj1 (scattering_same k k (e_v ev) S)), (proj1 (scatter_same k k u z1 z2 ev S)), T. cbn [option_map snd from_info]. rewrite (proj2 (Rleb_true 0 0)) by lra. split; [f_equal; unfold Rdiv; ring|reflexivity].
Qed.
