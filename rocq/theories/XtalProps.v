(** C58: the single-crystal diffraction kernel. *)
From Coq Require Import Reals Lra.
From Coquelicot Require Import Coquelicot.
From Verif Require Import Base RotModel RotSpec ChanModel ChanProofs ShapeModel ScatModel UnitModel UnitSpec UnitProofs KinModel KinSpec KinProofs KinProofs3 GridProofs PowdProofs XtalModel XtalSpec XtalProofs XtalProofs4 XtalProofs5.
Open Scope R_scope.

(** The lattice of the kernel is the reciprocal lattice of the cell, and its volume that of the cell. *)
Theorem C58_lattice : forall a b c,
  (sdot a (vcross b c) = 0 -> new_lattice a b c = None) /\
  (sdot a (vcross b c) <> 0 -> exists lat, new_lattice a b c = Some lat /\ reciprocal a b c (ra lat) (rb lat) (rc lat) /\ V0 lat = Rabs (sdot a (vcross b c)) /\ 0 < V0 lat).
Proof.
  intros a b c. split; [intros Z; unfold new_lattice; rewrite dot_is, Z, (proj2 (Reqb_t 0 0)) by reflexivity; reflexivity|]. intros N. destruct (new_lattice a b c) as [lat|] eqn:L; [|exfalso; unfold new_lattice in L; rewrite dot_is, (proj2 (Reqb_f _ 0) N) in L; discriminate].
  destruct (lattice_ok _ _ _ _ L) as (A & B & C). now exists lat.
Qed.
Example C58_lattice_case : sdot ea (vcross eb ec) <> 0 /\ sdot (mkV 1 0 0) (vcross (mkV 0 1 0) (mkV 1 1 0)) = 0.
Proof. split; [exact cubic_nz|unfold sdot, vcross; cbn; ring]. Qed.
(** The vector that is completed to a frame is perpendicular to the given one and has length 1. *)
Theorem C58_perpendicular : forall v, v <> mkV 0 0 0 -> norm2 (normal_vec v) = 1 /\ sdot v (normal_vec v) = 0.
Proof. exact normal_ok. Qed.
Example C58_perpendicular_case : mkV 3 (-4) 1 <> mkV 0 0 0. Proof. intros Z; injection Z; lra. Qed.

(** The factory makes a kernel from every cell with a volume and every list that has a reflection with F^2 > 0. *)
Theorem C58_made : forall a b c l mosaic dd abs_xs,
  (sdot a (vcross b c) = 0 -> py_singlecrystal a b c l mosaic dd abs_xs = Ok None) /\
  (sdot a (vcross b c) <> 0 -> (forall x, In x l -> F2 x <= 0) -> py_singlecrystal a b c l mosaic dd abs_xs = Err AssertionError) /\
  (sdot a (vcross b c) <> 0 -> (exists x, In x l /\ 0 < F2 x) -> exists k, py_singlecrystal a b c l mosaic dd abs_xs = Ok (Some k)).
Proof. exact made_when. Qed.
Example C58_made_case : exists k, py_singlecrystal ea eb ec some_hkls (1 / 100) (1 / 100) 3 = Ok (Some k).
Proof. apply (proj2 (proj2 (C58_made ea eb ec some_hkls (1 / 100) (1 / 100) 3)) cubic_nz). exists (mkHKL 5 0 0 7). cbn. split; [now left|lra]. Qed.

(** Whatever the order of the list and whatever neutrons came before: for each reflection whose point is within five standard deviations of the Ewald
    sphere there are a reflectivity and a map of the plane onto the plane tangent to the sphere, such that normal deviates sent through the map have the
    density of the reflection.  The scattering coefficient is the sum of reflectivity times F^2.  Without such a reflection the neutron gets weight -1.
    With one, it keeps its place, time, spin and speed and goes towards a point of such a map; and on average over the choice of the reflection a detector
    sees the sum over the reflections of their part of the coefficient. *)
Theorem C58_scatters : forall a b c a' b' c' l mosaic dd abs_xs k0 k ev ki,
  py_singlecrystal a b c l mosaic dd abs_xs = Ok (Some k0) -> used k0 k -> reciprocal a b c a' b' c' -> 0 < mosaic -> 0 < dd < 1 / 5 -> rms * mosaic <= dd ->
  (forall x, In x l -> 0 < F2 x -> ~ (hh x = 0 /\ hk x = 0 /\ hl x = 0)) -> e_v ev <> mkV 0 0 0 -> wave_vector ki (e_v ev) ->
  let pt := node a' b' c' in let V := Rabs (sdot a (vcross b c)) in
  let active x := In x l /\ 0 < F2 x /\ in_reach mosaic dd ki (pt x) = true in
  let over g := over_reach mosaic dd ki pt g l in
  exists refl P,
    (forall x, active x -> lands V mosaic dd ki (pt x) (refl x) (P x) /\ 0 < refl x /\ forall z1 z2, 0 < speed (P x z1 z2)) /\
    snd (xtal_scattering k (e_v ev)) = Some (over (fun x => 100 / V * (refl x * F2 x / 100))) /\
    (~ (exists x, active x) -> forall u z1 z2, snd (xtal_scatter k u z1 z2 ev) = Some (with_pv ev (-1) (Some (e_v ev)))) /\
    ((exists x, active x) ->
      (forall u z1 z2, exists x o, active x /\ snd (xtal_scatter k u z1 z2 ev) = Some o /\ in_place ev o /\ k_v o = Some (towards (speed (e_v ev)) (P x z1 z2)) /\ speed (towards (speed (e_v ev)) (P x z1 z2)) = speed (e_v ev) /\
         k_p o = e_p ev * (100 / V * (F2 x / 100) * over refl)) /\
      (forall z1 z2 G, is_RInt (fun u => carried G (comes_out (snd (xtal_scatter k u z1 z2 ev)))) 0 1 (e_p ev * over (fun x => 100 / V * (refl x * F2 x / 100) * G (towards (speed (e_v ev)) (P x z1 z2)))))).
Proof. exact main. Qed.
(** In total, on average, the weight is multiplied by the scattering coefficient. *)
Theorem C58_total : forall a b c l mosaic dd abs_xs k0 k ev,
  py_singlecrystal a b c l mosaic dd abs_xs = Ok (Some k0) -> used k0 k -> 0 < mosaic -> 0 < dd < 1 / 5 -> rms * mosaic <= dd ->
  (forall x, In x l -> 0 < F2 x -> ~ (hh x = 0 /\ hk x = 0 /\ hl x = 0)) -> e_v ev <> mkV 0 0 0 ->
  exists s, snd (xtal_scattering k (e_v ev)) = Some s /\ 0 <= s /\
    (s = 0 -> forall u z1 z2, snd (xtal_scatter k u z1 z2 ev) = Some (with_pv ev (-1) (Some (e_v ev)))) /\
    (0 < s -> forall z1 z2, is_RInt (fun u => carried (fun _ => 1) (comes_out (snd (xtal_scatter k u z1 z2 ev)))) 0 1 (e_p ev * s)).
Proof.
  intros a b c l mosaic dd ab k0 k ev Mk U M D MD NZ NV. destruct (factory_inv _ _ _ _ _ _ _ _ Mk) as (lat & l' & L & _). destruct (lattice_ok _ _ _ _ L) as (VP & VE & RL). rewrite VE in VP.
  destruct (main a b c _ _ _ l mosaic dd ab k0 k ev (vscale v2k (e_v ev)) Mk U RL M D MD NZ NV) as (refl & P & A & B & C & E); [now apply wave_vector_iff|].
  eexists. split; [exact B|]. match goal with |- 0 <= over_reach ?m ?d ?q ?pt ?g ?li /\ _ => destruct (over_pos m d q pt g li) as [P1 P2] end.
  { intros x I F R. destruct (A x) as (_ & Q & _); [auto|]. apply Rmult_lt_0_compat; [apply Rdiv_lt_0_compat; [lra|exact VP]|]. apply Rdiv_lt_0_compat; [apply Rmult_lt_0_compat; assumption|lra]. }
  split; [exact P1|]. split.
  - intros Z. apply C. intros X. apply P2 in X. cbv beta in *. lra.
  - intros Z z1 z2. destruct E as [_ E].
    + apply Classical_Prop.NNPP. intros N. cbv zeta in Z. rewrite over_zero in Z; [lra|]. intros x I F. destruct (in_reach _ _ _ _) eqn:R; [|reflexivity]. elim N. now exists x.
    + specialize (E z1 z2 (fun _ => 1)). cbv zeta beta in E |- *. eapply eq_ind; [exact E|]. f_equal. apply over_ext. intros. ring.
Qed.
Lemma hyp_case : (forall x, In x some_hkls -> 0 < F2 x -> ~ (hh x = 0 /\ hk x = 0 /\ hl x = 0)).
Proof. intros x X _ (A & B & C). cbn in X. destruct X as [<-|[<-|[<-|[]]]]; cbn in *; lra. Qed.
Example C58_scatters_case : exists k o x v', py_singlecrystal ea eb ec some_hkls (1 / 100) (1 / 100) 3 = Ok (Some k) /\ In x some_hkls /\ 0 < F2 x /\
  snd (xtal_scatter k (1 / 2) 1 (-1) (bragg_event ki101)) = Some o /\ k_v o = Some v' /\ speed v' = speed (e_v (bragg_event ki101)).
Proof.
  destruct C58_made_case as [k Mk]. exists k. assert (0 < rms <= 1) by (unfold rms; lra).
  destruct (C58_scatters ea eb ec _ _ _ some_hkls (1 / 100) (1 / 100) 3 k k (bragg_event ki101) ki101 Mk (used_new k) cubic_reciprocal) as (refl & P & _ & _ & _ & E); [lra|lra|lra|exact hyp_case|exact (bragg_nz _ ki101_nz)|exact (bragg_wave _ ki101_nz)|].
  destruct E as [E _]; [exists (mkHKL 2 0 0 4); split; [cbn; tauto|]; split; [cbn; lra|apply active101; lra]|]. destruct (E (1 / 2) 1 (-1)) as (x & o & (I & F & _) & S & _ & V & SP & _). exists o, x. eexists. repeat (split; [eassumption|]). exact SP.
Qed.
Example C58_total_case : exists k s, py_singlecrystal ea eb ec some_hkls (1 / 100) (1 / 100) 3 = Ok (Some k) /\ snd (xtal_scattering k (e_v (bragg_event ki101))) = Some s /\ 0 < s.
Proof.
  destruct C58_made_case as [k Mk]. exists k. assert (0 < rms <= 1) by (unfold rms; lra). destruct C58_scatters_case as (k' & o & x & v' & Mk' & _ & _ & O & VO & _). assert (k' = k) by congruence. subst k'.
  destruct (C58_total ea eb ec some_hkls (1 / 100) (1 / 100) 3 k k (bragg_event ki101) Mk (used_new k)) as (s & A & B & C & _); [lra|lra|lra|exact hyp_case|exact (bragg_nz _ ki101_nz)|].
  exists s. split; [exact Mk|]. split; [exact A|]. destruct (Rtotal_order s 0) as [|[Z|]]; [lra| |assumption]. exfalso.
  destruct (C58_scatters ea eb ec _ _ _ some_hkls (1 / 100) (1 / 100) 3 k k (bragg_event ki101) ki101 Mk (used_new k) cubic_reciprocal) as (refl & P & W & S & _ & _); [lra|lra|lra|exact hyp_case|exact (bragg_nz _ ki101_nz)|exact (bragg_wave _ ki101_nz)|].
  rewrite A in S. rewrite Z in S. assert (S' := f_equal (fun o => match o with Some r => r | None => 0 end) S). clear S. rename S' into S. cbv zeta beta in S, W. cbv zeta beta iota in S. assert (Q : 0 < over_reach (1 / 100) (1 / 100) ki101 (node (mkV 1 0 0) (mkV 0 1 0) (mkV 0 0 1)) (fun x => 100 / Rabs (sdot ea (vcross eb ec)) * (refl x * F2 x / 100)) some_hkls).
  { apply (proj2 (over_pos _ _ _ _ _ _ (fun y I F R => Rmult_lt_0_compat _ _ (Rdiv_lt_0_compat 100 _ ltac:(lra) (Rabs_pos_lt _ cubic_nz)) (Rdiv_lt_0_compat _ 100 (Rmult_lt_0_compat _ _ (proj1 (proj2 (W y (conj I (conj F R))))) F) ltac:(lra))))).
    exists (mkHKL 2 0 0 4). split; [cbn; tauto|]. split; [cbn; lra|apply active101; lra]. }
  apply (Rlt_irrefl 0). rewrite S at 2. exact Q.
Qed.

(** What is kept of the last neutron never changes a result. *)
Theorem C58_memory : forall a b c l mosaic dd abs_xs k0 k, py_singlecrystal a b c l mosaic dd abs_xs = Ok (Some k0) -> used k0 k ->
  (forall u z1 z2 ev, snd (xtal_scatter k u z1 z2 ev) = snd (xtal_scatter k0 u z1 z2 ev)) /\ (forall v, snd (xtal_scattering k v) = snd (xtal_scattering k0 v)) /\ (forall v, xtal_absorption k v = xtal_absorption k0 v).
Proof. exact memory. Qed.
Example C58_memory_case : exists k0 k, py_singlecrystal ea eb ec some_hkls (1 / 100) (1 / 100) 3 = Ok (Some k0) /\ used k0 k /\ x_cache k <> x_cache k0.
Proof.
  destruct C58_made_case as [k Mk]. exists k, (fst (xtal_scattering k (mkV 1 0 0))). split; [exact Mk|]. split; [apply used_coefficient, used_new|]. destruct (factory_inv _ _ _ _ _ _ _ _ Mk) as (lat & l' & _ & EK & _). rewrite EK. cbn. discriminate.
Qed.
(** The absorption coefficient goes with 1/v from 2200 m/s. *)
Theorem C58_absorption : forall a b c l mosaic dd abs_xs k v, py_singlecrystal a b c l mosaic dd abs_xs = Ok (Some k) -> v <> mkV 0 0 0 ->
  xtal_absorption k v = Some (100 * abs_xs / Rabs (sdot a (vcross b c)) * (2200 / speed v)).
Proof. exact absorbs. Qed.
Example C58_absorption_case : exists k, py_singlecrystal ea eb ec some_hkls (1 / 100) (1 / 100) 3 = Ok (Some k) /\ mkV 0 0 2200 <> mkV 0 0 0.
Proof. destruct C58_made_case as [k Mk]. exists k. split; [exact Mk|intros Z; injection Z; lra]. Qed.

(** With the reflection (0,0,0) in the list every neutron gets numbers that are nan. *)
Theorem C58_origin : forall a b c l mosaic dd abs_xs k x v, py_singlecrystal a b c l mosaic dd abs_xs = Ok (Some k) -> dd < 1 / 5 -> In x l -> 0 < F2 x -> hh x = 0 -> hk x = 0 -> hl x = 0 -> snd (xtal_scattering k v) = None.
Proof. exact origin. Qed.
Theorem C58_origin_refuted : exists a b c l mosaic dd abs_xs k, py_singlecrystal a b c l mosaic dd abs_xs = Ok (Some k) /\ 0 < mosaic /\ 0 < dd < 1 / 5 /\ forall v, snd (xtal_scattering k v) = None.
Proof.
  destruct (proj2 (proj2 (C58_made ea eb ec (mkHKL 0 0 0 9 :: some_hkls) (1 / 100) (1 / 100) 3)) cubic_nz) as [k Mk]; [exists (mkHKL 0 0 0 9); cbn; split; [now left|lra]|].
  exists ea, eb, ec, (mkHKL 0 0 0 9 :: some_hkls), (1 / 100), (1 / 100), 3, k. split; [exact Mk|]. split; [lra|]. split; [lra|]. intros v. apply (C58_origin _ _ _ _ _ _ _ _ (mkHKL 0 0 0 9) v Mk); cbn; try lra. now left.
Qed.
(** A mosaic that is large against the spread of spacings loses reflections that are in reach. *)
Theorem C58_lost_refuted : exists l mosaic dd k ki x, py_singlecrystal ea eb ec l mosaic dd 0 = Ok (Some k) /\ 0 < mosaic /\ 0 < dd < 1 / 5 /\ In x l /\ 0 < F2 x /\ wave_vector ki (e_v (bragg_event ki)) /\
  in_reach mosaic dd ki (node (mkV 1 0 0) (mkV 0 1 0) (mkV 0 0 1) x) = true /\
  snd (xtal_scattering k (e_v (bragg_event ki))) = Some 0 /\ forall u z1 z2, snd (xtal_scatter k u z1 z2 (bragg_event ki)) = Some (with_pv (bragg_event ki) (-1) (Some (e_v (bragg_event ki)))).
Proof.
  set (l := [mkHKL 3 0 0 4]). destruct (proj2 (proj2 (C58_made ea eb ec l (1 / 5) (1 / 100) 0)) cubic_nz) as [k Mk]; [exists (mkHKL 3 0 0 4); cbn; split; [now left|lra]|].
  assert (S1 : forall r, 0 <= r -> speed (mkV r 0 0) = r) by (intros r R; apply speed_eq; [exact R|unfold norm2, sdot; cbn; ring]). assert (NZ : mkV 1 0 0 <> mkV 0 0 0) by (intros Z; injection Z; lra).
  exists l, (1 / 5), (1 / 100), k, (mkV 1 0 0), (mkHKL 3 0 0 4). split; [exact Mk|]. split; [lra|]. split; [lra|]. split; [now left|]. split; [cbn; lra|]. split; [exact (bragg_wave _ NZ)|].
  assert (T : node (mkV 1 0 0) (mkV 0 1 0) (mkV 0 0 1) (mkHKL 3 0 0 4) = mkV 3 0 0) by (unfold node, vadd, vscale; cbn; f_equal; ring). split.
  - rewrite T. unfold in_reach. destruct (Rle_dec _ _) as [|Z]; [reflexivity|]. exfalso. apply Z. replace (speed (vsub (mkV 1 0 0) (mkV 3 0 0))) with 2 by (symmetry; apply speed_eq; [lra|unfold norm2, sdot, vsub; cbn; ring]). rewrite S1 by lra. replace (Rabs (2 - 1)) with 1 by (rewrite Rabs_pos_eq; lra).
    apply Rle_trans with (5 * sig_across (1 / 5) (mkV 3 0 0)); [unfold sig_across, rms; rewrite S1 by lra; lra|]. apply Rmult_le_compat_l; [lra|apply Rmax_r].
  - assert (B : forall lat x, new_lattice ea eb ec = Some lat -> In x l -> 0 < F2 x -> beyond (speed (vscale v2k (e_v (bragg_event (mkV 1 0 0))))) (1 / 100) (speed (tau_of lat x)) = true).
    { intros lat x L [<-|[]] _. destruct cubic_lattice as (lat' & L' & Ra & Rb & Rc). assert (lat' = lat) by congruence. subst lat'. replace (tau_of lat (mkHKL 3 0 0 4)) with (mkV 3 0 0) by (rewrite <- T; unfold tau_of, node; now rewrite Ra, Rb, Rc). cbn [bragg_event e_v]. rewrite k2v_scale, !S1 by lra.
      unfold beyond. rewrite (proj2 (Reqb_f _ _)) by lra. apply Rltb_t. lra. }
    split; [apply (beyond_lost _ _ _ _ _ _ _ _ 0 0 0 _ Mk B)|intros u z1 z2; apply (beyond_lost _ _ _ _ _ _ _ _ u z1 z2 _ Mk B)].
Qed.
(** With a relative spread of spacings above 1/5 nothing is scattered, even where the Bragg condition holds exactly. *)
Theorem C58_wide_refuted : exists l mosaic dd k ki x, py_singlecrystal ea eb ec l mosaic dd 0 = Ok (Some k) /\ 0 < mosaic /\ 0 < dd < 1 / 3 /\ In x l /\ 0 < F2 x /\
  let pt := node (mkV 1 0 0) (mkV 0 1 0) (mkV 0 0 1) x in pt <> mkV 0 0 0 /\ speed (vsub ki pt) = speed ki /\
  snd (xtal_scattering k (e_v (bragg_event ki))) = Some 0 /\ forall u z1 z2, snd (xtal_scatter k u z1 z2 (bragg_event ki)) = Some (with_pv (bragg_event ki) (-1) (Some (e_v (bragg_event ki)))).
Proof.
  set (l := [mkHKL 2 0 0 4]). destruct (proj2 (proj2 (C58_made ea eb ec l (1 / 100) (1 / 4) 0)) cubic_nz) as [k Mk]; [exists (mkHKL 2 0 0 4); cbn; split; [now left|lra]|].
  exists l, (1 / 100), (1 / 4), k, ki101, (mkHKL 2 0 0 4). split; [exact Mk|]. split; [lra|]. split; [lra|]. split; [now left|]. split; [cbn; lra|]. cbv zeta.
  assert (T : node (mkV 1 0 0) (mkV 0 1 0) (mkV 0 0 1) (mkHKL 2 0 0 4) = mkV 2 0 0) by (unfold node, vadd, vscale; cbn; f_equal; ring). rewrite T. split; [intros Z; injection Z; lra|]. split; [unfold speed; f_equal; unfold ki101, norm2, sdot, vsub; cbn; ring|].
  assert (B : forall lat x, new_lattice ea eb ec = Some lat -> In x l -> 0 < F2 x -> beyond (speed (vscale v2k (e_v (bragg_event ki101)))) (1 / 4) (speed (tau_of lat x)) = true).
  { intros lat x L [<-|[]] _. cbn [bragg_event e_v]. rewrite k2v_scale. pose proof (speed_pos _ ki101_nz). pose proof (speed_nonneg (tau_of lat (mkHKL 2 0 0 4))).
    unfold beyond. rewrite (proj2 (Reqb_f _ _)) by lra. apply Rltb_t. replace (2 * speed ki101 / (1 - 5 * (1 / 4))) with (- 8 * speed ki101) by field. lra. }
  split; [apply (beyond_lost _ _ _ _ _ _ _ _ 0 0 0 _ Mk B)|intros u z1 z2; apply (beyond_lost _ _ _ _ _ _ _ _ u z1 z2 _ Mk B)].
Qed.

Print Assumptions C58_lattice.
Print Assumptions C58_perpendicular.
Print Assumptions C58_made.
Print Assumptions C58_scatters.
Print Assumptions C58_total.
Print Assumptions C58_memory.
Print Assumptions C58_absorption.
Print Assumptions C58_origin.
Print Assumptions C58_origin_refuted.
Print Assumptions C58_lost_refuted.
Print Assumptions C58_wide_refuted.
