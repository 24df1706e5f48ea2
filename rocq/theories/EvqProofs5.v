(** Proofs for C73: witnesses. *)
From Coq Require Import Reals Lra Lia.
From Coquelicot Require Import Coquelicot.
From Verif Require Import Base RotModel RotSpec ChanModel ChanProofs ShapeModel ShapeSpec ShapeProofs ScatModel ScatSpec UnitModel UnitSpec UnitProofs KinModel KinSpec KinProofs KinProofs2 GridModel GridProofs PowdModel PowdSpec PowdProofs PowdProofs3 PhonModel PhonSpec PhonProofs3 RootModel RootSpec RootProofs RootProofs2 ConeModel ConeSpec ConeProofs CohModel CohSpec CohProofs CohProofs2 CohProofs3 CohProofs4 EvqModel EvqSpec EvqProofs EvqProofs2 EvqProofs3 EvqProofs4.
Open Scope R_scope.

(** a root at an inner point of the grid is found twice *)
Lemma twice_found f a b n m xacc : a < b -> decreasing f a b -> (0 < m < n)%nat -> f (grid a b n m) = 0 -> find_roots_evenly (ZRidd_solve xacc) n a b f = [grid a b n m; grid a b n m].
Proof.
  intros L D M Z. unfold find_roots_evenly. assert (NP : (0 < n)%nat) by lia.
  assert (NO : forall l, (forall i, In i l -> (i < n)%nat /\ i <> m /\ (i + 1)%nat <> m) -> flat_map (root_of_step (ZRidd_solve xacc) f a ((b - a) / INR n)) l = []).
  { induction l as [|i l IH]; intros A; [reflexivity|]. cbn [flat_map]. rewrite IH by (intros j J; apply A; now right). rewrite app_nil_r. destruct (A i (or_introl eq_refl)) as (I1 & I2 & I3). unfold root_of_step. rewrite !grid_eq by exact NP. unfold ZRidd_solve. rewrite zridd_failed; [reflexivity|].
    assert (C : forall j, (j <= n)%nat -> (j < m)%nat -> 0 < f (grid a b n j)) by (intros j J1 J2; rewrite <- Z; apply D; [apply grid_between; [lra|lia|lia]|apply grid_lt; [exact L|lia|lia]|apply grid_between; [lra|lia|lia]]).
    assert (C' : forall j, (j <= n)%nat -> (m < j)%nat -> f (grid a b n j) < 0) by (intros j J1 J2; rewrite <- Z; apply D; [apply grid_between; [lra|lia|lia]|apply grid_lt; [exact L|lia|lia]|apply grid_between; [lra|lia|lia]]).
    destruct (Nat.lt_ge_cases i m) as [LT|GE]; [pose proof (C i ltac:(lia) ltac:(lia)); pose proof (C (i + 1)%nat ltac:(lia) ltac:(lia)); nra|pose proof (C' i ltac:(lia) ltac:(lia)); pose proof (C' (i + 1)%nat ltac:(lia) ltac:(lia)); nra]. }
  replace (seq 0 n) with (seq 0 (m - 1) ++ [(m - 1)%nat; m] ++ seq (m + 1) (n - m - 1)).
  2:{ replace n with ((m - 1) + (2 + (n - m - 1)))%nat at 2 by lia. rewrite seq_app. cbn [seq Nat.add app]. do 3 f_equal; try lia. f_equal; lia. }
  rewrite !flat_map_app, (NO (seq 0 (m - 1))), (NO (seq (m + 1) (n - m - 1))); [|intros i I; apply in_seq in I; lia|intros i I; apply in_seq in I; lia]. cbn [flat_map app]. rewrite !app_nil_r. unfold root_of_step. rewrite !grid_eq by exact NP. unfold ZRidd_solve, zridd. replace (m - 1 + 1)%nat with m by lia. rewrite Z.
  rewrite Rmult_0_r, Rmult_0_l, (proj2 (Rleb_true 0 0)) by lra. replace (Reqb 0 0) with true by (symmetry; apply Reqb_iff; reflexivity). rewrite (proj2 (Reqb_f _ 0)); [reflexivity|]. assert (0 < f (grid a b n (m - 1))); [|lra]. rewrite <- Z. apply D; [apply grid_between; [lra|lia|lia]|apply grid_lt; [exact L|lia|lia]|apply grid_between; [lra|lia|lia]].
Qed.
Definition flat_kernel : evq := mkEvq (fun _ => 3 / 4 * v2E 1000) (fun _ => 1) (v2E 1000) 0 0.
Lemma grid_half b : grid 0 b 1000 500 = b / 2.
Proof. unfold grid. rewrite !INR_IZR_INZ. change (Z.of_nat 500) with 500%Z. change (Z.of_nat 1000) with 1000%Z. field. Qed.
Lemma inner_500 : (0 < 500 < 1000)%nat. Proof. split; apply Nat.ltb_lt; reflexivity. Qed.
Lemma ki1 : v2k * speed (e_v neutron1) = v2k * 1000. Proof. cbn [neutron1 e_v]. now rewrite speed1. Qed.
Lemma from_zero Emax f : v2E 1000 <= Emax -> kf_list f (v2E (vnorm (e_v neutron1))) Emax = find_roots_evenly (ZRidd_solve (1 / 1000)) 1000 0 (v2k * 1000) f.
Proof.
  intros L. unfold kf_list. change (vnorm (e_v neutron1)) with (speed (mkV 0 0 1000)). rewrite speed1, E2k_v2E by lra. replace (Rmax 0 (v2E 1000 - Emax)) with (v2E 0) by (unfold Rmax; destruct (Rle_dec _ _); unfold v2E at 1; [|ring]; lra). rewrite E2k_v2E by lra. now rewrite Rmult_0_r.
Qed.
Lemma v2E_ksq : v2E 1000 = ksq2e * (v2k * 1000 * (v2k * 1000)).
Proof. unfold v2E, ksq2e. pose proof k2v_v2k as K. transitivity (k2v * v2k * (k2v * v2k) * (1000 * 1000 * vsq2e)); [rewrite K; ring|ring]. Qed.
Lemma nz1 : e_v neutron1 <> mkV 0 0 0. Proof. cbn. intros E. injection E as E. lra. Qed.
Lemma flat_twice u3 : evq_scatter flat_kernel 1 0 u3 neutron1 = Ok (with_pv neutron1 1 (Some (mkV 0 0 500))).
Proof.
  rewrite scatter_after by exact nz1. cbv zeta. rewrite up. rewrite from_zero by (cbn; lra). rewrite ki1. set (f := E_vq_minus_deltaE _ _ _ _).
  assert (FF : forall x, f x = flat_f (v2E 1000) (3 / 4 * v2E 1000) x). { intros x. unfold f, E_vq_minus_deltaE, flat_f. cbv zeta. rewrite k2E_ksq2e. change (vnorm (e_v neutron1)) with (speed (mkV 0 0 1000)). rewrite speed1. cbn [flat_kernel q_E]. ring. }
  pose proof v2k_pos as VP. pose proof ksq2e_pos as KQ. rewrite (twice_found f 0 (v2k * 1000) 1000 500 (1 / 1000)).
  - rewrite grid_half. set (ki := v2k * 1000). assert (KP : 0 < ki) by (unfold ki; lra). change (List.length [ki / 2; ki / 2]) with 2%nat. replace (Nat.ltb 2 1) with false by reflexivity. assert (NE : nth (choose u3 2) [ki / 2; ki / 2] 0 = ki / 2). { pose proof (choose_below u3 2 ltac:(lia)). destruct (choose u3 2) as [|[|c]]; [reflexivity|reflexivity|lia]. } rewrite NE. unfold after. cbv zeta.
    assert (D : Rabs (four_point f (ki / 2) (ki / 200)) = ksq2e * ki). { rewrite (four_point_ext f _ _ _ FF), flat_slope4 by (intros E; lra). rewrite Rabs_Ropp. replace (2 * ksq2e * (ki / 2)) with (ksq2e * ki) by field. apply Rabs_right. apply Rle_ge, Rmult_le_pos; lra. } rewrite D. rewrite (proj2 (Reqb_f _ 0)) by (assert (0 < ksq2e * ki) by (now apply Rmult_lt_0_compat); lra).
    rewrite FF. replace (flat_f (v2E 1000) (3 / 4 * v2E 1000) (ki / 2)) with 0 by (unfold flat_f; rewrite v2E_ksq; fold ki; field). rewrite Rabs_R0. pose proof (v2E_pos 1000 ltac:(lra)). rewrite (proj2 (Rltb_f _ _)) by (cbn; lra). f_equal. f_equal.
    + cbn [flat_kernel q_S neutron1 e_p INR]. field. lra.
    + f_equal. unfold ki, vscale. cbn [vx vy vz]. f_equal; try ring. replace (k2v * (v2k * 1000 / 2 * 1)) with (k2v * v2k * 500) by field. rewrite k2v_v2k. ring.
  - lra.
  - intros x y A B C. rewrite !FF. exact (flat_decreasing _ _ 0 (v2k * 1000) (Rle_refl 0) x y A B C).
  - exact inner_500.
  - rewrite FF, grid_half. unfold flat_f. rewrite v2E_ksq. field.
Qed.

(** a jump of the excitation *)
Definition jump (c y : R) : R := if Rle_dec y (c * c) then -1 else 1.
Definition gap_kernel : evq := let c := v2k * 1000 * (4995 / 10000) in
  mkEvq (fun q => let p := vsub (vscale v2k (mkV 0 0 1000)) q in v2E 1000 - ksq2e * norm2 p - jump c (norm2 p)) (fun _ => 1) (v2E 1000) 0 0.
Lemma norm2_scale s d : norm2 d = 1 -> norm2 (vscale s d) = s * s.
Proof. intros N. replace (norm2 (vscale s d)) with (s * s * norm2 d) by (unfold norm2, sdot, vscale; cbn; ring). rewrite N. ring. Qed.
Lemma vsub_vsub a b : vsub a (vsub a b) = b. Proof. destruct a, b. unfold vsub. cbn. f_equal; ring. Qed.
Lemma jump_low c x : 0 <= x -> x <= c -> jump c (x * x) = -1. Proof. intros X L. unfold jump. destruct (Rle_dec _ _) as [|H]; [reflexivity|]. exfalso. apply H. nra. Qed.
Lemma jump_high c x : 0 <= c -> c < x -> jump c (x * x) = 1. Proof. intros X L. unfold jump. destruct (Rle_dec _ _) as [H|]; [|reflexivity]. exfalso. nra. Qed.
Lemma one_chosen c j : forall n, (forall i, (i < n)%nat -> c i = true <-> i = j) -> chosen c n = if Nat.ltb j n then 1%nat else 0%nat.
Proof.
  induction n as [|n IH]; intros H; [reflexivity|]. cbn [chosen]. rewrite IH by (intros i I; apply H; lia). destruct (c n) eqn:C.
  - apply H in C; [|lia]. subst j. rewrite Nat.ltb_irrefl. now rewrite (proj2 (Nat.ltb_lt n (S n))) by lia.
  - assert (n <> j) by (intros E; apply (proj2 (H n ltac:(lia))) in E; congruence). rewrite Nat.add_0_r. destruct (Nat.ltb_spec j n), (Nat.ltb_spec j (S n)); try reflexivity; lia.
Qed.
Lemma INR_part i : (i <= 1000)%nat -> forall b, grid 0 b 1000 i = b * (INR i / 1000).
Proof. intros _ b. unfold grid. replace (INR 1000) with 1000 by (rewrite INR_IZR_INZ; reflexivity). field. Qed.
Lemma single_root f a b n m xacc : 0 < xacc < 10 ^ 30 -> 0 <= a -> 0 <= b -> Rabs (b - a) <= INR n * (2 ^ 59 * xacc) -> (m < n)%nat -> (forall i, (i < n)%nat -> changes_sign f (grid a b n i) (grid a b n (i + 1)) <-> i = m) ->
  exists kf, find_roots_evenly (ZRidd_solve xacc) n a b f = [kf] /\ within (grid a b n m) (grid a b n (m + 1)) kf.
Proof.
  intros X A B W M H. destruct (roots_map f xacc n a b X ltac:(lia) A B W) as (R1 & R2 & R3). cbv zeta in R1, R2, R3. set (ch := fun i => is_found _) in *. set (r := fun i => value _) in *. rewrite R3. clear R3.
  assert (CH : forall i, (i < n)%nat -> ch i = true <-> i = m) by (intros i I; rewrite <- (H i I); exact (R1 i I)). assert (LL : List.length (map r (filter ch (seq 0 n))) = 1%nat) by (rewrite map_length, <- chosen_filter, (one_chosen ch m n CH), (proj2 (Nat.ltb_lt _ _) M); reflexivity).
  exists (r m). split; [|exact (R2 m M (proj2 (CH m M) eq_refl))]. assert (ALL : forall x, In x (map r (filter ch (seq 0 n))) -> x = r m). { intros x IN. apply in_map_iff in IN. destruct IN as (i & <- & IN). apply filter_In in IN. destruct IN as [I1 I2]. apply in_seq in I1. f_equal. apply CH; [lia|exact I2]. }
  destruct (map r (filter ch (seq 0 n))) as [|x [|y l]]; try discriminate. f_equal. apply ALL. now left.
Qed.
Lemma jump_steps f ki c : 0 < ki -> c = ki * (4995 / 10000) -> (forall x, 0 <= x <= c -> f x = -1) -> (forall x, c < x -> f x = 1) -> forall i, (i < 1000)%nat -> changes_sign f (grid 0 ki 1000 i) (grid 0 ki 1000 (i + 1)) <-> i = 499%nat.
Proof.
  intros KP CE LO HI i I. assert (I' : (i + 1 <= 1000)%nat) by (rewrite Nat.add_1_r; exact I). unfold changes_sign. rewrite (INR_part i (Nat.lt_le_incl _ _ I)), (INR_part (i + 1) I'). rewrite plus_INR. cbn [INR]. assert (N4 : INR 499 = 499) by (rewrite INR_IZR_INZ; reflexivity). destruct (Nat.lt_trichotomy i 499) as [LT|[EQ|GT]].
    - split; [|intros ->; exfalso; apply (Nat.lt_irrefl _ LT)]. apply le_INR in LT. rewrite S_INR, N4 in LT. pose proof (pos_INR i). rewrite (LO (ki * (INR i / 1000))), (LO (ki * ((INR i + 1) / 1000))) by (subst c; nra). lra.
    - subst i. split; [reflexivity|intros _]. rewrite N4. rewrite (LO (ki * (499 / 1000))), (HI (ki * ((499 + 1) / 1000))) by (subst c; lra). lra.
    - split; [|intros ->; exfalso; apply (Nat.lt_irrefl _ GT)]. apply le_INR in GT. rewrite S_INR, N4 in GT. rewrite (HI (ki * (INR i / 1000))), (HI (ki * ((INR i + 1) / 1000))) by (subst c; nra). lra.
Qed.
Lemma jump_root f ki c : 0 < ki <= 10 -> c = ki * (4995 / 10000) -> (forall x, 0 <= x <= c -> f x = -1) -> (forall x, c < x -> f x = 1) -> exists kf, find_roots_evenly (ZRidd_solve (1 / 1000)) 1000 0 ki f = [kf] /\ ki * (499 / 1000) <= kf <= ki / 2.
Proof.
  intros KP CE LO HI. assert (I499 : (499 < 1000)%nat) by (apply Nat.ltb_lt; reflexivity). destruct (single_root f 0 ki 1000 499 (1 / 1000)) as (kf & E & W); try lra.
  - rewrite Rminus_0_r, Rabs_right by lra. rewrite INR_IZR_INZ. change (Z.of_nat 1000) with 1000%Z. lra.
  - exact I499.
  - apply (jump_steps f ki c); [lra|assumption..].
  - exists kf. split; [exact E|]. clear E. replace (499 + 1)%nat with 500%nat in W by reflexivity. rewrite grid_half, (INR_part 499 (Nat.lt_le_incl _ _ I499)) in W. replace (INR 499) with 499 in W by (rewrite INR_IZR_INZ; reflexivity). unfold within in W. rewrite Rmin_left, Rmax_right in W by lra. exact W.
Qed.
Lemma gap_drops u3 : exists p, evq_scatter gap_kernel 1 0 u3 neutron1 = Ok (with_pv neutron1 p (Some (e_v neutron1))) /\ 0 < p < 1 / 10.
Proof.
  rewrite scatter_after by exact nz1. cbv zeta. rewrite up. rewrite from_zero by (cbn; lra). rewrite ki1. set (f := E_vq_minus_deltaE _ _ _ _). pose proof v2k_pos as VP. pose proof ksq2e_pos as KQ. set (ki := v2k * 1000) in *. assert (KP : 0 < ki) by (unfold ki; lra). set (c := ki * (4995 / 10000)).
  assert (FF : forall x, f x = jump c (x * x)).
  { intros x. unfold f, E_vq_minus_deltaE. cbv zeta. rewrite k2E_ksq2e. change (vnorm (e_v neutron1)) with (speed (mkV 0 0 1000)). rewrite speed1. cbn [gap_kernel q_E neutron1 e_v]. rewrite vsub_vsub, norm2_scale by (unfold norm2, sdot; cbn; ring). fold ki. fold c. ring. }
  assert (LO : forall x, 0 <= x <= c -> f x = -1) by (intros x X; rewrite FF; apply jump_low; lra). assert (HI : forall x, c < x -> f x = 1) by (intros x X; rewrite FF; apply jump_high; [unfold c; lra|exact X]).
  destruct (jump_root f ki c) as (kf & RE & W); [assert (V2 : v2k <= 1 / 500) by (unfold v2k, k2v, hbar, neutron_mass; lra); unfold ki; lra|reflexivity|exact LO|exact HI|]. rewrite RE. clear RE.
  change (List.length [kf]) with 1%nat. replace (Nat.ltb 1 1) with false by reflexivity. assert (NE : nth (choose u3 1) [kf] 0 = kf). { pose proof (choose_below u3 1 ltac:(lia)). destruct (choose u3 1); [reflexivity|lia]. } rewrite NE. unfold after. cbv zeta.
  assert (D : Rabs (four_point f kf (ki / 200)) = 700 / 3 / ki). { unfold four_point. rewrite (HI (kf + ki / 200)), (HI (kf + 2 * (ki / 200))), (LO (kf - ki / 200)), (LO (kf - 2 * (ki / 200))) by (unfold c; lra). replace ((8 * (1 - -1) - (1 - -1)) / (12 * (ki / 200))) with (700 / 3 / ki) by (field; lra). apply Rabs_right. apply Rle_ge, Rlt_le, Rdiv_lt_0_compat; lra. }
  rewrite D. assert (DP : 0 < 700 / 3 / ki) by (apply Rdiv_lt_0_compat; lra). rewrite (proj2 (Reqb_f _ 0)) by lra.
  assert (EB : v2E 1000 <= 6) by (unfold v2E, vsq2e, neutron_mass, electron_charge; lra).
  assert (FA : Rabs (f kf) = 1). { rewrite FF. unfold jump. destruct (Rle_dec _ _); [rewrite Rabs_left by lra; lra|apply Rabs_right; lra]. } rewrite FA. cbn [gap_kernel q_Emax]. rewrite (proj2 (Rltb_t _ _)) by lra.
  eexists. split; [reflexivity|]. cbn [neutron1 e_p INR]. replace (1 * 1 * (2 * ksq2e * kf / (700 / 3 / ki))) with (6 / 700 * (ksq2e * (kf * ki))) by (field; lra). rewrite v2E_ksq in EB. fold ki in EB. assert (P : 0 < kf * ki) by nra. assert (0 < ksq2e * (kf * ki)) by (now apply Rmult_lt_0_compat). split; [lra|].
  assert (ksq2e * (kf * ki) <= ksq2e * (ki * ki)) by (apply Rmult_le_compat_l; nra). lra.
Qed.
Lemma gap_never v' x : left_over (q_E gap_kernel) (e_v neutron1) v' x -> q_Emax gap_kernel / 100000 < Rabs x.
Proof.
  intros (Ei & Ef & q & E1 & E2 & W & ->). apply is_energy_iff in E1, E2. apply wave_vector_iff in W. subst. cbn [neutron1 e_v gap_kernel q_E q_Emax]. rewrite speed1.
  assert (P : vsub (vscale v2k (mkV 0 0 1000)) (vscale v2k (vsub (mkV 0 0 1000) v')) = vscale v2k v') by (destruct v' as [a b c]; unfold vsub, vscale; cbn; f_equal; ring). rewrite P. clear P.
  assert (K : ksq2e * norm2 (vscale v2k v') = v2E (speed v')). { unfold v2E. replace (speed v' * speed v') with (norm2 v') by (symmetry; apply speed_norm). unfold ksq2e. pose proof k2v_v2k as K. transitivity (k2v * v2k * (k2v * v2k) * (norm2 v' * vsq2e)); [unfold norm2, sdot, vscale; cbn; ring|rewrite K; ring]. } rewrite K.
  assert (EB : v2E 1000 <= 6) by (unfold v2E, vsq2e, neutron_mass, electron_charge; lra). set (j := jump _ _). replace (v2E 1000 - v2E (speed v') - (v2E 1000 - v2E (speed v') - j)) with j by ring. assert (J : Rabs j = 1). { unfold j, jump. destruct (Rle_dec _ _); [rewrite Rabs_left by lra; lra|apply Rabs_right; lra]. } lra.
Qed.
Lemma flat_inner d f c r Ei kmin ki : norm2 d = 1 -> balance (q_E flat_kernel) (e_v neutron1) d f -> is_energy Ei (speed (e_v neutron1)) -> slowest Ei (q_Emax flat_kernel) kmin -> is_wavenumber ki (speed (e_v neutron1)) ->
  (forall i, (i < 1000)%nat -> c i = true <-> changes_sign f (grid kmin ki 1000 i) (grid kmin ki 1000 (i + 1))) -> (forall i, (i < 1000)%nat -> c i = true -> within (grid kmin ki 1000 i) (grid kmin ki 1000 (i + 1)) (r i)) ->
  (0 < chosen c 1000)%nat /\ (forall i, (i < 1000)%nat -> c i = true -> four_point f (r i) (ki / 200) <> 0).
Proof.
  intros DN B EI SL KI CH RW. cbn [neutron1 e_v flat_kernel q_E q_Emax] in *. rewrite speed1 in *. apply is_energy_iff in EI. subst Ei. apply is_wavenumber_iff in KI. pose proof (flat_balance _ _ d f DN B) as FF. rewrite speed1 in FF. pose proof v2k_pos as VP. pose proof ksq2e_pos as KQ. assert (KP : 0 < ki) by (subst ki; lra).
  assert (kmin = 0). { apply slowest_iff in SL. replace (Rmax 0 (v2E 1000 - v2E 1000)) with (v2E 0) in SL by (unfold Rmax; destruct (Rle_dec _ _); unfold v2E at 1; [|ring]; lra). rewrite E2k_v2E in SL by lra. injection SL as SL. lra. } subst kmin.
  assert (EK : v2E 1000 = ksq2e * (ki * ki)) by (rewrite v2E_ksq, KI; reflexivity). assert (Z : f (grid 0 ki 1000 500) = 0) by (rewrite FF, grid_half; unfold flat_f; rewrite EK; field). assert (I5 : (500 < 1000)%nat) by (apply Nat.ltb_lt; reflexivity). split.
  - assert (C5 : c 500%nat = true). { apply CH; [exact I5|]. right. rewrite Z. split; [|lra]. left. apply (Rlt_le_trans _ (f (grid 0 ki 1000 500))); [|rewrite Z; lra]. rewrite !FF. apply (flat_decreasing (v2E 1000) (3 / 4 * v2E 1000) 0 ki (Rle_refl 0)). - apply grid_between; [lra|exact (Nat.lt_le_incl _ _ I5)|exact (Nat.lt_0_succ 999)]. - apply grid_lt; [exact KP|exact (Nat.lt_0_succ 999)|]. rewrite Nat.add_1_r. constructor. - apply grid_between; [lra| |exact (Nat.lt_0_succ 999)]. rewrite Nat.add_1_r. exact I5. }
    assert (G : forall n m, c m = true -> (m < n)%nat -> (0 < chosen c n)%nat); [|exact (G _ _ C5 I5)]. clear. intros n m C L. induction n as [|n IH]; [lia|]. cbn [chosen]. destruct (Nat.eq_dec m n) as [->|NE]; [rewrite C; lia|]. specialize (IH ltac:(lia)). lia.
  - intros i I C H. rewrite (four_point_ext f _ _ _ FF), flat_slope4 in H by (intros E; lra). assert (R0 : r i = 0) by (assert (ksq2e * r i = 0) by lra; apply Rmult_integral in H0; destruct H0; lra). pose proof (RW i I C) as W. rewrite R0 in W.
    destruct i as [|i].
    + apply CH in C; [|exact I]. apply sign_cases in C. rewrite !FF in C. unfold flat_f in C. replace (grid 0 ki 1000 0) with 0 in C by (rewrite (INR_part 0 (Nat.lt_le_incl _ _ I)); cbn [INR]; field). rewrite (INR_part (0 + 1) (Nat.lt_le_incl _ _ (proj1 (Nat.ltb_lt 1 1000) eq_refl))) in C. cbn [Nat.add INR] in C. rewrite EK in C. assert (0 < ksq2e * (ki * ki)) by (apply Rmult_lt_0_compat; nra). nra.
    + assert (G1 : 0 < grid 0 ki 1000 (S i)). { rewrite (INR_part (S i) (Nat.lt_le_incl _ _ I)). rewrite S_INR. pose proof (pos_INR i). apply Rmult_lt_0_compat; lra. } assert (G2 : grid 0 ki 1000 (S i) < grid 0 ki 1000 (S i + 1)). { apply grid_lt; [exact KP|exact (Nat.lt_0_succ 999)|]. rewrite Nat.add_1_r. constructor. } unfold within in W. rewrite Rmin_left in W by lra. lra.
Qed.
