(** Proofs for C73. *)
From Coq Require Import Reals Lra Lia.
From Coquelicot Require Import Coquelicot.
From Verif Require Import Base RotModel RotSpec ChanModel ChanProofs ShapeModel ShapeSpec ShapeProofs ScatModel ScatSpec UnitModel UnitSpec UnitProofs KinModel KinSpec KinProofs KinProofs2 GridModel GridProofs PowdModel PowdSpec PowdProofs PowdProofs3 PhonModel PhonSpec PhonProofs3 RootModel RootSpec RootProofs RootProofs2 ConeModel ConeSpec ConeProofs CohModel CohSpec CohProofs CohProofs2 EvqModel EvqSpec.
Open Scope R_scope.

(** the list of roots *)
Definition is_found (o : outcome) : bool := match o with Found _ => true | _ => false end.
Definition value (o : outcome) : R := match o with Found x => x | _ => 0 end.
Lemma roots_map f xacc n a b : 0 < xacc < 10 ^ 30 -> (0 < n)%nat -> 0 <= a -> 0 <= b -> Rabs (b - a) <= INR n * (2 ^ 59 * xacc) ->
  let s i := ZRidd_solve xacc (grid a b n i) (grid a b n (i + 1)) f in
  (forall i, (i < n)%nat -> is_found (s i) = true <-> changes_sign f (grid a b n i) (grid a b n (i + 1))) /\
  (forall i, (i < n)%nat -> is_found (s i) = true -> within (grid a b n i) (grid a b n (i + 1)) (value (s i))) /\
  find_roots_evenly (ZRidd_solve xacc) n a b f = map (fun i => value (s i)) (filter (fun i => is_found (s i)) (seq 0 n)).
Proof.
  intros X N A B W s. split; [|split].
  - intros i L. assert (UB : UNUSED + xacc < Rmin a b) by (rewrite UNUSED_eq; unfold Rmin; destruct (Rle_dec a b); lra).
    destruct (root_of_step_spec f xacc a b n i L (proj1 X) UB W) as [P Q]. unfold root_of_step in P, Q. rewrite !grid_eq in P, Q by exact N. fold (s i) in P, Q. destruct (changes_dec f (grid a b n i) (grid a b n (i + 1))) as [C|C].
    + split; [auto|]. intros _. destruct (P C) as (x & E & _). destruct (s i); try discriminate. reflexivity.
    + split; [|tauto]. specialize (Q C). destruct (s i); try discriminate.
  - intros i L F. unfold s in *. destruct (ZRidd_solve xacc _ _ f) as [x| | |] eqn:E; try discriminate. apply zridd_found in E. tauto.
  - unfold find_roots_evenly. generalize (seq 0 n) as l. induction l as [|i l IH]; [reflexivity|]. cbn [flat_map filter]. rewrite IH. unfold root_of_step at 1. rewrite !grid_eq by exact N. fold (s i). destruct (s i) eqn:E; cbn [is_found map app]; rewrite ?E; reflexivity.
Qed.
Lemma chosen_filter c n : chosen c n = List.length (filter c (seq 0 n)).
Proof. induction n as [|n IH]; [reflexivity|]. rewrite seq_S, filter_app, app_length, <- IH. cbn. now destruct (c n). Qed.
Lemma sum_filter c g n : sum_chosen c g n = fold_right Rplus 0 (map g (filter c (seq 0 n))).
Proof.
  induction n as [|n IH]; [reflexivity|]. rewrite seq_S, filter_app, map_app, fold_right_app. cbn [sum_chosen Nat.add]. rewrite IH. cbn [filter map fold_right]. destruct (c n); cbn [map fold_right].
  - rewrite Rplus_0_r. generalize (g n). generalize (map g (filter c (seq 0 n))) as l. clear. induction l as [|x l IHl]; intros y; cbn [fold_right]; [ring|]. rewrite <- (IHl y). ring.
  - rewrite Rplus_0_r. reflexivity.
Qed.
Lemma sum_to_list (F : R -> R) l : sum_to (fun i => F (nth i l 0)) (List.length l) = fold_right Rplus 0 (map F l).
Proof.
  assert (SH : forall g n, sum_to g (S n) = g 0%nat + sum_to (fun i => g (S i)) n) by (intros g n; induction n as [|n IH]; [cbn; ring|]; cbn [sum_to] in *; rewrite IH; ring).
  induction l as [|x l IH]; [reflexivity|]. cbn [List.length]. rewrite SH. cbn [map fold_right nth]. now rewrite <- IH.
Qed.
(** what is left over *)
Lemma along_iff d k v : along d k v <-> v = vscale k2v (vscale k d).
Proof.
  unfold along. rewrite wave_vector_iff. pose proof k2v_v2k as K. destruct v as [x y z], d as [a b c]. unfold vscale. cbn. split; intros E; injection E as E1 E2 E3; f_equal.
  - rewrite E1. transitivity (k2v * v2k * x); [rewrite K; ring|ring].
  - rewrite E2. transitivity (k2v * v2k * y); [rewrite K; ring|ring].
  - rewrite E3. transitivity (k2v * v2k * z); [rewrite K; ring|ring].
  - rewrite E1. transitivity (k2v * v2k * (k * a)); [rewrite K; ring|ring].
  - rewrite E2. transitivity (k2v * v2k * (k * b)); [rewrite K; ring|ring].
  - rewrite E3. transitivity (k2v * v2k * (k * c)); [rewrite K; ring|ring].
Qed.
Lemma transfer_of v d k : vscale v2k (vsub v (vscale k2v (vscale k d))) = vsub (vscale v2k v) (vscale k d).
Proof.
  pose proof k2v_v2k as K. destruct v as [x y z], d as [a b c]. unfold vscale, vsub. cbn. f_equal.
  - transitivity (v2k * x - k2v * v2k * (k * a)); [ring|rewrite K; ring].
  - transitivity (v2k * y - k2v * v2k * (k * b)); [ring|rewrite K; ring].
  - transitivity (v2k * z - k2v * v2k * (k * c)); [ring|rewrite K; ring].
Qed.
Lemma speed_along d k : norm2 d = 1 -> speed (vscale k2v (vscale k d)) = k2v * Rabs k.
Proof. intros N. rewrite scale_speed, speed_scale_abs by exact N. rewrite Rabs_right by (left; apply k2v_pos). ring. Qed.
Lemma balance_of E v d : norm2 d = 1 -> balance E v d (E_vq_minus_deltaE E d (v2E (vnorm v)) (vscale v2k v)).
Proof.
  intros N k v' A. apply along_iff in A. subst v'. exists (v2E (speed v)), (v2E (speed (vscale k2v (vscale k d)))), (vscale v2k (vsub v (vscale k2v (vscale k d)))).
  split; [now apply is_energy_iff|]. split; [now apply is_energy_iff|]. split; [now apply wave_vector_iff|]. unfold E_vq_minus_deltaE. cbv zeta. rewrite transfer_of, speed_along by exact N. change (vnorm v) with (speed v). f_equal. f_equal.
  unfold k2E, ksquare2E, vsquare2E, v2E. replace (k2v * Rabs k * (k2v * Rabs k)) with (k2v * k2v * (Rabs k * Rabs k)) by ring. rewrite <- Rabs_mult, (Rabs_right (k * k)) by nra. ring.
Qed.
Lemma left_over_unique E v v' x y : left_over E v v' x -> left_over E v v' y -> x = y.
Proof.
  intros (A & B & q & E1 & E2 & W & ->) (A' & B' & q' & E1' & E2' & W' & ->). apply is_energy_iff in E1, E2, E1', E2'. apply wave_vector_iff in W, W'. congruence.
Qed.
Lemma balance_unique E v d f g : balance E v d f -> balance E v d g -> forall k, f k = g k.
Proof. intros A B k. assert (H : along d k (vscale k2v (vscale k d))) by (now apply along_iff). exact (left_over_unique _ _ _ _ _ (A k _ H) (B k _ H)). Qed.
(** the rate *)
Lemma k2E_ksq2e k : k2E k = ksq2e * (k * k). Proof. unfold k2E, ksquare2E, vsquare2E, ksq2e. ring. Qed.
Lemma ksq2e_pos : 0 < ksq2e. Proof. unfold ksq2e. apply Rmult_lt_0_compat; [apply Rmult_lt_0_compat; apply k2v_pos|apply vsq2e_pos]. Qed.
Lemma wave_speed x s : is_wavenumber x s -> s = k2v * x.
Proof. intros W. apply is_wavenumber_iff in W. subst x. pose proof k2v_v2k as K. transitivity (k2v * v2k * s); [rewrite K; ring|ring]. Qed.
Lemma wave_of x : is_wavenumber x (k2v * x).
Proof. apply is_wavenumber_iff. pose proof k2v_v2k as K. transitivity (k2v * v2k * x); [rewrite K; ring|ring]. Qed.
Lemma energy_rate_of k : energy_rate k (2 * ksq2e * k).
Proof.
  intros g H. apply (is_derive_ext (fun x => ksq2e * (x * x))).
  - intros x. specialize (H x _ (wave_of x)). apply is_energy_iff in H. rewrite H, <- k2E_v, k2E_ksq2e. reflexivity.
  - auto_derive; [exact Logic.I|ring].
Qed.
Lemma energy_rate_unique k r r' : energy_rate k r -> energy_rate k r' -> r = r'.
Proof.
  intros A B. assert (H : forall x s, is_wavenumber x s -> is_energy (v2E (k2v * x)) s). { intros x s W. apply is_energy_iff. apply wave_speed in W. now subst s. }
  rewrite <- (is_derive_unique _ _ _ (A _ H)). now apply is_derive_unique, B.
Qed.
(** the limits *)
Lemma slowest_iff Ei Emax k : slowest Ei Emax k <-> E2k (Rmax 0 (Ei - Emax)) = Some k.
Proof.
  pose proof (Rmax_l 0 (Ei - Emax)) as P. split.
  - intros (K & s & W & E). apply is_energy_iff in E. apply wave_speed in W. subst s. rewrite E, <- k2E_v. apply k2E_inv. exact K.
  - intros H. destruct (E2k_inv _ P) as (k' & E' & K' & K2). rewrite E' in H. injection H as <-. split; [exact K'|]. exists (k2v * k'). split; [apply wave_of|]. apply is_energy_iff. now rewrite <- k2E_v.
Qed.
Lemma k2E_le a b : 0 <= a -> 0 <= b -> k2E a <= k2E b -> a <= b.
Proof. intros A B H. rewrite !k2E_ksq2e in H. pose proof ksq2e_pos. assert (a * a <= b * b) by nra. nra. Qed.
Lemma ki_of v : vnorm (vscale v2k v) = v2k * speed v.
Proof. change (vnorm (vscale v2k v)) with (speed (vscale v2k v)). rewrite scale_speed, Rabs_right by (left; apply v2k_pos). ring. Qed.
Lemma range_of v Emax : 0 <= Emax -> speed v <= 10 ^ 20 -> exists kmin, slowest (v2E (speed v)) Emax kmin /\ 0 <= kmin <= v2k * speed v /\ v2E (speed v) - k2E kmin <= Emax /\ Rabs (v2k * speed v - kmin) <= INR 1000 * (2 ^ 59 * (1 / 1000)) /\
  (forall f, kf_list f (v2E (vnorm v)) Emax = find_roots_evenly (ZRidd_solve (1 / 1000)) 1000 kmin (v2k * speed v) f).
Proof.
  intros EM SV. assert (S0 : 0 <= speed v) by apply sqrt_pos. destruct (E2k_inv (Rmax 0 (v2E (speed v) - Emax)) (Rmax_l _ _)) as (kmin & E & K & KE). exists kmin. split; [now apply slowest_iff|]. pose proof v2k_pos as VP. pose proof (v2E_nonneg (speed v)) as VE.
  assert (LE : kmin <= v2k * speed v). { apply k2E_le; [exact K|nra|]. rewrite KE. replace (k2E (v2k * speed v)) with (v2E (speed v)). - unfold Rmax. destruct (Rle_dec _ _); lra. - rewrite k2E_v. f_equal. pose proof k2v_v2k as KV. transitivity (k2v * v2k * speed v); [rewrite KV; ring|ring]. }
  split; [lra|]. split; [rewrite KE; unfold Rmax; destruct (Rle_dec _ _); lra|]. split.
  - rewrite Rabs_right by lra. rewrite INR_IZR_INZ. change (Z.of_nat 1000) with 1000%Z. assert (V2 : v2k <= 1 / 500). { unfold v2k, k2v, hbar, neutron_mass. lra. } assert (v2k * speed v <= 1 / 500 * 10 ^ 20) by (apply Rmult_le_compat; lra). lra.
  - intros f. unfold kf_list. change (vnorm v) with (speed v). rewrite E, E2k_v2E by exact S0. reflexivity.
Qed.
Lemma df_four f kf ki : ki <> 0 -> df_dkf f kf (ki / 200) = Ok (Rabs (four_point f kf (ki / 200)) * (if Rle_dec 0 ki then 1 else -1)).
Proof.
  intros K. unfold df_dkf, divide. destruct (Req_EM_T (ki / 200) 0); [exfalso; apply K; lra|]. f_equal. unfold four_point. replace (8 * (f (kf + ki / 200) - f (kf - ki / 200)) - (f (kf + 2 * (ki / 200)) - f (kf - 2 * (ki / 200)))) with (- f (kf + 2 * (ki / 200)) + 8 * f (kf + ki / 200) - 8 * f (kf - ki / 200) + f (kf - 2 * (ki / 200))) by ring.
  set (A := - f _ + _ - _ + _). rewrite (Rabs_div A (12 * (ki / 200))) by lra. destruct (Rle_dec 0 ki).
  - rewrite (Rabs_right (12 * (ki / 200))) by lra. field. lra.
  - rewrite (Rabs_left (12 * (ki / 200))) by lra. field. lra.
Qed.
