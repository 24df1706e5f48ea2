(** C76: absorption calculators, helium and the resolution pixel, isotropic scattering. *)
From Coq Require Import Reals Lra Lia.
From Coquelicot Require Import Coquelicot.
From Verif Require Import Base RotModel RotSpec RotProofs ChanModel ChanProofs ShapeModel ShapeSpec ShapeProofs ShapeProofs2 GridProofs ScatModel ScatSpec HitModel HitSpec HitProofs HitProofs2 HitProofs3 HitProofs4 UnitModel UnitSpec UnitProofs KinModel KinSpec KinProofs KinProofs2 KinProofs3 KinProofs4 CmpsModel CmpsSpec CmpsProofs CmpsProofs3 CmpsProofs4 CmpsProps CollProofs3 PixModel PixSpec PixProofs PixProofs2.
Open Scope R_scope.

(** C76.  Absorption given by its value at 2200 m/s is inversely proportional to the speed, for the calculator and for the isotropic kernel. *)
Theorem C76_inverse_velocity : forall (m : R) (ev : event), e_v ev <> mkV 0 0 0 ->
  exists k, inverse_velocity m ev = Some k /\ isotropic_absorption m ev = Some k /\ k * speed (e_v ev) = m * 2200.
Proof.
  intros m ev N. pose proof (vnorm_pos (e_v ev) N) as P. exists (m * (2200 / vnorm (e_v ev))). unfold inverse_velocity, isotropic_absorption. cbv zeta. rewrite (proj2 (Reqb_f _ 0)) by lra.
  split; [reflexivity|]. split; [reflexivity|]. change (speed (e_v ev)) with (vnorm (e_v ev)). field. lra.
Qed.
Print Assumptions C76_inverse_velocity.

(** C76.  A curve is accepted exactly when it has as many coefficients as energies, at least one, and the energies rise. *)
Theorem C76_curve_accepted : forall energies mus : list R,
  (exists c, new_curve energies mus = Ok c) <-> List.length energies = List.length mus /\ energies <> [] /\ rising energies.
Proof. intros es ms. split; [intros (c & H); apply curve_new in H; tauto|]. intros H. exists (es, ms). apply curve_new. tauto. Qed.
Print Assumptions C76_curve_accepted.

(** C76.  For every neutron an accepted curve gives the straight line between the two energies around its energy, and the first and the last value
    outside. *)
Theorem C76_curve : forall (energies mus : list R) c (ev : event) (E : R), new_curve energies mus = Ok c -> is_energy E (speed (e_v ev)) ->
  let n := List.length energies in
  exists m, interpolate c ev = Ok m /\ (E <= nth 0 energies 0 -> m = nth 0 mus 0) /\ (nth (n - 1) energies 0 <= E -> m = nth (n - 1) mus 0) /\
  forall i, (S i < n)%nat -> nth i energies 0 <= E <= nth (S i) energies 0 -> m = line_through (nth i energies 0) (nth i mus 0) (nth (S i) energies 0) (nth (S i) mus 0) E.
Proof. intros es ms c ev E NC IE. apply is_energy_iff in IE. subst E. exact (interpolate_spec es ms c ev NC). Qed.
Print Assumptions C76_curve.

(** C76.  The helium kernel at a pressure in pascal and he3_absorption_coeff at the pressure in atmospheres give the same coefficient: atoms per volume
    times 5333 barn, scaled with the wavelength; it is proportional to 1/v.  The transmission is the exponential law, with the length in cm. *)
Theorem C76_helium : forall (p : R) (ev : event) (E : R), e_v ev <> mkV 0 0 0 -> is_energy E (speed (e_v ev)) ->
  let K := he3_inverse_length (p * 101325) E in
  he3_absorption (p * 101325) ev = Some K /\ he3_absorption_coeff E p = Ok K /\ (forall d, he3_transmission_percentage E p (d * 100) = Ok (exp (- K * d))) /\
  (forall k E', 0 < k -> is_energy E' (k * speed (e_v ev)) -> he3_inverse_length (p * 101325) E' = K / k).
Proof.
  intros p ev E N IE K. apply is_energy_iff in IE. pose proof (pix_energy_pos _ N) as EP. change (vnorm (e_v ev)) with (speed (e_v ev)) in EP. rewrite <- IE in EP. split; [|split; [|split]].
  - rewrite he3_value by exact N. change (vnorm (e_v ev)) with (speed (e_v ev)). now rewrite <- IE.
  - now apply he3_python.
  - intros d. unfold he3_transmission_percentage. cbv zeta. rewrite he3_python by exact EP. cbn [bind]. fold K. do 2 f_equal. field.
  - intros k E' KP IE'. apply is_energy_iff in IE'. subst E' E. unfold K, he3_inverse_length. rewrite wavelength_scale; [field; lra| |exact KP]. exact (vnorm_pos _ N).
Qed.
Print Assumptions C76_helium.

(** C76.  A neutron that flies through the pixel leaves it at its exit.  If it is inside at the time of flight of the pixel its weight is multiplied by the
    density of absorption there, times the length of its path; otherwise its weight is 2^-52. *)
Theorem C76_pixel : forall tol px low n fuel ev a b E, 0 < tol -> passes tol (px_shape px) ev a b -> is_energy E (speed (e_v ev)) -> e_p ev <> 0 ->
  let K := he3_inverse_length (px_pressure px) E in let s := speed (e_v ev) in
  exists p, scatter (S (S fuel)) tol (alone (pixel_element tol px) low) n ev = Ok (set_p (later ev b) p) /\
  (px_tof px < e_t ev + a \/ e_t ev + b < px_tof px -> p = / 2 ^ 52) /\
  (e_t ev + a <= px_tof px <= e_t ev + b -> p = e_p ev * (K * (s * (b - a)) * exp (- K * (s * (px_tof px - (e_t ev + a)))))).
Proof.
  intros tol px low n fuel ev a b E T PA IE NZ K s. apply is_energy_iff in IE. exists (detected px ev a b). split; [|split].
  - assert (SE : set_p (later ev b) (detected px ev a b) = scale_p (later ev b) (detected px ev a b / e_p ev)) by (unfold set_p, scale_p; cbn [e_r e_v e_s1 e_s2 e_t e_p later]; f_equal; field; exact NZ).
    rewrite SE. apply (C62_one_body tol (pixel_element tol px) (alone (pixel_element tol px) low) fuel n ev a b); try reflexivity; [exact T|exact PA|].
    rewrite <- SE. exact (pixel_weight tol px ev a b T PA).
  - intros H. unfold detected. destruct (Rlt_dec _ _) as [|N1]; [reflexivity|]. destruct (Rlt_dec _ _) as [|N2]; [reflexivity|]. lra.
  - intros H. unfold detected. destruct (Rlt_dec _ _) as [|N1]; [lra|]. destruct (Rlt_dec _ _) as [|N2]; [lra|]. change (vnorm (e_v ev)) with s. replace (v2E s) with E by exact IE. fold K.
    rewrite (Rmult_comm (b - a) s), (Rmult_comm (px_tof px - _) s). reflexivity.
Qed.
Print Assumptions C76_pixel.

(** C76.  Averaged over pixels whose times of flight are spread evenly over the time that the neutron spends inside, its weight is multiplied by the
    probability of absorption on the path. *)
Theorem C76_mean : forall tol pressure s low n fuel ev a b E, 0 < tol -> passes tol s ev a b -> is_energy E (speed (e_v ev)) -> e_p ev <> 0 ->
  let K := he3_inverse_length pressure E in
  exists W : R -> R, (forall t, e_t ev + a <= t <= e_t ev + b -> scatter (S (S fuel)) tol (alone (pixel_element tol (mkPx t pressure s)) low) n ev = Ok (set_p (later ev b) (W t))) /\
  is_RInt (fun t => W t / (b - a)) (e_t ev + a) (e_t ev + b) (e_p ev * (1 - exp (- K * (speed (e_v ev) * (b - a))))).
Proof.
  intros tol pr s low n fuel ev a b E T PA IE NZ K. assert (L : a < b) by (destruct PA as (_ & _ & _ & _ & (L & _) & _); exact L).
  exists (fun t => e_p ev * (K * ((b - a) * speed (e_v ev)) * exp (- K * ((t - (e_t ev + a)) * speed (e_v ev))))). split.
  - intros t Ht. destruct (C76_pixel tol (mkPx t pr s) low n fuel ev a b E T PA IE NZ) as (p & -> & _ & P). cbn [px_tof px_pressure] in P. rewrite (P Ht). fold K.
    rewrite (Rmult_comm (b - a)), (Rmult_comm (t - _)). reflexivity.
  - apply (is_RInt_ext (V := R_NormedModule) (fun t => scal (/ (b - a)) (e_p ev * (K * ((b - a) * speed (e_v ev)) * exp (- K * ((t - (e_t ev + a)) * speed (e_v ev))))))).
    { intros x _. unfold scal; cbn; unfold mult; cbn. unfold Rdiv. ring. }
    replace (e_p ev * (1 - exp (- K * (speed (e_v ev) * (b - a))))) with (scal (/ (b - a)) ((b - a) * (e_p ev * (1 - exp (- K * ((b - a) * speed (e_v ev))))))) .
    2:{ rewrite (Rmult_comm (b - a) (speed _)). unfold scal; cbn; unfold mult; cbn. field. lra. }
    apply (is_RInt_scal (V := R_NormedModule)). exact (pixel_mean K (speed (e_v ev)) 0 (e_t ev) a b (e_p ev) L).
Qed.
Print Assumptions C76_mean.

(** C76.  A neutron that never comes to the pixel passes with its full weight. *)
Theorem C76_miss : forall tol px low n fuel ev, 0 < tol -> positive (px_shape px) -> ~ plain_cone (px_shape px) -> 1 / 1000000 < speed (e_v ev) ->
  (forall t, 0 <= t -> locate tol (px_shape px) (on_line (e_r ev) (e_v ev) t) = Outside) ->
  scatter (S fuel) tol (alone (pixel_element tol px) low) n ev = Ok ev.
Proof.
  intros tol px low n fuel ev T PO PC SP OUT. cbn [scatter]. assert (MV : is_moving ev = true) by (unfold is_moving; apply Rltb_t; exact SP). rewrite MV. cbn [negb].
  assert (F : forward_tofs tol ev (px_shape px) = []).
  { destruct (forward_tofs tol ev (px_shape px)) as [|t l] eqn:F; [reflexivity|]. exfalso. unfold forward_tofs in F. rewrite forward_fwd in F. assert (In t (fwd (intersect tol (px_shape px) (e_r ev) (e_v ev)))) as H by (rewrite F; now left).
    unfold fwd in H. apply filter_In in H. destruct H as [H1 H2]. apply (intersect_onborder tol _ T PO PC) in H1. rewrite OUT in H1; [discriminate|]. destruct (Rltb t 0) eqn:X; [discriminate H2|]. apply Rltb_f in X. lra. }
  assert (EX : is_exiting tol ev (c_frame (alone (pixel_element tol px) low)) = true).
  { unfold is_exiting. cbn [alone c_frame pixel_element el_shape]. rewrite F. unfold locate_ev. specialize (OUT 0 ltac:(lra)). rewrite line_0 in OUT. rewrite OUT. reflexivity. }
  rewrite EX. reflexivity.
Qed.
Print Assumptions C76_miss.

(** C76.  Isotropic scattering keeps position, time and speed; the mean of anything over the random numbers is its mean over all directions. *)
Theorem C76_isotropic : forall (ev : event),
  (forall u1 u2, let x := isotropic_S u1 u2 ev in e_r x = e_r ev /\ e_t x = e_t ev /\ speed (e_v x) = speed (e_v ev) /\ (0 <= u1 <= 1 -> 0 <= e_p ev -> 0 <= e_p x)) /\
  forall (G : vec3 -> R) (J : R -> R) (I : R),
  (forall theta, 0 < theta < PI -> is_RInt (fun phi => G (vscale (speed (e_v ev)) (polar theta phi))) 0 (2 * PI) (J theta)) -> is_RInt (fun theta => sin theta * J theta) 0 PI I ->
  meanN 2 (fun l => e_p (isotropic_S (stream l 0) (stream l 1) ev) * G (e_v (isotropic_S (stream l 0) (stream l 1) ev))) (e_p ev * (I / (4 * PI))).
Proof.
  intros ev. split.
  - intros u1 u2 x. split; [reflexivity|]. split; [reflexivity|]. pose proof PI_RGT_0 as PP. split.
    + unfold x, isotropic_S. cbv zeta. cbn [e_v]. change (vnorm (e_v ev)) with (speed (e_v ev)). set (s := speed (e_v ev)). set (th := random u1 0 PI). set (ph := random u2 0 (PI * 2)).
      assert (S0 : 0 <= s) by apply sqrt_pos. unfold speed. unfold norm2, sdot. cbn [vx vy vz]. transitivity (sqrt (s * s)); [f_equal|now apply sqrt_square].
      pose proof (sin2_cos2 th) as A. pose proof (sin2_cos2 ph) as B. unfold Rsqr in A, B.
      replace (s * sin th * cos ph * (s * sin th * cos ph) + s * sin th * sin ph * (s * sin th * sin ph) + s * cos th * (s * cos th)) with (s * s * (sin th * sin th * (sin ph * sin ph + cos ph * cos ph) + cos th * cos th)) by ring.
      rewrite B. replace (sin th * sin th * 1 + cos th * cos th) with 1 by lra. ring.
    + intros U P. unfold x, isotropic_S. cbv zeta. cbn [e_p]. apply Rmult_le_pos; [exact P|]. apply Rmult_le_pos; [|lra]. apply sin_ge_0; unfold random; nra.
  - intros G J I. exact (isotropic_mean G J I ev).
Qed.
Print Assumptions C76_isotropic.

(** C76.  The part scattered into the cone about z with cosine [c] is the share (1 - c)/2 of the sphere. *)
Theorem C76_cap : forall (ev : event) (c : R), -1 <= c <= 1 -> 0 < speed (e_v ev) ->
  meanN 2 (fun l => let x := isotropic_S (stream l 0) (stream l 1) ev in e_p x * (if Rle_dec (c * speed (e_v ev)) (vz (e_v x)) then 1 else 0)) (e_p ev * ((1 - c) / 2)).
Proof.
  intros ev c C SP. pose proof PI_RGT_0 as PP. pose proof (acos_bound c) as AB. pose proof (cos_acos c C) as CA.
  replace ((1 - c) / 2) with (2 * PI * (1 - c) / (4 * PI)) by (field; lra).
  apply (isotropic_mean (fun v => if Rle_dec (c * speed (e_v ev)) (vz v) then 1 else 0) (fun theta => if Rle_dec theta (acos c) then 2 * PI else 0) (2 * PI * (1 - c)) ev).
  - intros th TH. assert (K : forall phi, (if Rle_dec (c * speed (e_v ev)) (vz (vscale (speed (e_v ev)) (polar th phi))) then 1 else 0) = if Rle_dec th (acos c) then 1 else 0).
    { intros phi. unfold polar, vscale. cbn [vz]. destruct (Rle_dec th (acos c)) as [L|L].
      - assert (c <= cos th). { rewrite <- CA. destruct (Req_dec th (acos c)) as [->|]; [lra|]. apply Rlt_le, cos_decreasing_1; lra. } destruct (Rle_dec _ _) as [|N]; [reflexivity|]. exfalso. apply N. nra.
      - assert (cos th < c). { rewrite <- CA. apply cos_decreasing_1; lra. } destruct (Rle_dec _ _) as [N|]; [|reflexivity]. exfalso. nra. }
    apply (is_RInt_ext (V := R_NormedModule) (fun _ => if Rle_dec th (acos c) then 1 else 0)); [intros; symmetry; apply K|].
    replace (if Rle_dec th (acos c) then 2 * PI else 0) with (scal (2 * PI - 0) (if Rle_dec th (acos c) then 1 else 0)) by (unfold scal; cbn; unfold mult; cbn; destruct (Rle_dec _ _); ring).
    apply (is_RInt_const (V := R_NormedModule)).
  - replace (2 * PI * (1 - c)) with (plus (2 * PI * (1 - c)) 0) by (unfold plus; cbn; ring). apply (is_RInt_Chasles (V := R_NormedModule) _ 0 (acos c) PI).
    + apply (is_RInt_ext (V := R_NormedModule) (fun theta => sin theta * (2 * PI))).
      { intros x. rewrite Rmin_left, Rmax_right by lra. intros X. destruct (Rle_dec x (acos c)); [reflexivity|lra]. }
      replace (2 * PI * (1 - c)) with ((fun t => - cos t * (2 * PI)) (acos c) - (fun t => - cos t * (2 * PI)) 0) by (cbv beta; rewrite CA, cos_0; ring).
      apply (is_RInt_derive (V := R_CompleteNormedModule) (fun t => - cos t * (2 * PI))).
      * intros x _. auto_derive; [exact I|ring].
      * intros x _. apply (ex_derive_continuous (V := R_NormedModule)). auto_derive. exact I.
    + assert (Z : is_RInt (fun theta => sin theta * (if Rle_dec theta (acos c) then 2 * PI else 0)) (acos c) PI ((PI - acos c) * 0)).
      { apply int_const; [lra|]. intros x X. destruct (Rle_dec x (acos c)); [lra|apply Rmult_0_r]. }
      rewrite Rmult_0_r in Z. exact Z.
Qed.
Print Assumptions C76_cap.

(** ** Examples: a tube of 10 atmospheres, radius and half height 1 cm; a neutron across it *)
Definition tube (t : R) : pixel := new_pixel (10 * 101325) t (1 / 100) (1 / 50).
Definition across (p : R) : event := RotModel.mkE (mkV (-1) 0 0) (mkV 1000 0 0) 0 0 0 p.
Lemma across_at : forall p t, on_line (e_r (across p)) (e_v (across p)) t = mkV (1000 * t - 1) 0 0.
Proof. intros. apply vec_eq; cbn; ring. Qed.
Lemma tube_locate : forall x, locate (1 / 10000) (Cylinder (1 / 100) (1 / 50)) (mkV x 0 0) = if Rltb (1 / 10000) (Rabs x - 1 / 100) then Outside else if Rltb (1 / 10000) (1 / 100 - Rabs x) then Inside else Onborder.
Proof.
  intros x. cbn [locate]. unfold locate_cylinder. cbn [vx vy vz]. rewrite Rabs_R0. replace (x * x + 0 * 0) with (Rsqr x) by (unfold Rsqr; ring). rewrite sqrt_Rsqr_abs.
  rewrite (proj2 (Rltb_f _ (0 - _))) by lra. rewrite (proj2 (Rltb_t _ (1 / 50 / 2 - 0))) by lra. reflexivity.
Qed.
Lemma across_speed : forall p, speed (e_v (across p)) = 1000.
Proof. intros. unfold speed, norm2, sdot. cbn. replace (1000 * 1000 + 0 * 0 + 0 * 0) with (1000 * 1000) by ring. apply sqrt_square. lra. Qed.
Lemma across_passes : forall p t, passes (1 / 10000) (px_shape (tube t)) (across p) (99 / 100000) (101 / 100000).
Proof.
  intros p t0. assert (CO : forall t, core (Cylinder (1 / 100) (1 / 50)) (mkV (1000 * t - 1) 0 0) <-> 99 / 100000 < t < 101 / 100000).
  { intros t. unfold core. cbn. rewrite Rabs_R0. split; intros; nra. }
  assert (SO : forall t, solid (Cylinder (1 / 100) (1 / 50)) (mkV (1000 * t - 1) 0 0) <-> 99 / 100000 <= t <= 101 / 100000).
  { intros t. unfold solid. cbn. rewrite Rabs_R0. split; intros; nra. }
  assert (EE : entry_exit (Cylinder (1 / 100) (1 / 50)) (e_r (across p)) (e_v (across p)) (99 / 100000) (101 / 100000)).
  { split; [lra|]. split; intros t; rewrite across_at; [apply CO|apply SO]. }
  split; [exact I|]. split; [cbn; lra|]. split; [cbn [px_shape tube new_pixel regular]; right; exists (1 / 1000); rewrite across_at; apply CO; lra|]. split; [lra|]. split; [exact EE|].
  cbn [px_shape tube new_pixel]. split; [|split].
  - cbn [e_r across]. rewrite tube_locate. rl. reflexivity.
  - rewrite across_at, tube_locate. rl. reflexivity.
  - change (sqrt (vdot (e_v (across p)) (e_v (across p)))) with (speed (e_v (across p))). rewrite across_speed. lra.
Qed.

(** C76.  Weights are not only multiplied: a neutron without weight gets some when it is not inside in time. *)
Theorem C76_zero_refuted : ~ (forall tol px ev i x, pixel_interact tol px ev = Ok (i, x) -> e_p ev = 0 -> e_p x = 0).
Proof.
  intros H. specialize (H (1 / 10000) (tube 0) (across 0) _ _ (pixel_weight (1 / 10000) _ _ _ _ ltac:(lra) (across_passes 0 0)) eq_refl). cbn [e_p set_p] in H. unfold detected in H.
  destruct (Rlt_dec _ _) as [|N]; [|apply N; cbn; lra]. unfold epsilon in H. assert (0 < / 2 ^ 52) by (apply Rinv_0_lt_compat, pow_lt; lra). lra.
Qed.
Print Assumptions C76_zero_refuted.

Example C76_inverse_velocity_example : inverse_velocity 3 (across 1) = Some (3 * (2200 / 1000)).
Proof. unfold inverse_velocity. cbv zeta. change (vnorm (e_v (across 1))) with (speed (e_v (across 1))). rewrite across_speed. now rewrite (proj2 (Reqb_f 1000 0)) by lra. Qed.
Example C76_curve_example : exists c, new_curve [1; 2; 7] [10; 20; 5] = Ok c /\ new_curve [1; 2; 2] [10; 20; 5] = Err Terminated /\ new_curve [] [] = Err UndefinedBehaviour /\
  (forall ev, v2E (vnorm (e_v ev)) = 3 -> interpolate c ev = Ok 17) /\ (forall ev, v2E (vnorm (e_v ev)) = 8 -> interpolate c ev = Ok 5).
Proof.
  exists ([1; 2; 7], [10; 20; 5]). split; [|split; [|split; [reflexivity|split]]].
  - unfold new_curve. cbn. rl. reflexivity.
  - unfold new_curve. cbn. rl. reflexivity.
  - intros ev E. unfold interpolate. rewrite E. unfold find_1st_bin_larger_than. cbn. rewrite (proj2 (Rleb_false 7 3)), (proj2 (Rleb_false 3 1)), (proj2 (Reqb_f 2 3)), (proj2 (Rltb_t 2 3)) by lra. cbn. unfold divide.
    destruct (Req_EM_T _ _) as [Z|_]; [lra|]. cbn. f_equal. field.
  - intros ev E. unfold interpolate. rewrite E. unfold find_1st_bin_larger_than. cbn. rewrite (proj2 (Rleb_true 7 8)) by lra. reflexivity.
Qed.
Example C76_curve_accepted_example : List.length [1; 2; 7] = List.length [10; 20; 5] /\ [1; 2; 7] <> [] /\ rising [1; 2; 7] /\ ~ rising [1; 1].
Proof.
  split; [reflexivity|]. split; [discriminate|]. split; [apply increasing_iff; cbn; now rl|]. intros H. specialize (H 0%nat 1%nat). cbn in H. assert (1 < 1) by (apply H; lia). lra.
Qed.
Example C76_helium_example : e_v (across 1) <> mkV 0 0 0 /\ exists E, is_energy E (speed (e_v (across 1))) /\ 0 < he3_inverse_length (10 * 101325) E.
Proof.
  assert (N : e_v (across 1) <> mkV 0 0 0) by (intros E; injection E; lra). split; [exact N|]. exists (v2E (speed (e_v (across 1)))). split; [now apply is_energy_iff|].
  pose proof (pix_energy_pos _ N) as P. change (vnorm (e_v (across 1))) with (speed (e_v (across 1))) in P. unfold he3_inverse_length, wavelength.
  assert (0 < sqrt (8181 / 100 / v2E (speed (e_v (across 1))))) by (apply sqrt_lt_R0, Rdiv_lt_0_compat; lra). apply Rmult_lt_0_compat; [|lra]. lra.
Qed.
Example C76_pixel_example : exists p1 p2, scatter 2 (1 / 10000) (alone (pixel_element (1 / 10000) (tube (1 / 1000))) 0) 0 (across 1) = Ok (set_p (later (across 1) (101 / 100000)) p1) /\ 0 < p1 /\
  scatter 2 (1 / 10000) (alone (pixel_element (1 / 10000) (tube (1 / 100))) 0) 0 (across 1) = Ok (set_p (later (across 1) (101 / 100000)) p2) /\ p2 = / 2 ^ 52.
Proof.
  destruct (C76_pixel (1 / 10000) (tube (1 / 1000)) 0 0 0 (across 1) _ _ _ ltac:(lra) (across_passes 1 (1 / 1000)) (proj2 (is_energy_iff _ _) eq_refl) ltac:(cbn; lra)) as (p1 & A1 & _ & C1).
  destruct (C76_pixel (1 / 10000) (tube (1 / 100)) 0 0 0 (across 1) _ _ _ ltac:(lra) (across_passes 1 (1 / 100)) (proj2 (is_energy_iff _ _) eq_refl) ltac:(cbn; lra)) as (p2 & A2 & B2 & _).
  exists p1, p2. split; [exact A1|]. split; [|split; [exact A2|apply B2; cbn; lra]]. rewrite C1 by (cbn; lra). destruct C76_helium_example as (_ & E & IE & KP). apply is_energy_iff in IE. change (px_pressure (tube (1 / 1000))) with (10 * 101325). rewrite IE in KP.
  change (e_p (across 1)) with 1. rewrite Rmult_1_l. apply Rmult_lt_0_compat; [|apply exp_pos]. rewrite across_speed in *. apply Rmult_lt_0_compat; [exact KP|lra].
Qed.
Example C76_miss_example : forall t, 0 <= t -> locate (1 / 10000) (px_shape (tube 1)) (on_line (mkV 2 0 0) (mkV 1000 0 0) t) = Outside.
Proof. intros t Ht. replace (on_line (mkV 2 0 0) (mkV 1000 0 0) t) with (mkV (1000 * t + 2) 0 0) by (apply vec_eq; cbn; ring). cbn [px_shape tube new_pixel]. rewrite tube_locate. rl. reflexivity. Qed.
Example C76_isotropic_example : e_v (isotropic_S (1 / 2) 0 (across 1)) = mkV 1000 0 0 /\ e_p (isotropic_S (1 / 2) 0 (across 1)) = PI / 2.
Proof.
  unfold isotropic_S. cbv zeta. cbn [e_v e_p]. change (vnorm (e_v (across 1))) with (speed (e_v (across 1))). rewrite across_speed. unfold random.
  replace (1 / 2 * (PI - 0) + 0) with (PI / 2) by field. replace (0 * (PI * 2 - 0) + 0) with 0 by ring. rewrite sin_PI2, cos_PI2, cos_0, sin_0. split; [apply vec_eq; cbn; ring|cbn; ring].
Qed.
