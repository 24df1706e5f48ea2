From Coq Require Import Reals Lra Lia.
From Verif Require Import Base RotModel ChanModel ShapeModel ChanProofs GridProofs McsModel RotSpec McsSpec McsProps OptModel BsrcModel BsrcSpec BsrcProofs.
Open Scope R_scope.

Lemma band_refused_iff E0 dE L0 dL : bad_band E0 dE L0 dL = true <-> band_refused E0 dE L0 dL.
Proof.
  rewrite bad_band_iff. unfold band_refused.
  assert (K : forall a b, (a <= 0 \/ b < 0 \/ a <= b) <-> ~ (0 <= b < a)).
  { intros a b. split; [lra|]. intros H. destruct (Rlt_dec b 0); [lra|]. destruct (Rle_dec a b); lra. }
  rewrite !K. tauto.
Qed.
Lemma simple_init_iff c square pmul : simple_init c = Ok (square, pmul) <->
  exists area, emits_from c square area /\ 0 < area /\ pmul = i_flux c * 10000 * area /\ 0 <= i_dist c /\ 0 <= i_xw c /\ 0 <= i_yh c /\
    ~ band_refused (i_E0 c) (i_dE c) (i_Lambda0 c) (i_dLambda c).
Proof.
  unfold simple_init, ncount. split.
  - intros H.
    assert (X : forall sq area, (let pm := i_flux c * 10 ^ 4 * area / 1 in
       if (Rleb area 0 || Rltb (i_dist c) 0 || Rltb (i_xw c) 0 || Rltb (i_yh c) 0 || bad_band (i_E0 c) (i_dE c) (i_Lambda0 c) (i_dLambda c))%bool then Err Terminated else Ok (sq, pm)) = Ok (square, pmul) ->
       emits_from c sq area -> exists area, emits_from c square area /\ 0 < area /\ pmul = i_flux c * 10000 * area /\ 0 <= i_dist c /\ 0 <= i_xw c /\ 0 <= i_yh c /\ ~ band_refused (i_E0 c) (i_dE c) (i_Lambda0 c) (i_dLambda c)).
    { intros sq area. cbv zeta. destruct (Rleb area 0) eqn:A; [discriminate|]. destruct (Rltb (i_dist c) 0) eqn:B; [discriminate|]. destruct (Rltb (i_xw c) 0) eqn:C; [discriminate|].
      destruct (Rltb (i_yh c) 0) eqn:D; [discriminate|]. destruct (bad_band _ _ _ _) eqn:F; [discriminate|]. cbn [orb]. intros G E. injection G as <- <-. exists area.
      apply Rleb_false in A. apply Rltb_f in B, C, D. split; [exact E|]. split; [exact A|]. split; [field|]. split; [exact B|]. split; [exact C|]. split; [exact D|].
      intros R. apply band_refused_iff in R. congruence. }
    destruct (negb (Reqb (i_radius c) 0) && Reqb (i_height c) 0 && Reqb (i_width c) 0)%bool eqn:Q1.
    + apply Bool.andb_true_iff in Q1. destruct Q1 as [Q1 Qw]. apply Bool.andb_true_iff in Q1. destruct Q1 as [Qr Qh]. apply Bool.negb_true_iff in Qr. apply Reqb_f in Qr. apply Reqb_t in Qh, Qw.
      cbn [bind] in H. apply (X _ _ H). left. repeat split; try assumption. ring.
    + destruct (Reqb (i_radius c) 0 && negb (Reqb (i_height c) 0) && negb (Reqb (i_width c) 0))%bool eqn:Q2; [|discriminate].
      apply Bool.andb_true_iff in Q2. destruct Q2 as [Q2 Qw]. apply Bool.andb_true_iff in Q2. destruct Q2 as [Qr Qh]. apply Bool.negb_true_iff in Qh, Qw. apply Reqb_f in Qh, Qw. apply Reqb_t in Qr.
      cbn [bind] in H. apply (X _ _ H). right. repeat split; assumption.
  - intros (area & E & P & M & D & W & H & N).
    assert (B : bad_band (i_E0 c) (i_dE c) (i_Lambda0 c) (i_dLambda c) = false) by (destruct (bad_band _ _ _ _) eqn:F; [apply band_refused_iff in F; tauto|reflexivity]).
    destruct E as [(E1 & E2 & E3 & Sq & A) | (E1 & E2 & E3 & Sq & A)]; subst square; rewrite ?(qf _ _ E1), ?(qt _ _ E1), ?(qf _ _ E2), ?(qt _ _ E2), ?(qf _ _ E3), ?(qt _ _ E3); cbn [negb andb bind].
    + replace (PI * i_radius c * i_radius c) with area by (rewrite A; ring). rewrite (proj2 (Rleb_false area 0) P), (lf _ _ D), (lf _ _ W), (lf _ _ H), B. cbn [orb]. rewrite M. do 2 f_equal. field.
    + rewrite <- A. rewrite (proj2 (Rleb_false area 0) P), (lf _ _ D), (lf _ _ W), (lf _ _ H), B. cbn [orb]. rewrite M. do 2 f_equal. field.
Qed.

(** one neutron with a speed v *)
Definition start (c : simple) (square : bool) (u1 u2 : R) : R * R :=
  if square then (i_width c * (u1 - 1 / 2), i_height c * (u2 - 1 / 2)) else disk_point u1 u2 (i_radius c).
Lemma simple_run c square pmul u1 u2 u3 u4 u5 g n v : 0 < i_dist c -> i_xw c <> 0 -> i_yh c <> 0 -> simple_speed c u5 g = Ok v ->
  let x := i_xw c * (1 - 2 * u3) / 2 in let y := i_yh c * (1 - 2 * u4) / 2 in
  let '(a, b) := start c square u1 u2 in
  simple_trace c square pmul u1 u2 u3 u4 u5 g n =
    Ok (mkRay (mkV a b 0) (mkV (v * (x - a) / distance a b x y (i_dist c)) (v * (y - b) / distance a b x y (i_dist c)) (v * i_dist c / distance a b x y (i_dist c))) 0 (r_s1 n) (r_s2 n)
       (i_xw c * i_yh c * seen 0 0 x y (i_dist c) * pmul)).
Proof.
  intros D W H V x y. unfold simple_trace. fold (start c square u1 u2). destruct (start c square u1 u2) as [a b]. rewrite (aim_eq u3 u4 _ _ _ D W H). fold x y. cbn [bind].
  rewrite V. cbn [bind]. rewrite (launch_eq v _ a b x y D). reflexivity.
Qed.
Lemma band_abs E0 dE u : fraction u -> E0 - Rabs dE <= E0 + dE * (2 * u - 1) <= E0 + Rabs dE.
Proof. intros [A B]. pose proof (Rabs_pos dE). assert (K : Rabs (dE * (2 * u - 1)) <= Rabs dE) by (rewrite Rabs_mult; assert (Rabs (2 * u - 1) <= 1) by (apply Rabs_le; lra); nra). pose proof (Rle_abs (dE * (2 * u - 1))). pose proof (Rle_abs (- (dE * (2 * u - 1)))) as Z. rewrite Rabs_Ropp in Z. lra. Qed.
Lemma simple_any c square pmul u1 u2 u3 u4 u5 g n v : simple_init c = Ok (square, pmul) -> fraction u1 -> fraction u2 -> fraction u3 -> fraction u4 ->
  0 < i_dist c -> 0 < i_xw c -> 0 < i_yh c -> simple_speed c u5 g = Ok v -> 0 < v ->
  exists r, simple_trace c square pmul u1 u2 u3 u4 u5 g n = Ok r /\ simple_beam c u1 u2 u3 u4 n r /\ velocity2 r = v ^ 2.
Proof.
  intros Ini U1 U2 U3 U4 D W H V Vp. apply simple_init_iff in Ini. destruct Ini as (area & E & Ap & M & _).
  pose proof (simple_run c square pmul u1 u2 u3 u4 u5 g n v D ltac:(lra) ltac:(lra) V) as T. cbv zeta in T.
  destruct (start c square u1 u2) as [a b] eqn:St. eexists. split; [exact T|]. split; [|now apply launch_speed].
  exists square, area. cbn [r_t r_s1 r_s2 r_p r_pos vx vy vz]. split; [exact E|]. do 3 (split; [reflexivity|]).
  split.
  { intros Rn. destruct E as [(_ & _ & _ & Sq & _) | (E1 & _)]; [|contradiction]. subst square. unfold start in St. pose proof (disk_in u1 u2 (i_radius c) U2) as K. rewrite St in K.
    split; [|exact K]. split; [cbn [r_pos vx vy]; rewrite K; destruct U2; pose proof (pow2_ge_0 (i_radius c)); nra|reflexivity]. }
  split.
  { intros Rn. destruct E as [(E1 & _) | (_ & _ & _ & Sq & _)]; [contradiction|]. subst square. unfold start in St. injection St as <- <-. split; [|split; reflexivity].
    split; [cbn [r_pos vx]; now apply square_point|]. split; [cbn [r_pos vy]; now apply square_point|reflexivity]. }
  split; [apply target_in; [assumption|lra]|]. split; [apply target_in; [assumption|lra]|]. split; [now apply launch_flies|]. rewrite M. ring.
Qed.
Lemma simple_energy c square pmul u1 u2 u3 u4 u5 g n : simple_init c = Ok (square, pmul) -> fraction u1 -> fraction u2 -> fraction u3 -> fraction u4 -> fraction u5 ->
  0 < i_dist c -> 0 < i_xw c -> 0 < i_yh c -> i_gauss c = false -> i_Lambda0 c = 0 -> Rabs (i_dE c) < i_E0 c ->
  exists r, simple_trace c square pmul u1 u2 u3 u4 u5 g n = Ok r /\ simple_beam c u1 u2 u3 u4 n r /\
    has_energy r (i_E0 c + i_dE c * (2 * u5 - 1)) /\ i_E0 c - Rabs (i_dE c) <= i_E0 c + i_dE c * (2 * u5 - 1) <= i_E0 c + Rabs (i_dE c).
Proof.
  intros Ini U1 U2 U3 U4 U5 D W H G L B. pose proof (band_abs (i_E0 c) (i_dE c) u5 U5) as K. set (E := i_E0 c + i_dE c * (2 * u5 - 1)) in *.
  destruct (energy_speed E ltac:(lra)) as (S1 & S2 & _ & S3).
  assert (V : simple_speed c u5 g = Ok (sqrt E * SE2V)) by (unfold simple_speed; rewrite (qt _ _ L), G; exact S1).
  destruct (simple_any c square pmul u1 u2 u3 u4 u5 g n _ Ini U1 U2 U3 U4 D W H V (S3 ltac:(lra))) as (r & T & Be & Sp).
  exists r. split; [exact T|]. split; [exact Be|]. split; [|exact K]. split; [lra|]. now rewrite Sp.
Qed.
Lemma simple_wave c square pmul u1 u2 u3 u4 u5 g n : simple_init c = Ok (square, pmul) -> fraction u1 -> fraction u2 -> fraction u3 -> fraction u4 -> fraction u5 ->
  0 < i_dist c -> 0 < i_xw c -> 0 < i_yh c -> i_gauss c = false -> Rabs (i_dLambda c) < i_Lambda0 c ->
  exists r, simple_trace c square pmul u1 u2 u3 u4 u5 g n = Ok r /\ simple_beam c u1 u2 u3 u4 n r /\
    has_wavelength r (i_Lambda0 c + i_dLambda c * (2 * u5 - 1)) /\ i_Lambda0 c - Rabs (i_dLambda c) <= i_Lambda0 c + i_dLambda c * (2 * u5 - 1) <= i_Lambda0 c + Rabs (i_dLambda c).
Proof.
  intros Ini U1 U2 U3 U4 U5 D W H G B. pose proof (band_abs (i_Lambda0 c) (i_dLambda c) u5 U5) as K. set (l := i_Lambda0 c + i_dLambda c * (2 * u5 - 1)) in *.
  destruct (wave_speed l ltac:(lra)) as (S1 & S2 & S3). pose proof (Rabs_pos (i_dLambda c)) as Ab.
  assert (V : simple_speed c u5 g = Ok (K2V * (2 * PI / l))) by (unfold simple_speed; rewrite (qf (i_Lambda0 c) 0) by lra; rewrite G; exact S1).
  destruct (simple_any c square pmul u1 u2 u3 u4 u5 g n _ Ini U1 U2 U3 U4 D W H V S3) as (r & T & Be & Sp).
  exists r. split; [exact T|]. split; [exact Be|]. split; [|exact K]. split; [lra|]. now rewrite Sp.
Qed.
Lemma simple_gauss_energy c square pmul u1 u2 u3 u4 u5 g n : simple_init c = Ok (square, pmul) -> fraction u1 -> fraction u2 -> fraction u3 -> fraction u4 ->
  0 < i_dist c -> 0 < i_xw c -> 0 < i_yh c -> i_gauss c = true -> i_Lambda0 c = 0 ->
  (0 < i_E0 c + g * i_dE c -> exists r, simple_trace c square pmul u1 u2 u3 u4 u5 g n = Ok r /\ simple_beam c u1 u2 u3 u4 n r /\ has_energy r (i_E0 c + g * i_dE c)) /\
  (i_E0 c + g * i_dE c < 0 -> simple_trace c square pmul u1 u2 u3 u4 u5 g n = Err ValueError).
Proof.
  intros Ini U1 U2 U3 U4 D W H G L. split.
  - intros P. set (E := i_E0 c + g * i_dE c) in *. destruct (energy_speed E ltac:(lra)) as (S1 & S2 & _ & S3).
    assert (V : simple_speed c u5 g = Ok (sqrt E * SE2V)) by (unfold simple_speed; rewrite (qt _ _ L), G; exact S1).
    destruct (simple_any c square pmul u1 u2 u3 u4 u5 g n _ Ini U1 U2 U3 U4 D W H V (S3 ltac:(lra))) as (r & T & Be & Sp).
    exists r. split; [exact T|]. split; [exact Be|]. split; [lra|]. now rewrite Sp.
  - intros P. unfold simple_trace. fold (start c square u1 u2). destruct (start c square u1 u2) as [a b]. rewrite (aim_eq u3 u4 _ _ _ D) by lra. cbn [bind].
    unfold simple_speed. rewrite (qt _ _ L), G. unfold speed_of_energy. rewrite (lt_ _ _ P). reflexivity.
Qed.
(** Gaussian wavelengths *)
Lemma simple_gauss_wave c square pmul u1 u2 u3 u4 u5 g n : simple_init c = Ok (square, pmul) -> fraction u1 -> fraction u2 -> fraction u3 -> fraction u4 ->
  0 < i_dist c -> 0 < i_xw c -> 0 < i_yh c -> i_gauss c = true -> i_Lambda0 c <> 0 -> 0 < g * i_dLambda c ->
  exists r, simple_trace c square pmul u1 u2 u3 u4 u5 g n = Ok r /\ simple_beam c u1 u2 u3 u4 n r /\ has_wavelength r (g * i_dLambda c).
Proof.
  intros Ini U1 U2 U3 U4 D W H G L P. destruct (wave_speed (g * i_dLambda c) P) as (S1 & S2 & S3).
  assert (V : simple_speed c u5 g = Ok (K2V * (2 * PI / (g * i_dLambda c)))) by (unfold simple_speed; rewrite (qf _ _ L), G; exact S1).
  destruct (simple_any c square pmul u1 u2 u3 u4 u5 g n _ Ini U1 U2 U3 U4 D W H V S3) as (r & T & Be & Sp).
  exists r. split; [exact T|]. split; [exact Be|]. split; [exact P|]. now rewrite Sp.
Qed.
(** negative wavelengths *)
Lemma simple_backward c square pmul u1 u2 u3 u4 u5 g n l : 0 < i_dist c -> i_xw c <> 0 -> i_yh c <> 0 -> i_Lambda0 c <> 0 ->
  l = (if i_gauss c then g * i_dLambda c else i_Lambda0 c + i_dLambda c * (2 * u5 - 1)) -> l < 0 ->
  exists r, simple_trace c square pmul u1 u2 u3 u4 u5 g n = Ok r /\ vz (r_pos r) = 0 /\ vz (r_vel r) < 0.
Proof.
  intros D W H L El P.
  assert (V : simple_speed c u5 g = Ok (K2V * (2 * PI / l))) by (unfold simple_speed, randpm1; rewrite (qf _ _ L), <- El; unfold speed_of_wavelength; now rewrite qf by lra).
  pose proof (simple_run c square pmul u1 u2 u3 u4 u5 g n _ D W H V) as T. cbv zeta in T. destruct (start c square u1 u2) as [a b]. eexists. split; [exact T|]. cbn [r_pos r_vel vx vy vz]. split; [reflexivity|].
  match goal with |- ?v * _ / ?q < 0 => assert (Q : 0 < q) by (now apply distance_pos); assert (N : v < 0) end.
  { pose proof PI_RGT_0. assert (0 < 2 * PI / - l) by (apply Rdiv_lt_0_compat; lra). replace (2 * PI / l) with (- (2 * PI / - l)) by (field; lra). unfold K2V. lra. }
  unfold Rdiv. apply Rmult_lt_reg_r with (distance a b (i_xw c * (1 - 2 * u3) / 2) (i_yh c * (1 - 2 * u4) / 2) (i_dist c)); [exact Q|]. rewrite Rmult_assoc, Rinv_l by lra. nra.
Qed.
(** no target *)
Lemma aim_none u1 u2 d w h : 0 < d -> w = 0 \/ h = 0 -> fraction u1 -> exists x y, aim u1 u2 d w h = Ok (x, y, 4 * PI) /\ x ^ 2 + y ^ 2 <= d ^ 2.
Proof.
  intros D Z U. unfold aim. pose proof (C77_rect_special norotation (mkV 0 0 d) u1 u2 w h) as [K _]. rewrite (K Z).
  assert (N : mkV 0 0 d <> mkV 0 0 0) by (intros F; injection F; lra).
  destruct (C77_circle (mkV 0 0 d) 0 N) as (e1 & e2 & e3 & _ & F & G & _). specialize (F u1 u2 U). specialize (G u1 u2 U).
  destruct (randvec_target_circle u1 u2 (mkV 0 0 d) 0) as [o s] eqn:R. exists (vx o), (vy o).
  assert (O : McsSpec.opening (mkV 0 0 d) 0 = -1) by (unfold McsSpec.opening; destruct (Req_EM_T 0 0); [reflexivity|lra]).
  injection F as _ S. rewrite O in S. split; [f_equal; f_equal; lra|]. cbn [fst] in G. unfold RotSpec.norm2, RotSpec.sdot in G. cbn [vx vy vz] in G. pose proof (pow2_ge_0 (vz o)). lra.
Qed.
Lemma simple_no_target c square pmul u1 u2 u3 u4 u5 g n v : simple_init c = Ok (square, pmul) -> fraction u3 -> 0 < i_dist c -> i_xw c = 0 \/ i_yh c = 0 ->
  simple_speed c u5 g = Ok v -> 0 < v ->
  exists r x y area, simple_trace c square pmul u1 u2 u3 u4 u5 g n = Ok r /\ emits_from c square area /\ flies_to r (i_dist c) x y /\ x ^ 2 + y ^ 2 <= i_dist c ^ 2 /\
    r_p r = i_flux c * 10000 * area * (4 * PI).
Proof.
  intros Ini U3 D Z V Vp. apply simple_init_iff in Ini. destruct Ini as (area & E & Ap & M & _). destruct (aim_none u3 u4 (i_dist c) _ _ D Z U3) as (x & y & A & In).
  unfold simple_trace. fold (start c square u1 u2). destruct (start c square u1 u2) as [a b]. rewrite A. cbn [bind]. rewrite V. cbn [bind]. rewrite (launch_eq v _ a b x y D). cbn [bind].
  eexists _, x, y, area. split; [reflexivity|]. split; [exact E|]. split; [now apply launch_flies|]. split; [exact In|]. cbn [r_p]. rewrite M. ring.
Qed.
