(** C92: where the neutrons of McStas sources start, where they fly to, how fast, when and with which weight. *)
From Coq Require Import Reals Lra Lia.
From Coquelicot Require Import Coquelicot.
From Verif Require Import Base RotModel ChanModel ShapeModel ChanProofs GridProofs McsModel OptModel BsrcModel BsrcSpec BsrcProofs BsrcProofs2 BsrcProofs3 BsrcProofs4.
Open Scope R_scope.

(** the documented example of Source_simple, with energies or with wavelengths *)
Definition example_simple (E0 dE L0 dL : R) (gauss : bool) : simple := mkSimple (1 / 10) 0 0 2 (1 / 10) (1 / 10) E0 dE L0 dL 1 gauss.
Definition some_ray : ray := mkRay (mkV 0 0 0) (mkV 0 0 1) 0 0 0 1.

(** Source_simple takes exactly these parameters. *)
Theorem C92_simple_init : forall c square pmul, simple_init c = Ok (square, pmul) <->
  exists area, emits_from c square area /\ 0 < area /\ pmul = i_flux c * 10000 * area /\ 0 <= i_dist c /\ 0 <= i_xw c /\ 0 <= i_yh c /\
    ~ band_refused (i_E0 c) (i_dE c) (i_Lambda0 c) (i_dLambda c).
Proof. exact simple_init_iff. Qed.
Print Assumptions C92_simple_init.
Lemma example_init E0 dE L0 dL gauss : ~ band_refused E0 dE L0 dL -> simple_init (example_simple E0 dE L0 dL gauss) = Ok (false, 1 * 10000 * (PI * (1 / 10) ^ 2)).
Proof.
  intros N. apply simple_init_iff. exists (PI * (1 / 10) ^ 2). pose proof PI_RGT_0. cbn [i_flux i_dist i_xw i_yh i_E0 i_dE i_Lambda0 i_dLambda example_simple].
  split; [left; cbn; repeat split; lra|]. split; [nra|]. split; [reflexivity|]. split; [lra|]. split; [lra|]. split; [lra|exact N].
Qed.
Example C92_simple_init_ex : simple_init (example_simple 14 2 0 0 false) = Ok (false, 1 * 10000 * (PI * (1 / 10) ^ 2)).
Proof. apply example_init. unfold band_refused. lra. Qed.

(** A neutron of Source_simple starts at time 0 at the drawn point of the source and flies to the drawn point of the target; its energy is in the band; its weight
    is flux times area times the solid angle of the target (per target point, seen from the centre of the source). *)
Theorem C92_simple : forall c square pmul u1 u2 u3 u4 u5 g n, simple_init c = Ok (square, pmul) -> fraction u1 -> fraction u2 -> fraction u3 -> fraction u4 -> fraction u5 ->
  0 < i_dist c -> 0 < i_xw c -> 0 < i_yh c -> i_gauss c = false -> i_Lambda0 c = 0 -> Rabs (i_dE c) < i_E0 c ->
  exists r, simple_trace c square pmul u1 u2 u3 u4 u5 g n = Ok r /\ simple_beam c u1 u2 u3 u4 n r /\
    has_energy r (i_E0 c + i_dE c * (2 * u5 - 1)) /\ i_E0 c - Rabs (i_dE c) <= i_E0 c + i_dE c * (2 * u5 - 1) <= i_E0 c + Rabs (i_dE c).
Proof. exact simple_energy. Qed.
Print Assumptions C92_simple.
Example C92_simple_ex : exists r, simple_trace (example_simple 14 2 0 0 false) false (1 * 10000 * (PI * (1 / 10) ^ 2)) (1 / 8) (1 / 4) (1 / 4) (3 / 4) 1 0 some_ray = Ok r /\
  flies_to r 2 (1 / 40) (- (1 / 40)) /\ has_energy r 16.
Proof.
  destruct (C92_simple (example_simple 14 2 0 0 false) _ _ (1 / 8) (1 / 4) (1 / 4) (3 / 4) 1 0 some_ray C92_simple_init_ex) as (r & T & B & E & _); try (unfold fraction; lra); try (cbn; lra); try reflexivity.
  { cbn. rewrite Rabs_right; lra. }
  exists r. split; [exact T|]. destruct B as (sq & area & _ & _ & _ & _ & _ & _ & _ & _ & F & _). cbn in F, E. split.
  - replace (1 / 40) with (1 / 10 * (1 - 2 * (1 / 4)) / 2) by field. replace (- (1 / 10 * (1 - 2 * (1 / 4)) / 2)) with (1 / 10 * (1 - 2 * (3 / 4)) / 2) by field. exact F.
  - now replace 16 with (14 + 2 * (2 * 1 - 1)) by ring.
Qed.

(** The same with wavelengths. *)
Theorem C92_simple_wavelength : forall c square pmul u1 u2 u3 u4 u5 g n, simple_init c = Ok (square, pmul) -> fraction u1 -> fraction u2 -> fraction u3 -> fraction u4 -> fraction u5 ->
  0 < i_dist c -> 0 < i_xw c -> 0 < i_yh c -> i_gauss c = false -> Rabs (i_dLambda c) < i_Lambda0 c ->
  exists r, simple_trace c square pmul u1 u2 u3 u4 u5 g n = Ok r /\ simple_beam c u1 u2 u3 u4 n r /\
    has_wavelength r (i_Lambda0 c + i_dLambda c * (2 * u5 - 1)) /\ i_Lambda0 c - Rabs (i_dLambda c) <= i_Lambda0 c + i_dLambda c * (2 * u5 - 1) <= i_Lambda0 c + Rabs (i_dLambda c).
Proof. exact simple_wave. Qed.
Print Assumptions C92_simple_wavelength.
Example C92_simple_wavelength_ex : simple_init (example_simple 60 10 4 1 false) = Ok (false, 1 * 10000 * (PI * (1 / 10) ^ 2)) /\ Rabs (i_dLambda (example_simple 60 10 4 1 false)) < i_Lambda0 (example_simple 60 10 4 1 false).
Proof. split; [apply example_init; unfold band_refused; lra|cbn; rewrite Rabs_right; lra]. Qed.

(** With Gaussian energies the energy is E0 plus dE times the drawn number; where this is negative there is no speed (nan). *)
Theorem C92_simple_gauss : forall c square pmul u1 u2 u3 u4 u5 g n, simple_init c = Ok (square, pmul) -> fraction u1 -> fraction u2 -> fraction u3 -> fraction u4 ->
  0 < i_dist c -> 0 < i_xw c -> 0 < i_yh c -> i_gauss c = true -> i_Lambda0 c = 0 ->
  (0 < i_E0 c + g * i_dE c -> exists r, simple_trace c square pmul u1 u2 u3 u4 u5 g n = Ok r /\ simple_beam c u1 u2 u3 u4 n r /\ has_energy r (i_E0 c + g * i_dE c)) /\
  (i_E0 c + g * i_dE c < 0 -> simple_trace c square pmul u1 u2 u3 u4 u5 g n = Err ValueError).
Proof. exact simple_gauss_energy. Qed.
Print Assumptions C92_simple_gauss.
Example C92_simple_gauss_ex : simple_init (example_simple 14 5 0 0 true) = Ok (false, 1 * 10000 * (PI * (1 / 10) ^ 2)) /\
  simple_trace (example_simple 14 5 0 0 true) false (1 * 10000 * (PI * (1 / 10) ^ 2)) 0 0 0 0 0 (-3) some_ray = Err ValueError.
Proof.
  assert (I : simple_init (example_simple 14 5 0 0 true) = Ok (false, 1 * 10000 * (PI * (1 / 10) ^ 2))) by (apply example_init; unfold band_refused; lra).
  split; [exact I|]. apply (C92_simple_gauss (example_simple 14 5 0 0 true) _ _ 0 0 0 0 0 (-3) some_ray I); try (unfold fraction; lra); try (cbn; lra); reflexivity.
Qed.

(** Not so for Gaussian wavelengths: Lambda0 is left out.  With 10 +- 1 Angstrom the drawn number 1/2 gives 1/2 Angstrom, and negative numbers give neutrons
    that fly away from the target. *)
Theorem C92_simple_gauss_refuted : exists c square pmul, simple_init c = Ok (square, pmul) /\ i_gauss c = true /\ i_Lambda0 c = 10 /\ i_dLambda c = 1 /\
  (forall u1 u2 u3 u4 u5 g n, fraction u1 -> fraction u2 -> fraction u3 -> fraction u4 -> 0 < g -> exists r, simple_trace c square pmul u1 u2 u3 u4 u5 g n = Ok r /\ has_wavelength r g) /\
  (forall u1 u2 u3 u4 u5 g n, g < 0 -> exists r, simple_trace c square pmul u1 u2 u3 u4 u5 g n = Ok r /\ vz (r_pos r) = 0 /\ vz (r_vel r) < 0).
Proof.
  exists (example_simple 60 10 10 1 true), false, (1 * 10000 * (PI * (1 / 10) ^ 2)).
  assert (I : simple_init (example_simple 60 10 10 1 true) = Ok (false, 1 * 10000 * (PI * (1 / 10) ^ 2))) by (apply example_init; unfold band_refused; lra).
  split; [exact I|]. do 3 (split; [reflexivity|]). split.
  - intros u1 u2 u3 u4 u5 g n U1 U2 U3 U4 G. destruct (simple_gauss_wave _ _ _ u1 u2 u3 u4 u5 g n I U1 U2 U3 U4) as (r & T & _ & W); try (cbn; lra); try reflexivity.
    exists r. split; [exact T|]. cbn in W. now rewrite Rmult_1_r in W.
  - intros u1 u2 u3 u4 u5 g n G. apply (simple_backward (example_simple 60 10 10 1 true) false _ u1 u2 u3 u4 u5 g n (g * 1)); try (cbn; lra); reflexivity.
Qed.
Print Assumptions C92_simple_gauss_refuted.

(** Not so: parameters are checked.  As E0 has a default, a band of wavelengths that reaches below 0 is taken, and sends neutrons away from the target. *)
Theorem C92_simple_band_refuted : exists c square pmul, simple_init c = Ok (square, pmul) /\ i_gauss c = false /\ i_E0 c = 60 /\ i_dE c = 10 /\ i_Lambda0 c = 1 /\ i_dLambda c = 2 /\
  forall u1 u2 u3 u4 g n, exists r, simple_trace c square pmul u1 u2 u3 u4 0 g n = Ok r /\ vz (r_pos r) = 0 /\ vz (r_vel r) < 0.
Proof.
  exists (example_simple 60 10 1 2 false), false, (1 * 10000 * (PI * (1 / 10) ^ 2)).
  split; [apply example_init; unfold band_refused; lra|]. do 5 (split; [reflexivity|]).
  intros u1 u2 u3 u4 g n. apply (simple_backward (example_simple 60 10 1 2 false) false _ u1 u2 u3 u4 0 g n (1 + 2 * (2 * 0 - 1))); try (cbn; lra); reflexivity.
Qed.
Print Assumptions C92_simple_band_refuted.

(** Not so: the weight is the solid angle seen from where the neutron starts. *)
Theorem C92_simple_weight_refuted : exists c square pmul u1 u2 u3 u4 u5 g n r x y, simple_init c = Ok (square, pmul) /\ simple_trace c square pmul u1 u2 u3 u4 u5 g n = Ok r /\
  flies_to r (i_dist c) x y /\ Rabs x <= i_xw c / 2 /\ Rabs y <= i_yh c / 2 /\
  r_p r <> i_flux c * 10000 * (PI * i_radius c ^ 2) * (i_xw c * i_yh c * seen (vx (r_pos r)) (vy (r_pos r)) x y (i_dist c)).
Proof.
  set (c := example_simple 14 2 0 0 false). exists c, false, (1 * 10000 * (PI * (1 / 10) ^ 2)), 0, 1, (1 / 2), (1 / 2), (1 / 2), 0, some_ray.
  destruct (C92_simple c _ _ 0 1 (1 / 2) (1 / 2) (1 / 2) 0 some_ray C92_simple_init_ex) as (r & T & B & _); try (unfold fraction; lra); try (cbn; lra); try reflexivity.
  { cbn. rewrite Rabs_right; lra. }
  destruct B as (sq & area & Ea & _ & _ & _ & Dk & _ & Ax & Ay & F & P). exists r, (i_xw c * (1 - 2 * (1 / 2)) / 2), (i_yh c * (1 - 2 * (1 / 2)) / 2).
  split; [exact C92_simple_init_ex|]. split; [exact T|]. split; [exact F|]. split; [exact Ax|]. split; [exact Ay|]. rewrite P.
  destruct Ea as [(_ & _ & _ & _ & ->) | (Z & _)]; [|cbn in Z; lra]. destruct Dk as [_ Dk]; [cbn; lra|].
  cbn [i_radius i_dist i_xw i_yh i_flux c example_simple] in *. set (a := vx (r_pos r)) in *. set (b := vy (r_pos r)) in *. clearbody a b.
  replace (1 / 10 * (1 - 2 * (1 / 2)) / 2) with 0 by field. unfold seen.
  assert (D0 : distance 0 0 0 0 2 = 2) by (unfold distance; replace ((0 - 0) ^ 2 + (0 - 0) ^ 2 + 2 ^ 2) with (2 * 2) by ring; apply sqrt_square; lra).
  pose proof (distance2 a b 0 0 2) as D2. pose proof (distance_pos a b 0 0 2 ltac:(lra)) as Dp. set (q := distance a b 0 0 2) in *. clearbody q. rewrite D0.
  assert (Q : 2 < q) by nra. assert (Q3 : 8 < q ^ 3) by nra. pose proof PI_RGT_0 as Pp. intros E.
  assert (X : 2 / q ^ 3 < 2 / 2 ^ 3) by (unfold Rdiv; apply Rmult_lt_compat_l; [lra|]; apply Rinv_lt_contravar; lra).
  set (k := 1 * 10000 * (PI * (1 / 10) ^ 2) * (1 / 10 * (1 / 10))) in *. assert (K : 0 < k) by (subst k; nra).
  assert (E' : k * (2 / 2 ^ 3) = k * (2 / q ^ 3)) by (subst k; lra). apply Rmult_eq_reg_l in E'; lra.
Qed.
Print Assumptions C92_simple_weight_refuted.

(** Without a target area (xw = 0 or yh = 0, which is taken) the weight is that of all directions, but all neutrons fly to the disk with the radius dist at the distance dist. *)
Theorem C92_simple_no_target : forall c square pmul u1 u2 u3 u4 u5 g n, simple_init c = Ok (square, pmul) -> fraction u3 -> fraction u5 -> 0 < i_dist c -> i_xw c = 0 \/ i_yh c = 0 ->
  i_gauss c = false -> i_Lambda0 c = 0 -> Rabs (i_dE c) < i_E0 c ->
  exists r x y area, simple_trace c square pmul u1 u2 u3 u4 u5 g n = Ok r /\ emits_from c square area /\ flies_to r (i_dist c) x y /\ x ^ 2 + y ^ 2 <= i_dist c ^ 2 /\
    r_p r = i_flux c * 10000 * area * (4 * PI).
Proof.
  intros c square pmul u1 u2 u3 u4 u5 g n Ini U3 U5 D Z G L B. pose proof (band_abs (i_E0 c) (i_dE c) u5 U5) as K. set (E := i_E0 c + i_dE c * (2 * u5 - 1)) in *.
  destruct (energy_speed E ltac:(lra)) as (S1 & _ & _ & S3). apply (simple_no_target c square pmul u1 u2 u3 u4 u5 g n (sqrt E * SE2V)); try assumption; [|apply S3; lra].
  unfold simple_speed. rewrite (qt _ _ L), G. exact S1.
Qed.
Print Assumptions C92_simple_no_target.
Example C92_simple_no_target_ex : exists square pmul, simple_init (mkSimple (1 / 10) 0 0 2 0 0 14 2 0 0 1 false) = Ok (square, pmul) /\ Rabs 2 < 14.
Proof.
  exists false, (1 * 10000 * (PI * (1 / 10) ^ 2)). split; [|rewrite Rabs_right; lra]. apply simple_init_iff. exists (PI * (1 / 10) ^ 2). pose proof PI_RGT_0. cbn.
  split; [left; cbn; repeat split; lra|]. split; [nra|]. split; [reflexivity|]. repeat split; try lra. unfold band_refused. lra.
Qed.

(** A neutron of a Moderator starts on its disk and flies to the drawn point of the target; its energy is between E0 and E1; its time exceeds s with the probability
    exp(-s/tau), where tau is the delay at its energy; its weight is the solid angle of the target over 4 pi. *)
Theorem C92_moderator : forall c p u1 u2 u3 u4 u5 u6 n, moderator_init c = Ok p -> fraction u1 -> fraction u2 -> fraction u3 -> fraction u4 -> fraction u5 -> 0 < u6 <= 1 ->
  0 < o_xw c -> 0 < o_yh c -> 0 < o_t0 c -> 0 < o_E0 c -> 0 < o_E1 c ->
  let x := o_xw c * (1 - 2 * u3) / 2 in let y := o_yh c * (1 - 2 * u4) / 2 in let E := o_E0 c + (o_E1 c - o_E0 c) * u5 in
  exists r, moderator_trace c p u1 u2 u3 u4 u5 u6 n = Ok r /\ in_disk (o_radius c) r /\ vx (r_pos r) ^ 2 + vy (r_pos r) ^ 2 = o_radius c ^ 2 * u2 /\
    Rabs x <= o_xw c / 2 /\ Rabs y <= o_yh c / 2 /\ flies_to r (o_dist c) x y /\ has_energy r E /\ Rmin (o_E0 c) (o_E1 c) <= E <= Rmax (o_E0 c) (o_E1 c) /\
    r_p r = o_xw c * o_yh c * seen 0 0 x y (o_dist c) / (4 * PI) /\ r_s1 r = r_s1 n /\ r_s2 r = r_s2 n /\
    0 <= r_t r /\ forall s, s < r_t r <-> u6 < exp (- (1000000 * s / delay (o_t0 c) (o_Ec c) (o_gam c) E)).
Proof. exact moderator_run. Qed.
Print Assumptions C92_moderator.
Definition example_moderator : moderator := mkModerator (1 / 10) 10 100 2 (1 / 10) (1 / 10) (3715 / 100) 9 (391 / 10).
Example C92_moderator_ex : moderator_init example_moderator = Ok (/ (4 * PI)) /\ delay (3715 / 100) 9 (391 / 10) (481 / 10) = 3715 / 200.
Proof.
  split; [apply moderator_init_iff; cbn; repeat split; lra|]. unfold delay. destruct (Rlt_dec (481 / 10) 9) as [C|C]; [lra|]. replace ((481 / 10 - 9) / (391 / 10)) with 1 by field. field.
Qed.

(** It takes exactly these parameters; t0 is not looked at. *)
Theorem C92_moderator_init : forall c p, moderator_init c = Ok p <->
  p = / (4 * PI) /\ 0 <= o_radius c /\ 0 <= o_E0 c /\ 0 <= o_E1 c /\ 0 < o_dist c /\ 0 <= o_xw c /\ 0 <= o_yh c /\ 0 <= o_Ec c /\ 0 < o_gam c.
Proof. exact moderator_init_iff. Qed.
Print Assumptions C92_moderator_init.
Example C92_moderator_init_ex : moderator_init (mkModerator 1 1 1 0 1 1 1 1 1) <> Ok (/ (4 * PI)).
Proof. intros H. apply C92_moderator_init in H. cbn in H. lra. Qed.

(** Not so: every neutron has a time.  rand01() can be 0, and log 0 has no value. *)
Theorem C92_moderator_time_refuted : exists c p, moderator_init c = Ok p /\ forall u1 u2 u3 u4 u5 n, fraction u5 -> moderator_trace c p u1 u2 u3 u4 u5 0 n = Err ZeroDivisionError.
Proof.
  exists example_moderator, (/ (4 * PI)). split; [exact (proj1 C92_moderator_ex)|]. intros u1 u2 u3 u4 u5 n U5. apply moderator_zero; [exact (proj1 C92_moderator_ex)|exact U5|cbn; lra|cbn; lra].
Qed.
Print Assumptions C92_moderator_time_refuted.

(** A neutron of Source_div with uniform divergence starts at the drawn point of the rectangle, flies forward with angles drawn between -div and div degrees, and has
    the drawn energy, or the drawn wavelength when the energies are not usable. *)
Theorem C92_div : forall c p u1 u2 u3 u4 u5 g1 g2 n, div_init c = Ok p -> fraction u1 -> fraction u2 -> fraction u3 -> fraction u4 -> fraction u5 ->
  d_gauss c = false -> d_hdiv c < 90 -> d_vdiv c < 90 -> Rabs (d_dE c) < d_E0 c \/ Rabs (d_dLambda c) < d_Lambda0 c ->
  exists r, div_trace c p u1 u2 u3 u4 u5 g1 g2 n = Ok r /\ in_rectangle (d_width c) (d_height c) r /\ vx (r_pos r) = d_width c * (u1 - 1 / 2) /\ vy (r_pos r) = d_height c * (u2 - 1 / 2) /\
    r_t r = 0 /\ r_p r = 1 /\ r_s1 r = r_s1 n /\ r_s2 r = r_s2 n /\ 0 < vz (r_vel r) /\
    vx (r_vel r) = tan ((2 * u4 - 1) * d_hdiv c * (PI / 180)) * vz (r_vel r) /\ Rabs (vx (r_vel r)) <= tan (d_hdiv c * PI / 180) * vz (r_vel r) /\
    vy (r_vel r) = tan ((2 * u5 - 1) * d_vdiv c * (PI / 180)) * vz (r_vel r) /\ Rabs (vy (r_vel r)) <= tan (d_vdiv c * PI / 180) * vz (r_vel r) /\
    (Rabs (d_dE c) < d_E0 c -> has_energy r (d_E0 c + d_dE c * (2 * u3 - 1))) /\
    (~ Rabs (d_dE c) < d_E0 c -> has_wavelength' r (d_Lambda0 c + d_dLambda c * (2 * u3 - 1))).
Proof.
  intros c p u1 u2 u3 u4 u5 g1 g2 n Ini U1 U2 U3 U4 U5 G Dh Dv Bd. pose proof Ini as I2. apply div_init_iff in I2. destruct I2 as (_ & _ & _ & Ph & Pv & _).
  destruct (degrees_cos (d_hdiv c) u4 U4 ltac:(lra)) as [Ch Th]. destruct (degrees_cos (d_vdiv c) u5 U5 ltac:(lra)) as [Cv Tv].
  assert (V : exists v, div_speed c u3 = Ok v /\ 0 < v /\ (Rabs (d_dE c) < d_E0 c -> 0 <= d_E0 c + d_dE c * (2 * u3 - 1) /\ v ^ 2 = (4373949 / 10000) ^ 2 * (d_E0 c + d_dE c * (2 * u3 - 1))) /\
     (~ Rabs (d_dE c) < d_E0 c -> 0 < d_Lambda0 c + d_dLambda c * (2 * u3 - 1) /\ v ^ 2 = (3956036 / 1000 / (d_Lambda0 c + d_dLambda c * (2 * u3 - 1))) ^ 2)).
  { destruct (Rlt_dec (Rabs (d_dE c)) (d_E0 c)) as [B|B].
    - destruct (div_speed_energy c u3 U3 B) as (v & S & Vp & V2 & Ep). exists v. split; [exact S|]. split; [exact Vp|]. split; [intros _; split; [lra|exact V2]|intros N; contradiction].
    - destruct Bd as [Bd|Bd]; [contradiction|]. destruct (div_speed_wave c u3 U3 B Bd) as (v & S & Vp & V2 & Ep). exists v. split; [exact S|]. split; [exact Vp|]. split; [intros N; contradiction|intros _; split; [exact Ep|exact V2]]. }
  destruct V as (v & S & Vp & V1 & V2).
  destruct (div_any c p u1 u2 u3 u4 u5 g1 g2 n v ((2 * u4 - 1) * d_hdiv c * DEG2RAD) ((2 * u5 - 1) * d_vdiv c * DEG2RAD) Ini U1 U2 S Vp) as (r & T & In & Tm & P & S1 & S2 & Z & X & Y & Sp & X0 & Y0); try assumption; try (now rewrite G).
  exists r. split; [exact T|]. split; [exact In|]. split; [exact X0|]. split; [exact Y0|]. split; [exact Tm|]. split; [exact P|]. split; [exact S1|]. split; [exact S2|]. split; [exact Z|].
  split; [exact X|]. split; [rewrite X, Rabs_mult, (Rabs_right (vz (r_vel r))) by lra; apply Rmult_le_compat_r; [lra|exact Th]|].
  split; [exact Y|]. split; [rewrite Y, Rabs_mult, (Rabs_right (vz (r_vel r))) by lra; apply Rmult_le_compat_r; [lra|exact Tv]|].
  split; intros K; unfold has_energy, has_wavelength'; rewrite Sp; [exact (V1 K)|exact (V2 K)].
Qed.
Print Assumptions C92_div.
Example C92_div_ex : div_init (mkDiv (1 / 10) (1 / 10) 2 2 14 2 0 0 false) = Ok 1 /\ div_init (mkDiv (1 / 10) (1 / 10) 2 2 0 0 4 1 false) = Ok 1.
Proof. split; (apply div_init_iff; cbn; repeat split; try lra); (destruct (bad_band _ _ _ _) eqn:B; [apply bad_band_iff in B; lra|reflexivity]). Qed.

(** With Gaussian divergence the angles are drawn numbers times widths for which div degrees is the full width at half maximum; neutrons fly forward. *)
Theorem C92_div_gauss : forall c p, div_init c = Ok p -> d_gauss c = true -> 0 < d_hdiv c -> 0 < d_vdiv c ->
  exists sh sv, 0 < sh /\ 0 < sv /\ bell sh (d_hdiv c * PI / 180 / 2) = 1 / 2 /\ bell sv (d_vdiv c * PI / 180 / 2) = 1 / 2 /\
    forall u1 u2 u3 u4 u5 g1 g2 n, fraction u1 -> fraction u2 -> fraction u3 -> cos (g1 * sh) <> 0 -> cos (g2 * sv) <> 0 -> Rabs (d_dE c) < d_E0 c ->
      exists r, div_trace c p u1 u2 u3 u4 u5 g1 g2 n = Ok r /\ in_rectangle (d_width c) (d_height c) r /\ r_t r = 0 /\ r_p r = 1 /\ 0 < vz (r_vel r) /\
        vx (r_vel r) = tan (g1 * sh) * vz (r_vel r) /\ vy (r_vel r) = tan (g2 * sv) * vz (r_vel r) /\ has_energy r (d_E0 c + d_dE c * (2 * u3 - 1)).
Proof.
  intros c p Ini G Ph Pv. destruct (sigma_half _ Ph) as [Sh Bh]. destruct (sigma_half _ Pv) as [Sv Bv]. exists (sigma_of (d_hdiv c)), (sigma_of (d_vdiv c)).
  do 4 (split; [assumption|]). intros u1 u2 u3 u4 u5 g1 g2 n U1 U2 U3 C1 C2 B. destruct (div_speed_energy c u3 U3 B) as (v & S & Vp & V2 & Ep).
  destruct (div_any c p u1 u2 u3 u4 u5 g1 g2 n v (g1 * sigma_of (d_hdiv c)) (g2 * sigma_of (d_vdiv c)) Ini U1 U2 S Vp) as (r & T & In & Tm & P & _ & _ & Z & X & Y & Sp & _); try assumption; try (now rewrite G).
  exists r. split; [exact T|]. split; [exact In|]. split; [exact Tm|]. split; [exact P|]. split; [exact Z|]. split; [exact X|]. split; [exact Y|]. split; [lra|]. now rewrite Sp.
Qed.
Print Assumptions C92_div_gauss.
Example C92_div_gauss_ex : div_init (mkDiv (1 / 10) (1 / 10) 2 2 14 2 0 0 true) = Ok 1 /\ cos (0 * 5) <> 0.
Proof.
  split; [apply div_init_iff; cbn; repeat split; try lra; destruct (bad_band _ _ _ _) eqn:B; [apply bad_band_iff in B; lra|reflexivity]|]. rewrite Rmult_0_l, cos_0. lra.
Qed.

(** With energies alone or wavelengths alone a source that is taken has a usable band; with both it may have none, and stops the program at the first neutron. *)
Theorem C92_div_stops : (forall c p, div_init c = Ok p -> (d_Lambda0 c = 0 /\ d_dLambda c = 0 -> Rabs (d_dE c) < d_E0 c) /\ (d_E0 c = 0 /\ d_dE c = 0 -> Rabs (d_dLambda c) < d_Lambda0 c)) /\
  exists c p, div_init c = Ok p /\ forall u1 u2 u3 u4 u5 g1 g2 n, div_trace c p u1 u2 u3 u4 u5 g1 g2 n = Err Terminated.
Proof.
  split.
  - intros c p Ini. apply div_init_iff in Ini. destruct Ini as (_ & _ & _ & _ & _ & B).
    assert (N : ~ bad_band (d_E0 c) (d_dE c) (d_Lambda0 c) (d_dLambda c) = true) by (rewrite B; discriminate). rewrite bad_band_iff in N.
    split; intros [A A']; (rewrite Rabs_right; [apply Rnot_le_lt; intros K; apply N|apply Rle_ge, Rnot_lt_le; intros K; apply N]); [left|left|right|right]; tauto.
  - exists (mkDiv 1 1 1 1 1 2 1 2 false), 1. split; [apply div_init_iff; cbn; repeat split; try lra; destruct (bad_band _ _ _ _) eqn:B; [apply bad_band_iff in B; lra|reflexivity]|].
    intros u1 u2 u3 u4 u5 g1 g2 n. unfold div_trace. cbv zeta. rewrite div_speed_none; [reflexivity|cbn; rewrite Rabs_right; lra|cbn; rewrite Rabs_right; lra].
Qed.
Print Assumptions C92_div_stops.
Example C92_div_stops_ex : Rabs (d_dE (mkDiv (1 / 10) (1 / 10) 2 2 14 2 0 0 true)) < 14.
Proof. apply (proj1 C92_div_stops _ 1 (proj1 C92_div_gauss_ex)). cbn. lra. Qed.

(** A neutron of Source_Maxwell_3 starts at the drawn point of the rectangle and flies to the drawn point of the target with the drawn wavelength; its weight is
    multiplied with area, range of wavelengths, solid angle and the sum of three Maxwellians. *)
Theorem C92_maxwell : forall c w h range m u1 u2 u3 u4 u5 n, maxwell_init c = Ok (w, h, range, m) -> fraction u1 -> fraction u2 -> fraction u3 -> fraction u4 -> fraction u5 -> 0 < x_xw c -> 0 < x_yh c ->
  let x := x_xw c * (1 - 2 * u3) / 2 in let y := x_yh c * (1 - 2 * u4) / 2 in let l := x_low c + (x_high c - x_low c) * u5 in
  exists r M1 M2 M3, is_derive (maxwell_below (x_T1 c)) l M1 /\ is_derive (maxwell_below (x_T2 c)) l M2 /\ is_derive (maxwell_below (x_T3 c)) l M3 /\
    maxwell_trace c (w, h, range, m) u1 u2 u3 u4 u5 n = Ok r /\ in_rectangle w h r /\ vx (r_pos r) = w * (u1 - 1 / 2) /\ vy (r_pos r) = h * (u2 - 1 / 2) /\ r_t r = 0 /\ r_s1 r = r_s1 n /\ r_s2 r = r_s2 n /\
    Rabs x <= x_xw c / 2 /\ Rabs y <= x_yh c / 2 /\ flies_to r (x_dist c) x y /\ has_wavelength r l /\ Rmin (x_low c) (x_high c) <= l <= Rmax (x_low c) (x_high c) /\
    r_p r = r_p n * (w * h * 10000 * (x_high c - x_low c)) * (x_xw c * x_yh c * seen 0 0 x y (x_dist c)) * (x_I1 c * M1 + x_I2 c * M2 + x_I3 c * M3).
Proof.
  intros c w h range m u1 u2 u3 u4 u5 n Ini U1 U2 U3 U4 U5 W H x y l. destruct (maxwell_run c w h range m u1 u2 u3 u4 u5 n Ini U1 U2 U3 U4 U5 W H) as (r & K). cbv zeta in K.
  apply maxwell_init_iff in Ini. destruct Ini as (_ & _ & _ & _ & _ & _ & _ & _ & T1 & T2 & T3). assert (Lp : 0 < l) by (destruct K as (_ & _ & _ & _ & _ & _ & _ & _ & _ & _ & (Lp & _) & _); exact Lp).
  exists r, (maxwellian (x_T1 c) l), (maxwellian (x_T2 c) l), (maxwellian (x_T3 c) l). split; [now apply below_derive|]. split; [now apply below_derive|]. split; [now apply below_derive|]. exact K.
Qed.
Print Assumptions C92_maxwell.
Definition example_maxwell (lo hi : R) : maxwell := mkMaxwell (1 / 10) 0 0 lo hi 5 (1 / 10) (1 / 10) 300 300 300 1 0 0.
Lemma example_maxwell_init lo hi : 0 < lo -> 0 < hi -> maxwell_init (example_maxwell lo hi) = Ok (1 / 10, 1 / 10, hi - lo, 1 / 10 * (1 / 10) * 10000 * (hi - lo)).
Proof. intros A B. apply maxwell_init_iff. cbn. split; [left; repeat split; lra|]. repeat split; lra. Qed.
Example C92_maxwell_ex : maxwell_init (example_maxwell 1 4) = Ok (1 / 10, 1 / 10, 4 - 1, 1 / 10 * (1 / 10) * 10000 * (4 - 1)).
Proof. apply example_maxwell_init; lra. Qed.

(** Averaged over the drawn wavelengths the weight is that of the part of each Maxwellian between l_low and l_high. *)
Theorem C92_maxwell_mean : forall c w h range m u1 u2 u3 u4 n, maxwell_init c = Ok (w, h, range, m) -> fraction u1 -> fraction u2 -> fraction u3 -> fraction u4 -> 0 < x_xw c -> 0 < x_yh c ->
  let x := x_xw c * (1 - 2 * u3) / 2 in let y := x_yh c * (1 - 2 * u4) / 2 in let part := fun T => maxwell_below T (x_high c) - maxwell_below T (x_low c) in
  is_RInt (fun u => weight_of (maxwell_trace c (w, h, range, m) u1 u2 u3 u4 u n)) 0 1
    (r_p n * (w * h * 10000) * (x_xw c * x_yh c * seen 0 0 x y (x_dist c)) * (x_I1 c * part (x_T1 c) + x_I2 c * part (x_T2 c) + x_I3 c * part (x_T3 c))).
Proof. exact maxwell_mean. Qed.
Print Assumptions C92_maxwell_mean.
Example C92_maxwell_mean_ex : exists I, is_RInt (fun u => weight_of (maxwell_trace (example_maxwell 1 4) (1 / 10, 1 / 10, 4 - 1, 1 / 10 * (1 / 10) * 10000 * (4 - 1)) 0 0 0 0 u some_ray)) 0 1 I.
Proof. eexists. apply (C92_maxwell_mean (example_maxwell 1 4) _ _ _ _ 0 0 0 0 some_ray C92_maxwell_ex); try (unfold fraction; lra); cbn; lra. Qed.

(** The parts of a Maxwellian: they grow with the wavelength, from nothing to all. *)
Theorem C92_maxwell_share : forall T, 0 < T ->
  (forall l, 0 < l -> 0 < maxwell_below T l < 1) /\ (forall a b, 0 < a -> a < b -> maxwell_below T a < maxwell_below T b) /\
  (forall eps, 0 < eps -> exists L, 0 < L /\ forall l, L <= l -> 1 - eps < maxwell_below T l) /\
  (forall eps, 0 < eps -> exists L, 0 < L /\ forall l, 0 < l <= L -> maxwell_below T l < eps) /\
  (forall a b, 0 < a -> 0 < b -> is_RInt (maxwellian T) a b (maxwell_below T b - maxwell_below T a)).
Proof.
  intros T HT. split; [intros; now apply below_bounds|]. split; [intros; now apply below_increasing|]. split; [intros; now apply below_all|]. split; [intros; now apply below_none|]. intros. now apply maxwell_integral.
Qed.
Print Assumptions C92_maxwell_share.
Example C92_maxwell_share_ex : maxwell_below 300 1 < maxwell_below 300 2.
Proof. apply C92_maxwell_share; lra. Qed.

(** Not so: weights are not negative.  l_high below l_low is taken; every neutron then has a negative weight, the mark of absorbed neutrons. *)
Theorem C92_maxwell_sign_refuted : exists c st, maxwell_init c = Ok st /\ x_high c < x_low c /\
  forall u1 u2 u3 u4 u5 n, fraction u1 -> fraction u2 -> fraction u3 -> fraction u4 -> fraction u5 -> 0 < r_p n -> exists r, maxwell_trace c st u1 u2 u3 u4 u5 n = Ok r /\ r_p r < 0.
Proof.
  exists (example_maxwell 4 1), (1 / 10, 1 / 10, 1 - 4, 1 / 10 * (1 / 10) * 10000 * (1 - 4)). pose proof (example_maxwell_init 4 1 ltac:(lra) ltac:(lra)) as I. split; [exact I|]. split; [cbn; lra|].
  intros u1 u2 u3 u4 u5 n U1 U2 U3 U4 U5 Pn. destruct (maxwell_run _ _ _ _ _ u1 u2 u3 u4 u5 n I U1 U2 U3 U4 U5 ltac:(cbn; lra) ltac:(cbn; lra)) as (r & T & K). cbv zeta in K. exists r. split; [exact T|].
  destruct K as (_ & _ & _ & _ & _ & _ & _ & _ & _ & (Lp & _) & _ & P). cbn in Lp. rewrite P. cbn. set (l := 4 + (1 - 4) * u5) in *. clearbody l.
  assert (M : 0 < maxwellian 300 l). { unfold maxwellian. cbv zeta. pose proof (exp_pos (- (949 / 300) / (l * l))). apply Rdiv_lt_0_compat; [|repeat apply Rmult_lt_0_compat; assumption]. apply Rmult_lt_0_compat; [lra|assumption]. }
  assert (Sn : 0 < seen 0 0 (1 / 10 * (1 - 2 * u3) / 2) (1 / 10 * (1 - 2 * u4) / 2) 5) by (unfold seen; apply Rdiv_lt_0_compat; [lra|]; apply pow_lt, distance_pos; lra).
  set (s := seen _ _ _ _ _) in *. set (mm := maxwellian 300 l) in *. clearbody s mm. assert (0 < r_p n * s * mm) by (repeat apply Rmult_lt_0_compat; assumption). nra.
Qed.
Print Assumptions C92_maxwell_sign_refuted.
