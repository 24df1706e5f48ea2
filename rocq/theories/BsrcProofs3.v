From Coq Require Import Reals Lra Lia.
From Coquelicot Require Import Coquelicot.
From Verif Require Import Base RotModel ChanModel ShapeModel ChanProofs GridProofs McsModel OptModel BsrcModel BsrcSpec BsrcProofs.
Open Scope R_scope.

(** Moderator *)
Lemma moderator_init_iff c p : moderator_init c = Ok p <->
  p = / (4 * PI) /\ 0 <= o_radius c /\ 0 <= o_E0 c /\ 0 <= o_E1 c /\ 0 < o_dist c /\ 0 <= o_xw c /\ 0 <= o_yh c /\ 0 <= o_Ec c /\ 0 < o_gam c.
Proof.
  unfold moderator_init. split.
  - destruct (Rltb (o_radius c) 0) eqn:A; [discriminate|]. destruct (Rltb (o_E0 c) 0) eqn:B; [discriminate|]. destruct (Rltb (o_E1 c) 0) eqn:C; [discriminate|].
    destruct (Rleb (o_dist c) 0) eqn:D; [discriminate|]. destruct (Rltb (o_xw c) 0) eqn:E; [discriminate|]. destruct (Rltb (o_yh c) 0) eqn:F; [discriminate|].
    destruct (Rltb (o_Ec c) 0) eqn:G; [discriminate|]. destruct (Rleb (o_gam c) 0) eqn:H; [discriminate|]. cbn [orb]. intros K. injection K as <-.
    apply Rltb_f in A, B, C, E, F, G. apply Rleb_false in D, H. split; [unfold Rdiv; ring|]. tauto.
  - intros (P & A & B & C & D & E & F & G & H). rewrite (lf _ _ A), (lf _ _ B), (lf _ _ C), (lf _ _ E), (lf _ _ F), (lf _ _ G), (proj2 (Rleb_false _ _) D), (proj2 (Rleb_false _ _) H). cbn [orb]. rewrite P. f_equal. unfold Rdiv. ring.
Qed.
Lemma between E0 E1 u : fraction u -> Rmin E0 E1 <= E0 + (E1 - E0) * u <= Rmax E0 E1.
Proof. intros [A B]. unfold Rmin, Rmax. destruct (Rle_dec E0 E1); nra. Qed.
Lemma tauv_delay c E : 0 < o_gam c -> tauv c E = delay (o_t0 c) (o_Ec c) (o_gam c) E.
Proof.
  intros G. unfold tauv, delay. destruct (Rlt_dec E (o_Ec c)) as [L|L]; [rewrite (lt_ _ _ L)|rewrite lf by lra]; [reflexivity|]. cbv zeta. f_equal. ring.
Qed.
Lemma delay_pos t0 Ec gam E : 0 < t0 -> 0 < delay t0 Ec gam E.
Proof. intros T. unfold delay. destruct (Rlt_dec E Ec); [exact T|]. apply Rdiv_lt_0_compat; [exact T|]. pose proof (pow2_ge_0 ((E - Ec) / gam)). lra. Qed.
Lemma moderator_run c p u1 u2 u3 u4 u5 u6 n : moderator_init c = Ok p -> fraction u1 -> fraction u2 -> fraction u3 -> fraction u4 -> fraction u5 -> 0 < u6 <= 1 ->
  0 < o_xw c -> 0 < o_yh c -> 0 < o_t0 c -> 0 < o_E0 c -> 0 < o_E1 c ->
  let x := o_xw c * (1 - 2 * u3) / 2 in let y := o_yh c * (1 - 2 * u4) / 2 in let E := o_E0 c + (o_E1 c - o_E0 c) * u5 in
  exists r, moderator_trace c p u1 u2 u3 u4 u5 u6 n = Ok r /\ in_disk (o_radius c) r /\ vx (r_pos r) ^ 2 + vy (r_pos r) ^ 2 = o_radius c ^ 2 * u2 /\
    Rabs x <= o_xw c / 2 /\ Rabs y <= o_yh c / 2 /\ flies_to r (o_dist c) x y /\ has_energy r E /\ Rmin (o_E0 c) (o_E1 c) <= E <= Rmax (o_E0 c) (o_E1 c) /\
    r_p r = o_xw c * o_yh c * seen 0 0 x y (o_dist c) / (4 * PI) /\ r_s1 r = r_s1 n /\ r_s2 r = r_s2 n /\
    0 <= r_t r /\ forall s, s < r_t r <-> u6 < exp (- (1000000 * s / delay (o_t0 c) (o_Ec c) (o_gam c) E)).
Proof.
  intros Ini U1 U2 U3 U4 U5 U6 W H T E0 E1 x y E. apply moderator_init_iff in Ini. destruct Ini as (P & _ & _ & _ & D & _ & _ & _ & G).
  pose proof (between (o_E0 c) (o_E1 c) u5 U5) as Bt. fold E in Bt. assert (Ep : 0 < E) by (assert (0 < Rmin (o_E0 c) (o_E1 c)) by (unfold Rmin; destruct (Rle_dec _ _); assumption); lra).
  destruct (energy_speed E ltac:(lra)) as (S1 & S2 & _ & S3). specialize (S3 Ep).
  pose proof (disk_in u1 u2 (o_radius c) U2) as K. unfold moderator_trace. destruct (disk_point u1 u2 (o_radius c)) as [a b].
  rewrite (aim_eq u3 u4 _ _ _ D) by lra. fold x y. cbn [bind]. cbv zeta. fold E. rewrite S1. cbn [bind]. rewrite (launch_eq _ _ a b x y D). cbn [bind]. rewrite qf by lra.
  eexists. split; [reflexivity|]. cbn [r_t r_s1 r_s2 r_p r_pos vx vy vz].
  split; [split; [cbn [r_pos vx vy]; rewrite K; destruct U2; pose proof (pow2_ge_0 (o_radius c)); nra|reflexivity]|]. split; [exact K|].
  split; [apply target_in; [assumption|lra]|]. split; [apply target_in; [assumption|lra]|]. split; [now apply launch_flies|].
  split; [split; [lra|]; rewrite launch_speed by exact D; exact S2|]. split; [exact Bt|]. split; [rewrite P; unfold Rdiv; ring|]. do 2 (split; [reflexivity|]).
  rewrite (tauv_delay c E G). pose proof (delay_pos (o_t0 c) (o_Ec c) (o_gam c) E T) as Dp. set (tau := delay (o_t0 c) (o_Ec c) (o_gam c) E) in *. clearbody tau.
  assert (Ln : ln u6 <= 0). { destruct (Req_dec u6 1) as [Q|Q]; [rewrite Q, ln_1; lra|]. pose proof (ln_increasing u6 1 ltac:(lra) ltac:(lra)) as I. rewrite ln_1 in I. lra. }
  split; [assert (0 <= / 10 ^ 6) by (apply Rlt_le, Rinv_0_lt_compat; lra); assert (0 <= - tau * ln u6) by nra; nra|].
  intros s. assert (Q : s < - tau * ln u6 * / 10 ^ 6 <-> ln u6 < - (1000000 * s / tau)).
  { replace (10 ^ 6) with 1000000 by ring. split; intros L.
    - apply Rmult_lt_reg_l with tau; [exact Dp|]. replace (tau * - (1000000 * s / tau)) with (- (1000000 * s)) by (field; lra). lra.
    - apply (Rmult_lt_compat_l tau) in L; [|exact Dp]. replace (tau * - (1000000 * s / tau)) with (- (1000000 * s)) in L by (field; lra). lra. }
  rewrite Q. split; intros L; [rewrite <- (exp_ln u6) at 1 by lra; now apply exp_increasing|].
  rewrite <- (ln_exp (- (1000000 * s / tau))). apply ln_increasing; lra.
Qed.
Lemma moderator_zero c p u1 u2 u3 u4 u5 n : moderator_init c = Ok p -> fraction u5 -> 0 < o_xw c -> 0 < o_yh c -> moderator_trace c p u1 u2 u3 u4 u5 0 n = Err ZeroDivisionError.
Proof.
  intros Ini U5 W H. apply moderator_init_iff in Ini. destruct Ini as (_ & _ & A & B & D & _).
  unfold moderator_trace. destruct (disk_point u1 u2 (o_radius c)) as [a b]. rewrite (aim_eq u3 u4 _ _ _ D) by lra. cbn [bind]. cbv zeta.
  destruct (energy_speed (o_E0 c + (o_E1 c - o_E0 c) * u5)) as (S1 & _); [destruct U5; nra|]. rewrite S1. cbn [bind]. rewrite launch_eq by exact D. cbn [bind]. now rewrite qt.
Qed.

(** Source_div *)
Lemma div_init_iff c p : div_init c = Ok p <-> p = 1 /\ 0 <= d_width c /\ 0 <= d_height c /\ 0 <= d_hdiv c /\ 0 <= d_vdiv c /\ bad_band (d_E0 c) (d_dE c) (d_Lambda0 c) (d_dLambda c) = false.
Proof.
  unfold div_init, ncount. split.
  - destruct (Rltb (d_width c) 0) eqn:A; [discriminate|]. destruct (Rltb (d_height c) 0) eqn:B; [discriminate|]. destruct (Rltb (d_hdiv c) 0) eqn:C; [discriminate|].
    destruct (Rltb (d_vdiv c) 0) eqn:D; [discriminate|]. destruct (bad_band _ _ _ _); [discriminate|]. cbn [orb]. intros K. injection K as <-. apply Rltb_f in A, B, C, D. split; [field|]. tauto.
  - intros (P & A & B & C & D & E). rewrite (lf _ _ A), (lf _ _ B), (lf _ _ C), (lf _ _ D), E. cbn [orb]. rewrite P. f_equal. field.
Qed.
Lemma band_abs' E0 dE u : fraction u -> E0 - Rabs dE <= E0 + dE * (2 * u - 1) <= E0 + Rabs dE.
Proof. intros [A B]. pose proof (Rabs_pos dE). assert (K : Rabs (dE * (2 * u - 1)) <= Rabs dE) by (rewrite Rabs_mult; assert (Rabs (2 * u - 1) <= 1) by (apply Rabs_le; lra); nra). pose proof (Rle_abs (dE * (2 * u - 1))). pose proof (Rle_abs (- (dE * (2 * u - 1)))) as Z. rewrite Rabs_Ropp in Z. lra. Qed.
Lemma div_speed_energy c u : fraction u -> Rabs (d_dE c) < d_E0 c -> let E := d_E0 c + d_dE c * (2 * u - 1) in
  exists v, div_speed c u = Ok v /\ 0 < v /\ v ^ 2 = (4373949 / 10000) ^ 2 * E /\ 0 < E.
Proof.
  intros U B E. pose proof (Rabs_pos (d_dE c)). pose proof (band_abs' (d_E0 c) (d_dE c) u U) as K. fold E in K. destruct (energy_speed E ltac:(lra)) as (S1 & S2 & _ & S3).
  exists (sqrt E * SE2V). unfold div_speed. rewrite (lt_ 0 (d_E0 c)), (lt_ _ _ B) by lra. cbn [andb]. split; [exact S1|]. split; [apply S3; lra|]. split; [exact S2|lra].
Qed.
Lemma div_speed_wave c u : fraction u -> ~ Rabs (d_dE c) < d_E0 c -> Rabs (d_dLambda c) < d_Lambda0 c -> let l := d_Lambda0 c + d_dLambda c * (2 * u - 1) in
  exists v, div_speed c u = Ok v /\ 0 < v /\ v ^ 2 = (3956036 / 1000 / l) ^ 2 /\ 0 < l.
Proof.
  intros U N B l. pose proof (Rabs_pos (d_dLambda c)). pose proof (band_abs' (d_Lambda0 c) (d_dLambda c) u U) as K. fold l in K.
  exists (3956036 / 1000 / l). unfold div_speed, randpm1. rewrite (lf (Rabs (d_dE c)) (d_E0 c)) by lra. rewrite Bool.andb_false_r, (lt_ 0 (d_Lambda0 c)), (lt_ _ _ B) by lra. cbn [andb]. fold l.
  rewrite qf by lra. split; [reflexivity|]. split; [apply Rdiv_lt_0_compat; lra|]. split; [reflexivity|lra].
Qed.
Lemma div_speed_none c u : ~ Rabs (d_dE c) < d_E0 c -> ~ Rabs (d_dLambda c) < d_Lambda0 c -> div_speed c u = Err Terminated.
Proof. intros A B. unfold div_speed. rewrite (lf (Rabs (d_dE c)) (d_E0 c)), (lf (Rabs (d_dLambda c)) (d_Lambda0 c)) by lra. now rewrite !Bool.andb_false_r. Qed.
Lemma div_any c p u1 u2 u3 u4 u5 g1 g2 n v h w : div_init c = Ok p -> fraction u1 -> fraction u2 -> div_speed c u3 = Ok v -> 0 < v ->
  h = (if d_gauss c then g1 * sigma_of (d_hdiv c) else (2 * u4 - 1) * d_hdiv c * DEG2RAD) -> w = (if d_gauss c then g2 * sigma_of (d_vdiv c) else (2 * u5 - 1) * d_vdiv c * DEG2RAD) ->
  cos h <> 0 -> cos w <> 0 ->
  exists r, div_trace c p u1 u2 u3 u4 u5 g1 g2 n = Ok r /\ in_rectangle (d_width c) (d_height c) r /\ r_t r = 0 /\ r_p r = 1 /\ r_s1 r = r_s1 n /\ r_s2 r = r_s2 n /\
    0 < vz (r_vel r) /\ vx (r_vel r) = tan h * vz (r_vel r) /\ vy (r_vel r) = tan w * vz (r_vel r) /\ velocity2 r = v ^ 2 /\
    vx (r_pos r) = d_width c * (u1 - 1 / 2) /\ vy (r_pos r) = d_height c * (u2 - 1 / 2).
Proof.
  intros Ini U1 U2 V Vp Eh Ew Ch Cw. apply div_init_iff in Ini. destruct Ini as (P & W & H & _). unfold div_trace. cbv zeta. rewrite V. cbn [bind]. unfold randpm1. rewrite <- Eh, <- Ew. unfold tangent.
  rewrite (qf _ _ Ch), (qf _ _ Cw). cbn [bind]. fold (tan h) (tan w). set (th := tan h). set (tw := tan w).
  eexists. split; [reflexivity|]. cbn [r_t r_s1 r_s2 r_p r_pos r_vel vx vy vz].
  assert (Q : 0 < 1 + tw * tw + th * th) by nra. pose proof (sqrt_lt_R0 _ Q) as R. pose proof (sqrt_sqrt _ (Rlt_le _ _ Q)) as RR. set (q := sqrt (1 + tw * tw + th * th)) in *. clearbody q.
  split; [split; [|split; [|reflexivity]]; cbn [r_pos vx vy]; fold (randpm1 u1); fold (randpm1 u2); now apply centred|]. split; [reflexivity|]. split; [exact P|]. do 2 (split; [reflexivity|]).
  split; [now apply Rdiv_lt_0_compat|]. do 2 (split; [reflexivity|]). split.
  - unfold velocity2. cbn [r_vel vx vy vz]. replace ((th * (v / q)) ^ 2 + (tw * (v / q)) ^ 2 + (v / q) ^ 2) with (v ^ 2 * (1 + tw * tw + th * th) / (q * q)) by (field; lra). rewrite <- RR. field. lra.
  - split; field.
Qed.
Lemma degrees_cos d u : fraction u -> 0 <= d < 90 -> let h := (2 * u - 1) * d * DEG2RAD in cos h <> 0 /\ Rabs (tan h) <= tan (d * PI / 180).
Proof.
  intros [A B] [D1 D2] h. pose proof PI_RGT_0 as Pp. set (m := d * PI / 180). assert (M : 0 <= m < PI / 2) by (subst m; nra).
  assert (Hm : - m <= h <= m). { subst h m. unfold DEG2RAD. assert (0 <= d * (PI / 180)) by nra. replace ((2 * u - 1) * d * (PI / 180)) with ((2 * u - 1) * (d * (PI / 180))) by ring. replace (d * PI / 180) with (d * (PI / 180)) by field. split; nra. }
  split; [assert (0 < cos h) by (apply cos_gt_0; lra); lra|].
  assert (Mono : forall a b, - (PI / 2) < a -> a <= b -> b < PI / 2 -> tan a <= tan b).
  { intros a b L1 L2 L3. destruct (Req_dec a b) as [-> |Ne]; [lra|]. apply Rlt_le, tan_increasing; lra. }
  apply Rabs_le. split; [rewrite <- tan_neg; apply Mono; lra|apply Mono; lra].
Qed.
Lemma sigma_half d : 0 < d -> 0 < sigma_of d /\ bell (sigma_of d) (d * PI / 180 / 2) = 1 / 2.
Proof.
  intros D. pose proof PI_RGT_0 as Pp. assert (L : 0 < ln 2) by (rewrite <- ln_1; apply ln_increasing; lra).
  assert (S : 0 < sqrt (2 * ln 2)) by (apply sqrt_lt_R0; lra). assert (SS : sqrt (2 * ln 2) * sqrt (2 * ln 2) = 2 * ln 2) by (apply sqrt_sqrt; lra).
  assert (Q : 0 < sigma_of d) by (unfold sigma_of, DEG2RAD; apply Rdiv_lt_0_compat; [|lra]; assert (0 < PI / 180) by lra; nra). split; [exact Q|].
  unfold bell, sigma_of, DEG2RAD. set (s := sqrt (2 * ln 2)) in *. clearbody s.
  replace ((d * PI / 180 / 2) ^ 2 / (2 * (PI / 180 * d / (2 * s)) ^ 2)) with (s * s / 2) by (field; lra). rewrite SS.
  replace (2 * ln 2 / 2) with (ln 2) by field. rewrite exp_Ropp, exp_ln by lra. lra.
Qed.

(** Source_Maxwell_3 *)
Lemma maxwell_init_iff c w h range m : maxwell_init c = Ok (w, h, range, m) <->
  ((0 < x_size c /\ w = x_size c /\ h = x_size c) \/ (x_size c <= 0 /\ w = x_width c /\ h = x_height c)) /\ range = x_high c - x_low c /\ m = w * h * 10000 * range /\
  0 <= w /\ 0 <= h /\ 0 < x_low c /\ 0 < x_high c /\ 0 < x_dist c /\ 0 < x_T1 c /\ 0 < x_T2 c /\ 0 < x_T3 c.
Proof.
  unfold maxwell_init, ncount.
  assert (X : forall a b, (let l_range := x_high c - x_low c in let w_mult := a * b * 10 ^ 4 * l_range * (1 / 1) in
    if (Rltb a 0 || Rltb b 0 || Rleb (x_low c) 0 || Rleb (x_high c) 0 || Rleb (x_dist c) 0 || Rleb (x_T1 c) 0 || Rleb (x_T2 c) 0 || Rleb (x_T3 c) 0)%bool then Err Terminated else Ok (a, b, l_range, w_mult)) = Ok (w, h, range, m) <->
    (w = a /\ h = b) /\ range = x_high c - x_low c /\ m = w * h * 10000 * range /\ 0 <= w /\ 0 <= h /\ 0 < x_low c /\ 0 < x_high c /\ 0 < x_dist c /\ 0 < x_T1 c /\ 0 < x_T2 c /\ 0 < x_T3 c).
  { intros a b. cbv zeta. split.
    - destruct (Rltb a 0) eqn:A; [discriminate|]. destruct (Rltb b 0) eqn:B; [discriminate|]. destruct (Rleb (x_low c) 0) eqn:C; [discriminate|]. destruct (Rleb (x_high c) 0) eqn:D; [discriminate|].
      destruct (Rleb (x_dist c) 0) eqn:E; [discriminate|]. destruct (Rleb (x_T1 c) 0) eqn:F; [discriminate|]. destruct (Rleb (x_T2 c) 0) eqn:G; [discriminate|]. destruct (Rleb (x_T3 c) 0) eqn:H; [discriminate|].
      cbn [orb]. intros K. injection K as <- <- <- <-. apply Rltb_f in A, B. apply Rleb_false in C, D, E, F, G, H. repeat split; try assumption. field.
    - intros ((-> & ->) & -> & -> & A & B & C & D & E & F & G & H). rewrite (lf _ _ A), (lf _ _ B), (proj2 (Rleb_false _ _) C), (proj2 (Rleb_false _ _) D), (proj2 (Rleb_false _ _) E), (proj2 (Rleb_false _ _) F), (proj2 (Rleb_false _ _) G), (proj2 (Rleb_false _ _) H).
      cbn [orb]. do 2 f_equal. field. }
  destruct (Rltb 0 (x_size c)) eqn:S; rewrite X; [apply Rltb_t in S|apply Rltb_f in S]; split.
  - intros ((A & B) & K). split; [left; tauto|exact K].
  - intros ([(A & B & C) | (A & _)] & K); [|lra]. split; [tauto|exact K].
  - intros ((A & B) & K). split; [right; tauto|exact K].
  - intros ([(A & _) | (A & B & C)] & K); [lra|]. split; [tauto|exact K].
Qed.
Lemma below_derive T l : 0 < T -> 0 < l -> is_derive (maxwell_below T) l (maxwellian T l).
Proof.
  intros HT Hl. unfold maxwell_below, maxwellian. set (a := 949 / T). clearbody a. cbv zeta. auto_derive.
  - repeat split; try apply Rgt_not_eq; nra.
  - replace (l * (l * 1)) with (l * l) by ring. unfold Rdiv. set (e := exp (- a * / (l * l))). clearbody e. field. lra.
Qed.
Lemma maxwellian_continuous T l : 0 < T -> 0 < l -> continuous (maxwellian T) l.
Proof.
  intros HT Hl. apply (@ex_derive_continuous R_AbsRing R_NormedModule (maxwellian T) l). unfold maxwellian. cbv zeta. auto_derive. repeat split; try apply Rgt_not_eq; try nra. repeat apply Rmult_lt_0_compat; assumption.
Qed.
Lemma maxwell_integral T a b : 0 < T -> 0 < a -> 0 < b -> is_RInt (maxwellian T) a b (maxwell_below T b - maxwell_below T a).
Proof.
  intros HT A B. assert (P : forall x, Rmin a b <= x <= Rmax a b -> 0 < x) by (intros x [X _]; assert (0 < Rmin a b) by (unfold Rmin; destruct (Rle_dec a b); assumption); lra).
  apply (is_RInt_derive (maxwell_below T) (maxwellian T)); intros x X; specialize (P x X); [now apply below_derive|now apply maxwellian_continuous].
Qed.
