(** Proofs for C75. *)
From Coq Require Import Reals Lra Psatz.
From Coquelicot Require Import Coquelicot.
From Verif Require Import Base RotModel RotSpec RotProofs ChanModel ChanProofs ShapeModel ShapeProofs ScatSpec UnitModel UnitSpec UnitProofs KinProofs CohProofs GridProofs SrcModel SrcSpec CollProofs3.
Open Scope R_scope.

Lemma nth_map_seq {A} (f : nat -> A) n i : (i < n)%nat -> nth_error (map f (seq 0 n)) i = Some (f i).
Proof. intros H. rewrite (map_nth_error f i (seq 0 n) (d := i)); [reflexivity|]. rewrite (nth_error_nth' _ 0%nat) by (rewrite seq_length; exact H). now rewrite seq_nth. Qed.
Lemma Reqb_0 : Reqb 0 0 = true. Proof. now apply Reqb_t. Qed.

Lemma point s n ux uy z : s_dx s = 0 -> s_dy s = 0 -> s_dE s = 0 -> source_process s n ux uy z = Ok (repeat (Some (s_neutron s)) n).
Proof. intros A B C. unfold source_process. rewrite A, B, C, !Reqb_0. reflexivity. Qed.
Lemma displaced_from s ux uy : 0 <= ux < 1 -> 0 <= uy < 1 -> from_area (s_dx s) (s_dy s) (s_neutron s) (displaced s ux uy).
Proof.
  intros X Y. unfold from_area, displaced. cbn [e_r e_v e_s1 e_s2 e_t e_p vx vy vz].
  assert (K : forall a u d, 0 <= u < 1 -> Rabs (a + (u - 1 / 2) * d - a) <= Rabs d / 2).
  { intros a u d U. replace (a + (u - 1 / 2) * d - a) with ((u - 1 / 2) * d) by ring. rewrite Rabs_mult. assert (Rabs (u - 1 / 2) <= 1 / 2) by (apply Rabs_le; lra). pose proof (Rabs_pos d). nra. }
  repeat split; try reflexivity; now apply K.
Qed.
Lemma area s n ux uy z : s_dE s = 0 -> (s_dx s <> 0 \/ s_dy s <> 0) -> source_process s n ux uy z = Ok (map (fun i => Some (displaced s (ux i) (uy i))) (seq 0 n)).
Proof.
  intros E D. unfold source_process. rewrite E, Reqb_0. assert (F : (Reqb (s_dx s) 0 && Reqb (s_dy s) 0 = false)%bool).
  { destruct D as [D|D]; apply Reqb_f in D; rewrite D; [reflexivity|apply Bool.andb_false_r]. }
  rewrite F. reflexivity.
Qed.
Lemma wide s n ux uy z : 0 < s_dE s -> source_process s n ux uy z = Ok (map (fun i => spread s (z i) (displaced s (ux i) (uy i))) (seq 0 n)).
Proof. intros D. unfold source_process. rewrite (proj2 (Reqb_f (s_dE s) 0)) by lra. rewrite Bool.andb_false_r. now rewrite (proj2 (Rltb_f _ _)) by lra. Qed.
Lemma negative s n ux uy z : s_dE s < 0 -> source_process s n ux uy z = Err ValueError.
Proof. intros D. unfold source_process. rewrite (proj2 (Reqb_f (s_dE s) 0)) by lra. rewrite Bool.andb_false_r. now rewrite (proj2 (Rltb_t _ _)) by lra. Qed.
(** positions are even over the width *)
Lemma even_x x0 dx a : 0 < dx -> x0 - dx / 2 <= a <= x0 + dx / 2 -> mean1 (fun u => if Rleb (x0 + (u - 1 / 2) * dx) a then 1 else 0) ((a - (x0 - dx / 2)) / dx).
Proof.
  intros D A. unfold mean1. set (p := (a - (x0 - dx / 2)) / dx). assert (P : p * dx = a - (x0 - dx / 2)) by (unfold p; field; lra). assert (P01 : 0 <= p <= 1) by (split; nra).
  apply (int_eq _ (p * 1 + (1 - p) * 0 + (1 - 1) * 0)); [|ring]. apply int_steps; try lra; intros u U.
  - rewrite (proj2 (Rleb_true _ _)) by nra. reflexivity.
  - rewrite (proj2 (Rleb_false _ _)) by nra. reflexivity.
  - exfalso. lra.
Qed.

(** energies *)
Lemma speed_times f x y z : 0 <= f -> speed (mkV (x * f) (y * f) (z * f)) = f * speed (mkV x y z).
Proof.
  intros F. unfold speed. replace (norm2 (mkV (x * f) (y * f) (z * f))) with (f * f * norm2 (mkV x y z)) by (unfold norm2, sdot; cbn; ring).
  rewrite sqrt_mult by (unfold norm2, sdot; cbn; nra). now rewrite sqrt_square.
Qed.
Lemma v2E_scale f v : v2E (f * v) = f * f * v2E v. Proof. unfold v2E. ring. Qed.
Lemma energy_pos v : v <> mkV 0 0 0 -> 0 < v2E (speed v).
Proof. intros N. apply speed_pos in N. unfold v2E. pose proof vsq2e_pos. apply Rmult_lt_0_compat; [nra|assumption]. Qed.
Lemma energy_zero : v2E (vnorm (mkV 0 0 0)) = 0.
Proof. rewrite vnorm_speed. unfold speed. replace (norm2 (mkV 0 0 0)) with 0 by (unfold norm2, sdot; cbn; ring). rewrite sqrt_0. unfold v2E. ring. Qed.
Lemma spread_some s z ev : e_v ev = e_v (s_neutron s) -> e_v ev <> mkV 0 0 0 -> 0 < v2E (speed (e_v ev)) + s_dE s * z ->
  exists out, spread s z ev = Some out /\ but_velocity ev out /\ same_way (e_v ev) (e_v out) /\ is_energy (v2E (speed (e_v ev)) + s_dE s * z) (speed (e_v out)).
Proof.
  intros V N P. pose proof (energy_pos _ N) as E0. unfold spread. rewrite <- V, vnorm_speed. rewrite (proj2 (Reqb_f _ 0)) by lra. unfold fsqrt.
  set (E := v2E (speed (e_v ev))) in *. set (x := E + s_dE s * z) in *. assert (Q : 0 < x / E) by (apply Rdiv_lt_0_compat; lra). rewrite (proj2 (Rltb_f _ _)) by lra.
  eexists. split; [reflexivity|]. assert (S : 0 < sqrt (x / E)) by now apply sqrt_lt_R0. split; [repeat split|]. split.
  - exists (sqrt (x / E)). split; [exact S|]. cbn [RotModel.e_v vx vy vz]. repeat split; ring.
  - cbn [RotModel.e_v]. rewrite is_energy_iff, speed_times, v2E_scale by lra. rewrite sqrt_sqrt by lra. replace (mkV (vx (e_v ev)) (vy (e_v ev)) (vz (e_v ev))) with (e_v ev) by (destruct (e_v ev); reflexivity). fold E. field. lra.
Qed.
Lemma spread_none s z ev : e_v (s_neutron s) <> mkV 0 0 0 -> v2E (speed (e_v (s_neutron s))) + s_dE s * z < 0 -> spread s z ev = None.
Proof.
  intros N P. pose proof (energy_pos _ N) as E0. unfold spread. rewrite vnorm_speed. destruct (Reqb _ 0); [reflexivity|]. unfold fsqrt. set (E := v2E _) in *. set (x := E + _) in *.
  rewrite (proj2 (Rltb_t (x / E) 0)); [reflexivity|]. apply Rmult_lt_reg_r with E; [exact E0|]. unfold Rdiv. rewrite Rmult_assoc, Rinv_l by lra. lra.
Qed.
Lemma spread_rest s z ev : e_v (s_neutron s) = mkV 0 0 0 -> spread s z ev = None.
Proof. intros V. unfold spread. rewrite V, energy_zero, Reqb_0. reflexivity. Qed.

(** the pyre component *)
Lemma pyre_velocity_energy energy v : 0 < energy -> v <> mkV 0 0 0 -> exists w, pyre_velocity energy v = Some w /\ same_way v w /\ is_energy energy (speed w).
Proof.
  intros P N. pose proof (speed_pos _ N) as S. unfold pyre_velocity. rewrite (proj2 (Reqb_f _ _)) by lra. rewrite py_e2v_E2v. destruct (E2v_inv energy ltac:(lra)) as (s & -> & S0 & SE).
  rewrite vnorm_speed, (proj2 (Reqb_f _ _)) by lra. assert (SP : 0 < s). { destruct S0 as [S0|<-]; [exact S0|]. unfold v2E in SE. lra. }
  assert (F : 0 < s / speed v) by (apply Rdiv_lt_0_compat; lra). eexists. split; [reflexivity|]. split.
  - exists (s / speed v). split; [exact F|]. cbn [vx vy vz]. repeat split; ring.
  - rewrite is_energy_iff, speed_times by lra. replace (mkV (vx v) (vy v) (vz v)) with v by (destruct v; reflexivity). replace (s / speed v * speed v) with s by (field; lra). now symmetry.
Qed.

(** the cone *)
Lemma e2k_of E v : py_e2v E = Some v -> py_e2k E = Some (v2k * v).
Proof. intros H. unfold py_e2k. rewrite H. reflexivity. Qed.
Lemma e2v_cases E : (0 <= E /\ exists v, py_e2v E = Some v /\ 0 <= v /\ is_energy E v) \/ (E < 0 /\ py_e2v E = None).
Proof.
  destruct (Rle_lt_dec 0 E) as [H|H]; [left|right; split; [exact H|rewrite py_e2v_E2v; now apply E2v_nan]]. split; [exact H|]. rewrite py_e2v_E2v. destruct (E2v_inv E H) as (v & A & B & C). exists v. rewrite is_energy_iff. auto.
Qed.
Lemma energy_unique E a b : 0 <= a -> 0 <= b -> is_energy E a -> is_energy E b -> a = b.
Proof. rewrite !is_energy_iff. intros A B C D. apply v2E_inj; congruence. Qed.
Lemma energy_sign E v : is_energy E v -> 0 <= E. Proof. rewrite is_energy_iff. intros ->. apply v2E_nonneg. Qed.
Lemma cone_cases Q E Ei L1 :
  (exists vi vf, 0 < vi /\ 0 < vf /\ is_energy Ei vi /\ is_energy (Ei - E) vf /\ Rabs (v2k * vf - v2k * vi) < Q /\ Q < v2k * vi + v2k * vf /\
     let ki := v2k * vi in let kf := v2k * vf in let theta := acos ((ki * ki + kf * kf - Q * Q) / 2 / ki / kf) in new_cone_source Q E Ei L1 = Ok (mkConeS (vf * cos theta) (vf * sin theta) (L1 / vi))) \/
  (new_cone_source Q E Ei L1 = Err AssertionError /\ ~ allowed Q E Ei).
Proof.
  unfold new_cone_source. destruct (e2v_cases Ei) as [(I & vi & EI & VI & HI)|[I EI]].
  2:{ right. unfold py_e2k at 1. rewrite EI. cbn [option_map]. split; [reflexivity|]. intros (a & b & ki & kf & _ & _ & A & _). apply energy_sign in A. lra. }
  destruct (e2v_cases (Ei - E)) as [(F & vf & EF & VF & HF)|[F EF]].
  2:{ right. rewrite (e2k_of _ _ EI). unfold py_e2k. rewrite EF. cbn [option_map]. split; [reflexivity|]. intros (a & b & ki & kf & _ & _ & _ & A & _). apply energy_sign in A. lra. }
  rewrite (e2k_of _ _ EI), (e2k_of _ _ EF), EF, EI. pose proof v2k_pos as KP.
  destruct (Rltb (Rabs (v2k * vf - v2k * vi)) Q && Rltb Q (v2k * vi + v2k * vf))%bool eqn:T.
  - left. apply andb_prop in T. destruct T as [T1 T2]. apply Rltb_t in T1, T2. exists vi, vf.
    assert (P1 : 0 < vi). { destruct VI as [VI|<-]; [exact VI|]. rewrite Rmult_0_r, Rminus_0_r, Rplus_0_l, Rabs_right in * by nra. lra. }
    assert (P2 : 0 < vf). { destruct VF as [VF|<-]; [exact VF|]. rewrite Rmult_0_r in *. rewrite Rminus_0_l, Rabs_Ropp, Rabs_right in T1 by nra. lra. }
    repeat split; try assumption. 
  - right. split; [reflexivity|]. intros (a & b & ki & kf & A0 & B0 & A & B & C & D & Q1 & Q2 & Q3). apply is_wavenumber_iff in C, D. subst ki kf.
    rewrite (energy_unique _ _ _ A0 VI A HI) in *. rewrite (energy_unique _ _ _ B0 VF B HF) in *.
    rewrite (proj2 (Rltb_t _ _)) in T by (apply Rabs_def1; lra). rewrite (proj2 (Rltb_t _ _)) in T by lra. discriminate.
Qed.
Section cone.
Variables ki kf Q : R.
Hypothesis (KI : 0 < ki) (KF : 0 < kf) (T1 : Rabs (kf - ki) < Q) (T2 : Q < ki + kf).
Let cost := (ki * ki + kf * kf - Q * Q) / 2 / ki / kf.
Lemma cost_eq : 2 * ki * kf * cost = ki * ki + kf * kf - Q * Q.
Proof using KI KF. unfold cost. field. lra. Qed.
Lemma cost_range : -1 < cost < 1.
Proof using KI KF T1 T2.
  pose proof cost_eq as E. apply Rabs_def2 in T1. assert (P : 0 < ki * kf) by nra. split.
  - apply Rmult_lt_reg_l with (2 * ki * kf); [nra|]. rewrite E. nra.
  - apply Rmult_lt_reg_l with (2 * ki * kf); [nra|]. rewrite E. nra.
Qed.
Lemma cost_cos : cos (acos cost) = cost /\ 0 < sin (acos cost) /\ sin (acos cost) * sin (acos cost) = 1 - cost * cost.
Proof using KI KF T1 T2.
  pose proof cost_range as R. assert (C : cos (acos cost) = cost) by (apply cos_acos; lra). split; [exact C|]. pose proof (sin2_cos2 (acos cost)) as SC. unfold Rsqr in SC. rewrite C in SC.
  assert (0 <= sin (acos cost)) by (apply sin_ge_0; apply acos_bound). split; [|lra]. destruct H as [H|H]; [exact H|]. rewrite <- H in SC. nra.
Qed.
End cone.
Lemma sqr_speed v : speed v * speed v = vx v * vx v + vy v * vy v + vz v * vz v.
Proof. unfold speed. rewrite sqrt_sqrt; [reflexivity|]. unfold norm2, sdot. nra. Qed.
Lemma cone_each Q E Ei L1 s n u i : new_cone_source Q E Ei L1 = Ok s -> (i < n)%nat -> exists ev vi, nth_error (cone_process s n u) i = Some ev /\ transfers Q E Ei (e_v ev) /\
  e_r ev = mkV 0 0 0 /\ e_p ev = 1 /\ 0 < vi /\ is_energy Ei vi /\ e_t ev * vi = L1 /\ e_s1 ev = 0 /\ e_s2 ev = 1.
Proof.
  intros N I. destruct (cone_cases Q E Ei L1) as [(vi & vf & VI & VF & HI & HF & T1 & T2 & EQ)|[EQ _]]; [|congruence]. cbv zeta in EQ. set (ki := v2k * vi) in *. set (kf := v2k * vf) in *. pose proof v2k_pos as KP.
  assert (KI : 0 < ki) by (unfold ki; nra). assert (KF : 0 < kf) by (unfold kf; nra). destruct (cost_cos ki kf Q KI KF T1 T2) as (C & S & S2). pose proof (cost_eq ki kf Q KI KF) as CE. set (cost := (ki * ki + kf * kf - Q * Q) / 2 / ki / kf) in *. set (theta := acos cost) in *.
  assert (ES : s = mkConeS (vf * cos theta) (vf * sin theta) (L1 / vi)) by congruence. rewrite ES. clear EQ N ES. unfold cone_process. rewrite nth_map_seq by exact I. eexists. exists vi. split; [reflexivity|]. cbn [cs_vp cs_vz cs_t0 RotModel.e_v RotModel.e_r RotModel.e_p RotModel.e_t RotModel.e_s1 RotModel.e_s2].
  set (phi := u i * 2 * PI). pose proof (sin2_cos2 phi) as SC. unfold Rsqr in SC.
  split; [|repeat split; try assumption; field; lra].
  assert (Q0 : 0 <= Q) by (pose proof (Rabs_pos (kf - ki)); lra). split.
  - apply is_energy_iff in HF. apply is_energy_iff. rewrite HF. f_equal. assert (SP : speed (mkV (vf * sin theta * cos phi) (vf * sin theta * sin phi) (vf * cos theta)) * speed (mkV (vf * sin theta * cos phi) (vf * sin theta * sin phi) (vf * cos theta)) = vf * vf).
    { rewrite sqr_speed. cbn [vx vy vz]. replace (vf * sin theta * cos phi * (vf * sin theta * cos phi) + vf * sin theta * sin phi * (vf * sin theta * sin phi) + vf * cos theta * (vf * cos theta)) with (vf * vf * (sin theta * sin theta * (sin phi * sin phi + cos phi * cos phi) + cos theta * cos theta)) by ring.
      rewrite SC, S2, C. ring. }
    symmetry. apply Rsqr_inj; [apply sqrt_pos|lra|exact SP].
  - exists vi, ki, (v2k * (vf * sin theta * cos phi)), (v2k * (vf * sin theta * sin phi)), (v2k * (vf * cos theta)). cbn [vx vy vz]. rewrite !is_wavenumber_iff.
    repeat split; try reflexivity; try assumption; try lra.
    replace ((v2k * (vf * sin theta * cos phi)) ^ 2 + (v2k * (vf * sin theta * sin phi)) ^ 2 + (ki - v2k * (vf * cos theta)) ^ 2) with (kf * kf * (sin theta * sin theta * (sin phi * sin phi + cos phi * cos phi)) + kf * kf * (cos theta * cos theta) + ki * ki - 2 * ki * kf * cos theta) by (unfold kf; ring).
    rewrite SC, S2, C. lra.
Qed.
(** every such neutron comes out for some random number *)
Lemma cone_all Q E Ei L1 s v : new_cone_source Q E Ei L1 = Ok s -> transfers Q E Ei v -> exists x, 0 <= x < 1 /\ exists ev, cone_process s 1 (fun _ => x) = [ev] /\ e_v ev = v.
Proof.
  intros N (HV & vi' & ki' & kx & ky & kz & V0 & HI' & W1 & W2 & W3 & W4 & Q0 & QQ). destruct (cone_cases Q E Ei L1) as [(vi & vf & VI & VF & HI & HF & T1 & T2 & EQ)|[EQ _]]; [|congruence]. cbv zeta in EQ. set (ki := v2k * vi) in *. set (kf := v2k * vf) in *. pose proof v2k_pos as KP.
  assert (KI : 0 < ki) by (unfold ki; nra). assert (KF : 0 < kf) by (unfold kf; nra). destruct (cost_cos ki kf Q KI KF T1 T2) as (C & S & S2). pose proof (cost_eq ki kf Q KI KF) as CE. set (cost := (ki * ki + kf * kf - Q * Q) / 2 / ki / kf) in *. set (theta := acos cost) in *.
  assert (ES : s = mkConeS (vf * cos theta) (vf * sin theta) (L1 / vi)) by congruence. rewrite ES. clear EQ N ES.
  assert (vi' = vi) by (apply (energy_unique Ei); try assumption; lra). subst vi'. rewrite is_wavenumber_iff in W1, W2, W3, W4. fold ki in W1. subst ki' kx ky kz.
  assert (SV : speed v = vf) by (apply (energy_unique (Ei - E)); try assumption; [apply sqrt_pos|lra]). pose proof (sqr_speed v) as SQ. rewrite SV in SQ.
  assert (VZ : vz v = vf * cos theta).
  { rewrite C. apply Rmult_eq_reg_l with (2 * ki * v2k); [|nra]. transitivity (2 * ki * kf * cost); [|unfold kf; ring]. rewrite CE.
    assert (kf * kf = v2k * v2k * (vx v * vx v + vy v * vy v + vz v * vz v)) by (rewrite <- SQ; unfold kf; ring). nra. }
  set (rho := vf * sin theta). assert (RP : 0 < rho) by (unfold rho; nra).
  assert (XY : vx v * vx v + vy v * vy v = rho * rho). { unfold rho. replace (vf * sin theta * (vf * sin theta)) with (vf * vf * (sin theta * sin theta)) by ring. rewrite S2. rewrite VZ, C in SQ. nra. }
  assert (NZ : vx v <> 0 \/ vy v <> 0). { destruct (Req_dec (vx v) 0) as [Z|Z]; [right; intros Z'; rewrite Z, Z' in XY; nra|now left]. }
  destruct (arctan2_range (vy v) (vx v) NZ) as (R & AY & AX). rewrite XY, sqrt_square in AY, AX by lra. set (t := arctan2 (vy v) (vx v)) in *. pose proof PI_RGT_0 as PP.
  assert (OUT : forall x, cos (x * 2 * PI) = cos t -> sin (x * 2 * PI) = sin t -> exists ev, cone_process (mkConeS (vf * cos theta) rho (L1 / vi)) 1 (fun _ => x) = [ev] /\ e_v ev = v).
  { intros x CX SX. unfold cone_process. cbn [seq map cs_vp cs_vz cs_t0]. eexists. split; [reflexivity|]. cbn [RotModel.e_v]. rewrite CX, SX, <- AX, <- AY, <- VZ. destruct v; reflexivity. }
  destruct (Rle_lt_dec 0 t) as [H|H].
  - exists (t / (2 * PI)). split; [|apply OUT; f_equal; field; lra]. split; [apply Rmult_le_pos; [exact H|left; apply Rinv_0_lt_compat; lra]|]. apply Rmult_lt_reg_r with (2 * PI); [lra|]. unfold Rdiv. rewrite Rmult_assoc, Rinv_l by lra. lra.
  - exists ((t + 2 * PI) / (2 * PI)). split; [|apply OUT].
    + split; [apply Rmult_le_pos; [lra|left; apply Rinv_0_lt_compat; lra]|]. apply Rmult_lt_reg_r with (2 * PI); [lra|]. unfold Rdiv. rewrite Rmult_assoc, Rinv_l by lra. lra.
    + replace ((t + 2 * PI) / (2 * PI) * 2 * PI) with (t + 2 * PI) by (field; lra). rewrite cos_plus, cos_2PI, sin_2PI. ring.
    + replace ((t + 2 * PI) / (2 * PI) * 2 * PI) with (t + 2 * PI) by (field; lra). rewrite sin_plus, cos_2PI, sin_2PI. ring.
Qed.
Lemma cone_accepted Q E Ei L1 : allowed Q E Ei <-> exists s, new_cone_source Q E Ei L1 = Ok s.
Proof.
  destruct (cone_cases Q E Ei L1) as [(vi & vf & VI & VF & HI & HF & T1 & T2 & EQ)|[EQ N]].
  - split; [intros _; eexists; exact EQ|]. intros _. apply Rabs_def2 in T1. exists vi, vf, (v2k * vi), (v2k * vf). rewrite !is_wavenumber_iff. repeat split; try assumption; lra.
  - split; [contradiction|]. intros (s & X). congruence.
Qed.
Lemma cone_refused Q E Ei L1 : ~ allowed Q E Ei -> new_cone_source Q E Ei L1 = Err AssertionError.
Proof. intros N. destruct (cone_cases Q E Ei L1) as [(vi & vf & VI & VF & HI & HF & T1 & T2 & EQ)|[EQ _]]; [|exact EQ]. exfalso. apply N. apply (cone_accepted Q E Ei L1). eexists. exact EQ. Qed.
