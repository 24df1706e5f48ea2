(** Proofs for C40: the kernels one by one. *)
From Coq Require Import Reals Lra Lia.
From Verif Require Import Base RotModel RotSpec ChanModel ChanProofs ShapeModel ShapeSpec ShapeProofs ScatModel ScatSpec UnitModel UnitSpec UnitProofs KinModel KinSpec KinProofs.
Open Scope R_scope.

Lemma speed_v2k_pos v : v <> mkV 0 0 0 -> 0 < v2k * speed v.
Proof. intros N. apply Rmult_lt_0_compat; [apply v2k_pos|now apply speed_pos]. Qed.
Lemma divide_ok a b : b <> 0 -> divide a b = Ok (a / b).
Proof. intros H. unfold divide. destruct (Req_EM_T b 0); [contradiction|reflexivity]. Qed.
Lemma random_range u a b : 0 <= u <= 1 -> a <= b -> a <= random u a b <= b.
Proof. unfold random. intros. nra. Qed.
Lemma E2v_wave E kf : wave_at E kf -> exists vf, E2v E = Some vf /\ 0 <= vf /\ kf = v2k * vf /\ v2E vf = E.
Proof.
  intros (v & P & A & B). apply is_energy_iff in A. apply is_wavenumber_iff in B. subst. exists v. split; [now apply v2E_inv|]. repeat split; assumption.
Qed.

(** direction from any set of proper axes *)
Lemma directed axes e1 e2 e3 v kf Q phi : v <> mkV 0 0 0 -> axes = Some (e1, e2, e3) -> orthonormal (e1, e2, e3) -> along v e1 -> 0 < kf -> 0 <= Q -> triangle (v2k * speed v) kf Q ->
  exists d, turned_by axes ((v2k * speed v * (v2k * speed v) + kf * kf - Q * Q) / (2 * (v2k * speed v) * kf)) phi = Some d /\
    norm2 d = 1 /\ transfers v (vscale (kf * k2v) d) Q (v2E (speed v) - v2E (kf * k2v)).
Proof.
  intros N -> O A K QP T. pose proof (speed_v2k_pos v N) as KI. set (ki := v2k * speed v) in *.
  destruct (turned_by_some (Some (e1, e2, e3)) ((ki * ki + kf * kf - Q * Q) / (2 * ki * kf)) phi (cos_range ki kf Q KI K T)) as (sint & S0 & CS & E).
  rewrite E. destruct (turned (Some (e1, e2, e3)) _ sint phi) as [d|] eqn:D; [|discriminate]. exists d. split; [reflexivity|].
  destruct (turned_unit _ _ _ _ _ O CS D) as [U C]. cbn [fst] in C. split; [exact U|]. pose proof k2v_pos as KV.
  apply (transfer_of v e1 d (kf * k2v) _ Q N A U C); [nra|exact QP|]. fold ki. replace (v2k * (kf * k2v)) with kf by (rewrite <- (Rmult_1_r kf) at 1; rewrite <- k2v_v2k; ring). field. split; lra.
Qed.
Lemma energy_back kf E vf : kf = v2k * vf -> v2E vf = E -> v2E (kf * k2v) = E.
Proof. intros -> H. replace (v2k * vf * k2v) with vf; [exact H|]. rewrite <- (Rmult_1_r vf) at 1. rewrite <- k2v_v2k. ring. Qed.

Lemma swap_cost ki kf Q : 0 < ki -> 0 < kf -> (kf * kf + ki * ki - Q * Q) / 2 / kf / ki = (ki * ki + kf * kf - Q * Q) / (2 * ki * kf).
Proof. intros. field. split; lra. Qed.

(** SQE *)
Lemma sqe_refuse m Elo Ehi u1 u2 u3 ev kf : let Ei := v2E (speed (e_v ev)) in let ki := v2k * speed (e_v ev) in wave_at (Ei - random u1 Elo Ehi) kf ->
  Qhigh (m_Qmax m) ki kf < Qlow (m_Qmin m) ki kf -> sqe_body m Elo Ehi ki Ei u1 u2 u3 ev = Ok (as_is ev).
Proof.
  intros Ei ki W H. apply wave_at_iff in W. destruct W as [_ W]. unfold sqe_body. rewrite W. cbv zeta. unfold Qhigh, Qlow in H. now rewrite (proj2 (Rltb_t _ _) H).
Qed.
Lemma low_triangle lo hi ki kf Q : Qlow lo ki kf <= Q <= Qhigh hi ki kf -> triangle ki kf Q /\ lo <= Q <= hi.
Proof.
  unfold Qlow, Qhigh. intros [A B]. pose proof (Rmax_l lo (Rabs (ki - kf))). pose proof (Rmax_r lo (Rabs (ki - kf))). pose proof (Rmin_l hi (ki + kf)). pose proof (Rmin_r hi (ki + kf)). unfold triangle. lra.
Qed.
Lemma sqe_value m Elo Ehi u1 u2 u3 ev kf : let Ei := v2E (speed (e_v ev)) in let ki := v2k * speed (e_v ev) in let E := random u1 Elo Ehi in
  let lo := Qlow (m_Qmin m) ki kf in let hi := Qhigh (m_Qmax m) ki kf in let Q := random u2 lo hi in
  e_v ev <> mkV 0 0 0 -> wave_at (Ei - E) kf -> 0 < kf -> lo <= hi ->
  sqe_body m Elo Ehi ki Ei u1 u2 u3 ev = Ok (with_pv ev (e_p ev * (m_sqe m Q E * Q * (hi - lo) * (Ehi - Elo) / (2 * ki * ki)))
    (option_map (vscale (kf * k2v)) (turned_by (axes_fixed (1 / 10 ^ 10) (e_v ev)) ((ki * ki + kf * kf - Q * Q) / (2 * ki * kf)) (random u3 0 (2 * physics_pi))))).
Proof.
  intros Ei ki E lo hi Q N W K H. apply wave_at_iff in W. destruct W as [_ W]. pose proof (speed_v2k_pos _ N) as KI. fold ki in KI. unfold sqe_body. fold E. rewrite W. cbv zeta.
  change (Rmax (m_Qmin m) (Rabs (ki - kf))) with lo. change (Rmin (m_Qmax m) (ki + kf)) with hi. rewrite (proj2 (Rltb_f hi lo)) by lra. fold Q.
  rewrite divide_ok by nra. cbn [bind]. destruct (Req_EM_T kf 0) as [Z|_]; [lra|]. rewrite swap_cost by assumption. reflexivity.
Qed.
Lemma sqe_exact m Elo Ehi u1 u2 u3 ev kf : let Ei := v2E (speed (e_v ev)) in let ki := v2k * speed (e_v ev) in let E := random u1 Elo Ehi in
  let lo := Qlow (m_Qmin m) ki kf in let hi := Qhigh (m_Qmax m) ki kf in let Q := random u2 lo hi in
  e_v ev <> mkV 0 0 0 -> off_axis (1 / 10 ^ 10) (e_v ev) -> wave_at (Ei - E) kf -> 0 < kf -> lo <= hi -> 0 <= u2 <= 1 ->
  exists v', sqe_body m Elo Ehi ki Ei u1 u2 u3 ev = Ok (with_pv ev (e_p ev * (m_sqe m Q E * Q * (hi - lo) * (Ehi - Elo) / (2 * ki * ki))) (Some v')) /\
    transfers (e_v ev) v' Q E /\ m_Qmin m <= Q <= m_Qmax m.
Proof.
  intros Ei ki E lo hi Q N OFF W K H U. pose proof (speed_v2k_pos _ N) as KI. fold ki in KI.
  destruct (low_triangle (m_Qmin m) (m_Qmax m) ki kf Q (random_range u2 lo hi U H)) as [T R].
  destruct (axes_fixed_far (e_v ev) (1 / 10 ^ 10) N ltac:(lra) OFF) as (e1 & e2 & e3 & AX & O & AL).
  assert (QP : 0 <= Q) by (destruct T as [T _]; pose proof (Rabs_pos (ki - kf)); lra).
  destruct (directed (axes_fixed (1 / 10 ^ 10) (e_v ev)) e1 e2 e3 (e_v ev) kf Q (random u3 0 (2 * physics_pi)) N AX O AL K QP T) as (d & D & _ & TR). fold ki in D.
  exists (vscale (kf * k2v) d). split; [|split; [|exact R]].
  - etransitivity; [exact (sqe_value m Elo Ehi u1 u2 u3 ev kf N W K H)|]. cbv zeta. fold ki E lo hi Q. rewrite D. reflexivity.
  - destruct (E2v_wave _ _ W) as (vf & _ & _ & KF & VE). rewrite (energy_back kf _ vf KF VE) in TR. replace E with (v2E (speed (e_v ev)) - (Ei - E)) by (unfold Ei; ring). exact TR.
Qed.

(** near the axis *)
Lemma near_norm e1 cost sint phi d eps : norm2 e1 = 1 -> cost * cost + sint * sint = 1 -> Rabs (vx e1) <= eps -> turned (Some (e1, mkV 1 0 0, vcross e1 (mkV 1 0 0))) cost sint phi = Some d ->
  Rabs (norm2 d - 1) <= eps + eps * eps.
Proof.
  intros U CS X D. destruct (turned_near _ _ _ _ _ U CS D) as [-> _]. pose proof (Rabs_pos (vx e1)) as XP. pose proof (sin2_cos2 phi) as SC. unfold Rsqr in SC.
  set (x := vx e1) in *. set (c := cos phi) in *. set (s := sin phi) in *.
  assert (A1 : Rabs (2 * cost * sint) <= 1) by (pose proof (Rle_0_sqr (cost - sint)) as H1; pose proof (Rle_0_sqr (cost + sint)) as H2; unfold Rsqr in H1, H2; apply Rabs_le; split; lra). assert (A2 : Rabs c <= 1) by (pose proof (COS_bound phi); apply Rabs_le; unfold c; lra).
  assert (T1 : Rabs (2 * cost * sint * c * x) <= eps).
  { rewrite (Rabs_mult (2 * cost * sint * c)), (Rabs_mult (2 * cost * sint)). pose proof (Rabs_pos (2 * cost * sint)). pose proof (Rabs_pos c). set (A := Rabs (2 * cost * sint)) in *. set (C := Rabs c) in *. clearbody A C. assert (0 <= A * C <= 1) by nra. set (AC := A * C) in *. clearbody AC. clear - H1 X XP. nra. }
  assert (T2 : 0 <= sint * sint * (s * s) * (x * x) <= eps * eps).
  { assert (0 <= x * x <= eps * eps). { split; [nra|]. assert (Rabs x * Rabs x = x * x) by (rewrite <- Rabs_mult; apply Rabs_pos_eq; nra). nra. } assert (0 <= sint * sint <= 1) by (pose proof (Rle_0_sqr sint) as H1; pose proof (Rle_0_sqr cost) as H2; unfold Rsqr in H1, H2; lra). assert (0 <= s * s <= 1) by (pose proof (Rle_0_sqr s) as H1'; pose proof (Rle_0_sqr c) as H2'; unfold Rsqr in H1', H2'; lra). set (a := sint * sint) in *. set (b := s * s) in *. set (y := x * x) in *. clearbody a b y. assert (0 <= a * b <= 1) by nra. set (ab := a * b) in *. clearbody ab. clear - H H2. nra. }
  apply Rabs_le. destruct (Rabs_def2 (2 * cost * sint * c * x) (eps + 1) ltac:(lra)). assert (- eps <= 2 * cost * sint * c * x <= eps) by (unfold Rabs in T1; destruct (Rcase_abs _); lra). lra.
Qed.
Lemma unit_any v cost phi eps : v <> mkV 0 0 0 -> 0 <= eps < 1 / 2 -> -1 <= cost <= 1 -> exists d, turned_by (axes_fixed eps v) cost phi = Some d /\ Rabs (norm2 d - 1) <= eps + eps * eps /\ (off_axis eps v -> norm2 d = 1).
Proof.
  intros N EP C. destruct (turned_by_some (axes_fixed eps v) cost phi C) as (sint & S0 & CS & ->).
  destruct (ClassicalDedekindReals.sig_not_dec (off_axis eps v)) as [NN|NO].
  - assert (OFF : off_axis eps v). { unfold off_axis in *. destruct (Rlt_le_dec (eps * speed v) (Rabs (vx v))); [now left|]. destruct (Rlt_le_dec (eps * speed v) (Rabs (vy v))); [now right; left|]. destruct (Req_dec (vx v) 0); [now right; right|]. exfalso. apply NN. intros [H1|[H1|H1]]; lra. }
    destruct (axes_fixed_far v eps N EP OFF) as (e1 & e2 & e3 & AX & O & AL). rewrite AX. destruct (turned (Some (e1, e2, e3)) cost sint phi) as [d|] eqn:D; [|discriminate]. exists d. split; [reflexivity|].
    destruct (turned_unit _ _ _ _ _ O CS D) as [U _]. rewrite U. split; [rewrite Rminus_eq_0, Rabs_R0; nra|reflexivity].
  - destruct (axes_fixed_near v eps N EP NO) as (e1 & AX & [AL U] & X). rewrite AX. destruct (turned _ cost sint phi) as [d|] eqn:D; [|discriminate]. exists d. split; [reflexivity|]. split; [|contradiction].
    exact (near_norm e1 cost sint phi d eps U CS X D).
Qed.
Lemma energy_near d vf eps : 0 <= vf -> Rabs (norm2 d - 1) <= eps -> Rabs (v2E (speed (vscale vf d)) - v2E vf) <= eps * v2E vf.
Proof.
  intros V H. unfold v2E. rewrite speed_norm. replace (norm2 (vscale vf d)) with (vf * vf * norm2 d) by (unfold norm2, sdot, vscale; cbn; ring).
  replace (vf * vf * norm2 d * vsq2e - vf * vf * vsq2e) with ((norm2 d - 1) * (vf * vf * vsq2e)) by ring. pose proof vsq2e_pos. rewrite Rabs_mult, (Rabs_pos_eq (vf * vf * vsq2e)) by nra. apply Rmult_le_compat_r; [nra|exact H].
Qed.
Lemma sqe_near m Elo Ehi u1 u2 u3 ev kf : let Ei := v2E (speed (e_v ev)) in let ki := v2k * speed (e_v ev) in let E := random u1 Elo Ehi in
  let lo := Qlow (m_Qmin m) ki kf in let hi := Qhigh (m_Qmax m) ki kf in
  e_v ev <> mkV 0 0 0 -> wave_at (Ei - E) kf -> 0 < kf -> lo <= hi -> 0 <= u2 <= 1 ->
  exists p v', sqe_body m Elo Ehi ki Ei u1 u2 u3 ev = Ok (with_pv ev p (Some v')) /\ Rabs (v2E (speed v') - (Ei - E)) <= (1 / 10 ^ 10 + 1 / 10 ^ 10 * (1 / 10 ^ 10)) * (Ei - E).
Proof.
  intros Ei ki E lo hi N W K H U. pose proof (speed_v2k_pos _ N) as KI. fold ki in KI. set (Q := random u2 lo hi).
  destruct (low_triangle (m_Qmin m) (m_Qmax m) ki kf Q (random_range u2 lo hi U H)) as [T R].
  destruct (unit_any (e_v ev) ((ki * ki + kf * kf - Q * Q) / (2 * ki * kf)) (random u3 0 (2 * physics_pi)) (1 / 10 ^ 10) N ltac:(lra) (cos_range ki kf Q KI K T)) as (d & D & ND & _).
  eexists _, (vscale (kf * k2v) d). split.
  - etransitivity; [exact (sqe_value m Elo Ehi u1 u2 u3 ev kf N W K H)|]. cbv zeta. fold ki E lo hi Q. rewrite D. reflexivity.
  - destruct (E2v_wave _ _ W) as (vf & _ & VP & KF & VE). pose proof (energy_near d (kf * k2v) _ ltac:(pose proof k2v_pos; nra) ND) as B. now rewrite (energy_back kf _ vf KF VE) in B.
Qed.

(** SQ: the elastic case *)
Lemma sq_value f lo0 hi0 u1 u2 ev : let ki := v2k * speed (e_v ev) in let lo := Rmax lo0 0 in let hi := Rmin hi0 (ki + ki) in let Q := random u1 lo hi in
  e_v ev <> mkV 0 0 0 -> lo <= hi ->
  SQ_S f lo0 hi0 u1 u2 ev = Ok (with_pv ev (e_p ev * (f Q * Q * (hi - lo) / (2 * ki * ki)))
    (option_map (vscale (ki * k2v)) (turned_by (axes_fixed (1 / 10 ^ 10) (e_v ev)) ((ki * ki + ki * ki - Q * Q) / (2 * ki * ki)) (random u2 0 (2 * physics_pi))))).
Proof.
  intros ki lo hi Q N H. pose proof (speed_v2k_pos _ N) as KI. fold ki in KI. unfold SQ_S. change (vnorm (e_v ev)) with (speed (e_v ev)). fold ki. fold lo. fold hi. cbv zeta. rewrite (proj2 (Rltb_f hi lo)) by lra. fold Q.
  rewrite divide_ok by nra. cbn [bind]. rewrite swap_cost by assumption. reflexivity.
Qed.
Lemma sq_exact f lo0 hi0 u1 u2 ev : let ki := v2k * speed (e_v ev) in let lo := Rmax lo0 0 in let hi := Rmin hi0 (2 * ki) in let Q := random u1 lo hi in
  e_v ev <> mkV 0 0 0 -> off_axis (1 / 10 ^ 10) (e_v ev) -> lo <= hi -> 0 <= u1 <= 1 ->
  exists v', SQ_S f lo0 hi0 u1 u2 ev = Ok (with_pv ev (e_p ev * (f Q * Q * (hi - lo) / (2 * ki * ki))) (Some v')) /\ transfers (e_v ev) v' Q 0 /\ lo0 <= Q <= hi0.
Proof.
  intros ki lo hi Q N OFF H U. pose proof (speed_v2k_pos _ N) as KI. fold ki in KI. assert (DD : hi = Rmin hi0 (ki + ki)) by (unfold hi; f_equal; ring).
  pose proof (random_range u1 lo hi U H) as QR. fold Q in QR. assert (M1 : lo0 <= lo) by apply Rmax_l. assert (M2 : 0 <= lo) by apply Rmax_r. assert (M3 : hi <= hi0) by apply Rmin_l. assert (M4 : hi <= 2 * ki) by apply Rmin_r.
  assert (T : triangle ki ki Q). { unfold triangle. rewrite Rminus_eq_0, Rabs_R0. lra. }
  destruct (axes_fixed_far (e_v ev) (1 / 10 ^ 10) N ltac:(lra) OFF) as (e1 & e2 & e3 & AX & O & AL).
  destruct (directed (axes_fixed (1 / 10 ^ 10) (e_v ev)) e1 e2 e3 (e_v ev) ki Q (random u2 0 (2 * physics_pi)) N AX O AL KI ltac:(lra) T) as (d & D & _ & TR). fold ki in D.
  exists (vscale (ki * k2v) d). split; [|split; [|lra]].
  - pose proof (sq_value f lo0 hi0 u1 u2 ev N) as V. fold ki lo in V. rewrite <- DD in V. fold Q in V. rewrite (V H), D. reflexivity.
  - replace (v2E (speed (e_v ev)) - v2E (ki * k2v)) with 0 in TR; [exact TR|]. rewrite (energy_back ki (v2E (speed (e_v ev))) (speed (e_v ev)) eq_refl eq_refl). ring.
Qed.

(** isotropic directions *)
Lemma choose_unit u1 u2 : 0 <= u1 <= 1 -> let c := 2 * u1 - 1 in choose_direction u1 u2 = mkV (sqrt (1 - c * c) * cos (2 * PI * u2)) (sqrt (1 - c * c) * sin (2 * PI * u2)) c /\ norm2 (choose_direction u1 u2) = 1.
Proof.
  intros U c. assert (E : choose_direction u1 u2 = mkV (sqrt (1 - c * c) * cos (2 * PI * u2)) (sqrt (1 - c * c) * sin (2 * PI * u2)) c).
  { unfold choose_direction, random. replace (u1 * (1 - -1) + -1) with c by (unfold c; ring). replace (u2 * (2 * PI - 0) + 0) with (2 * PI * u2) by ring. rewrite sin_acos by (unfold c; lra). reflexivity. }
  split; [exact E|]. rewrite E. unfold norm2, sdot; cbn [vx vy vz]. pose proof (sin2_cos2 (2 * PI * u2)) as SC. unfold Rsqr in SC.
  assert (S : sqrt (1 - c * c) * sqrt (1 - c * c) = 1 - c * c) by (apply sqrt_sqrt; unfold c; nra). set (q := sqrt _) in *. set (a := cos _) in *. set (b := sin _) in *. replace (q * a * (q * a) + q * b * (q * b) + c * c) with (q * q * (b * b + a * a) + c * c) by ring. rewrite S, SC. ring.
Qed.
Lemma normalize_unit d : norm2 d = 1 -> normalize d = Some d.
Proof.
  intros U. unfold normalize. change (vnorm d) with (speed d). rewrite (speed_eq d 1) by lra. destruct (Req_EM_T 1 0) as [Z|_]; [exfalso; lra|]. f_equal. destruct d; unfold vscale; cbn. f_equal; field.
Qed.
Lemma constantE_some mE u1 u2 ev vf : 0 <= u1 <= 1 -> E2v (v2E (speed (e_v ev)) - mE) = Some vf -> ConstantE_S mE u1 u2 ev = Ok (with_pv ev (e_p ev) (Some (vscale vf (choose_direction u1 u2)))).
Proof.
  intros U E. unfold ConstantE_S. change (vnorm (e_v ev)) with (speed (e_v ev)). rewrite E. destruct (choose_unit u1 u2 U) as [_ N]. now rewrite (normalize_unit _ N).
Qed.

(** ConstantQE *)
Lemma constantQE_some Q mE u ev kf : let Ei := v2E (speed (e_v ev)) in let ki := v2k * speed (e_v ev) in
  e_v ev <> mkV 0 0 0 -> wave_at (Ei - mE) kf -> 0 < kf -> 0 <= Q -> triangle ki kf Q ->
  exists v', ConstantQE_S Q mE u ev = Ok (with_pv ev (e_p ev) (Some v')) /\ transfers (e_v ev) v' Q mE.
Proof.
  intros Ei ki N W K QP T. pose proof (speed_v2k_pos _ N) as KI. fold ki in KI. destruct (E2v_wave _ _ W) as (vf & EV & VP & KF & VE).
  destruct (axes_cross_ok (e_v ev) (1 / 10) N ltac:(lra)) as (e1 & e2 & e3 & AX & O & AL).
  destruct (directed (axes_cross (1 / 10) (e_v ev)) e1 e2 e3 (e_v ev) kf Q (random u 0 (PI * 2)) N AX O AL K QP T) as (d & D & _ & TR). fold ki in D.
  exists (vscale (kf * k2v) d). split.
  - unfold ConstantQE_S. change (vnorm (e_v ev)) with (speed (e_v ev)). fold Ei ki. rewrite EV. cbv zeta. rewrite <- KF. destruct (Req_EM_T (2 * ki * kf) 0) as [Z|_]; [nra|]. rewrite D. cbn [option_map]. assert (VV : vf = kf * k2v) by (rewrite KF; rewrite <- (Rmult_1_r vf) at 1; rewrite <- k2v_v2k; ring). now rewrite VV.
  - rewrite (energy_back kf _ vf KF VE) in TR. replace mE with (v2E (speed (e_v ev)) - (Ei - mE)) by (unfold Ei; ring). exact TR.
Qed.
Lemma constantQE_nan Q mE u ev : let Ei := v2E (speed (e_v ev)) in let ki := v2k * speed (e_v ev) in 0 <= Q ->
  (forall kf, wave_at (Ei - mE) kf -> 0 < kf -> e_v ev <> mkV 0 0 0 -> ~ triangle ki kf Q) -> ConstantQE_S Q mE u ev = Ok (with_pv ev (e_p ev) None).
Proof.
  intros Ei ki QP H. unfold ConstantQE_S. change (vnorm (e_v ev)) with (speed (e_v ev)). fold Ei ki. do 2 f_equal. destruct (Rlt_le_dec (Ei - mE) 0) as [L|L]; [now rewrite E2v_nan|].
  destruct (E2v_inv _ L) as (vf & EV & VP & VE). rewrite EV. cbv zeta. destruct (Req_EM_T _ 0) as [_|NZ]; [reflexivity|].
  assert (N : e_v ev <> mkV 0 0 0). { intros Z. apply NZ. unfold ki. rewrite Z. replace (speed (mkV 0 0 0)) with 0; [ring|]. unfold speed, norm2, sdot; cbn. replace (0 * 0 + 0 * 0 + 0 * 0) with 0 by ring. now rewrite sqrt_0. }
  pose proof (speed_v2k_pos _ N) as KI. fold ki in KI. assert (K : 0 < v2k * vf). { pose proof v2k_pos. destruct (Req_dec vf 0) as [->|]; [exfalso; apply NZ; ring|nra]. }
  assert (W : wave_at (Ei - mE) (v2k * vf)) by (exists vf; split; [exact VP|]; split; [apply is_energy_iff; congruence|now apply is_wavenumber_iff]).
  rewrite turned_by_nan; [reflexivity|]. intros C. apply (H _ W K N). now apply cos_out.
Qed.

(** passes of the loops *)
Lemma pass_ok v Q E kf : let ki := v2k * speed v in v <> mkV 0 0 0 -> wave_at (v2E (speed v) - E) kf -> 0 < kf -> triangle ki kf Q -> 
  eq_pass ki (v2E (speed v)) Q E = Some (mkPass Q (kf * k2v) kf (Some ((ki * ki + kf * kf - Q * Q) / (2 * ki * kf)))).
Proof.
  intros ki N W K T. pose proof (speed_v2k_pos _ N) as KI. fold ki in KI. destruct (E2v_wave _ _ W) as (vf & EV & VP & KF & VE). unfold eq_pass. rewrite EV. cbv zeta. rewrite <- KF.
  destruct (Req_EM_T (2 * ki * kf) 0) as [Z|_]; [nra|]. pose proof (cos_range ki kf Q KI K T) as C. rewrite (proj2 (Rltb_f 1 _)) by nra. do 2 f_equal. rewrite KF. rewrite <- (Rmult_1_r vf) at 1. rewrite <- k2v_v2k. ring.
Qed.
Lemma pass_bad v Q E : let ki := v2k * speed v in v <> mkV 0 0 0 -> 0 <= Q -> E <> v2E (speed v) -> (forall kf, wave_at (v2E (speed v) - E) kf -> ~ triangle ki kf Q) ->
  eq_pass ki (v2E (speed v)) Q E = None.
Proof.
  intros ki N QP NE H. pose proof (speed_v2k_pos _ N) as KI. fold ki in KI. unfold eq_pass. destruct (Rlt_le_dec (v2E (speed v) - E) 0) as [L|L]; [now rewrite E2v_nan|].
  destruct (E2v_inv _ L) as (vf & EV & VP & VE). rewrite EV. cbv zeta.
  assert (VF : 0 < vf). { destruct (Req_dec vf 0) as [->|]; [|lra]. unfold v2E at 1 in VE. lra. }
  assert (K : 0 < v2k * vf) by (pose proof v2k_pos; nra). destruct (Req_EM_T _ 0) as [Z|_]; [nra|].
  assert (W : wave_at (v2E (speed v) - E) (v2k * vf)) by (exists vf; split; [exact VP|]; split; [apply is_energy_iff; congruence|now apply is_wavenumber_iff]).
  rewrite (proj2 (Rltb_t 1 _)); [reflexivity|]. set (c := _ / _). destruct (Rlt_le_dec 1 (c * c)) as [|C]; [assumption|]. exfalso. apply (H _ W). apply cos_out; try assumption. fold c. split; nra.
Qed.
