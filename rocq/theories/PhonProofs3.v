From Coq Require Import Reals Lra Psatz.
From Coquelicot Require Import Coquelicot.
From Verif Require Import Base RotModel RotSpec DetModel ChanModel ShapeModel ShapeSpec ScatModel ScatSpec UnitModel UnitSpec UnitProofs KinModel KinSpec GridModel PhonModel GridSpec PhonSpec ChanProofs GridProofs KinProofs KinProofs2 KinProofs3 KinProofs4 PhonProofs PhonProofs2.
Open Scope R_scope.

(** ** Thermal factor *)
Lemma exp_gt1 x : 0 < x -> 1 < exp x.
Proof. intros H. rewrite <- exp_0. now apply exp_increasing. Qed.
Lemma arg_pos E T : 0 < E -> 0 < T -> 0 < E * (11605 / 1000) / T.
Proof. intros A B. apply Rmult_lt_0_compat; [lra|now apply Rinv_0_lt_compat]. Qed.
Lemma bose_some E T : 0 < E -> 0 < T -> exists n, BoseEinsteinDistribution E T = Some n /\ occupation E T n /\ 0 < n.
Proof.
  intros A B. unfold BoseEinsteinDistribution. rewrite (proj2 (Rltb_f _ _)) by lra. rewrite (proj2 (Reqb_f _ _)) by lra.
  replace (E / (T * Kelvin2meV)) with (E * (11605 / 1000) / T) by (unfold Kelvin2meV; field; lra).
  pose proof (exp_gt1 _ (arg_pos E T A B)) as X. rewrite (proj2 (Reqb_f _ _)) by lra. eexists. split; [reflexivity|]. split; [unfold occupation; field; lra|].
  apply Rdiv_lt_0_compat; lra.
Qed.
Lemma occupation_unique E T n m : occupation E T n -> occupation E T m -> n = m.
Proof.
  unfold occupation. intros A B. set (x := exp _ - 1) in *. assert (x <> 0) by (intros Z; rewrite Z in A; lra). apply Rmult_eq_reg_r with x; [lra|assumption].
Qed.
Theorem factor_thermal : forall E T, E <> 0 -> 0 < T -> exists f, phonon_bose_factor E T = Some f /\ thermal E T f.
Proof.
  intros E T N P. unfold phonon_bose_factor. rewrite (proj2 (Reqb_f _ _) N). destruct (Rdichotomy _ _ N) as [L|L].
  - rewrite Rabs_left by exact L. destruct (bose_some (- E) T ltac:(lra) P) as (n & -> & O & _). cbn [option_map]. rewrite (proj2 (Rltb_f _ _)) by lra.
    exists n. split; [f_equal; ring|]. right. split; [exact L|exact O].
  - rewrite Rabs_right by lra. destruct (bose_some E T ltac:(lra) P) as (n & -> & O & _). cbn [option_map]. rewrite (proj2 (Rltb_t _ _)) by lra.
    exists (1 + n). split; [reflexivity|]. left. split; [exact L|]. exists n. split; [exact O|ring].
Qed.
Lemma thermal_unique E T f g : thermal E T f -> thermal E T g -> f = g.
Proof.
  intros [[P (n & A & ->)]|[P A]] [[Q (m & B & ->)]|[Q B]]; try lra; [f_equal|]; eapply occupation_unique; eassumption.
Qed.
(** creation and destruction *)
Lemma thermal_balance E T f g : 0 < E -> 0 < T -> thermal E T f -> thermal (- E) T g -> f = exp (E * (11605 / 1000) / T) * g /\ f = g + 1 /\ 0 < g.
Proof.
  intros P Q [[_ (n & A & ->)]|[L _]] [[L' _]|[_ B]]; try lra. rewrite Ropp_involutive in B. pose proof (occupation_unique _ _ _ _ A B) as <-.
  unfold occupation in A. pose proof (exp_gt1 _ (arg_pos E T P Q)) as X. set (x := exp _) in *. split; [lra|]. split; [reflexivity|].
  apply Rmult_lt_reg_r with (x - 1); [lra|]. lra.
Qed.
Theorem factor_cold : forall E, (0 < E -> phonon_bose_factor E 0 = Some 1) /\ (E < 0 -> phonon_bose_factor E 0 = Some 0).
Proof.
  intros E. unfold phonon_bose_factor, BoseEinsteinDistribution. split; intros H.
  - rewrite (proj2 (Reqb_f _ _)) by lra. rewrite Rabs_right by lra. rewrite (proj2 (Rltb_f E 0)) by lra. rewrite (proj2 (Reqb_t 0 0)) by lra. rewrite (proj2 (Reqb_f _ _)) by lra.
    cbn. rewrite (proj2 (Rltb_t _ _)) by lra. f_equal. ring.
  - rewrite (proj2 (Reqb_f _ _)) by lra. rewrite Rabs_left by lra. rewrite (proj2 (Rltb_f (- E) 0)) by lra. rewrite (proj2 (Reqb_t 0 0)) by lra. rewrite (proj2 (Reqb_f _ _)) by lra.
    cbn. rewrite (proj2 (Rltb_f _ _)) by lra. f_equal. ring.
Qed.
Theorem factor_zero : forall T, phonon_bose_factor 0 T = Some 1.
Proof. intros T. unfold phonon_bose_factor. rewrite (proj2 (Reqb_t 0 0)) by reflexivity. reflexivity. Qed.
(** near zero energy the factor has no bound *)
Theorem factor_unbounded : forall T M, 0 < T -> exists E f, 0 < E /\ phonon_bose_factor E T = Some f /\ M < f.
Proof.
  intros T M P. set (m := Rmax M 1). assert (M1 : M <= m) by apply Rmax_l. assert (M2 : 1 <= m) by apply Rmax_r.
  set (E := ln (1 + / m) * T / (11605 / 1000)). assert (IM : 0 < / m) by (apply Rinv_0_lt_compat; lra).
  assert (L : 0 < ln (1 + / m)) by (rewrite <- ln_1; apply ln_increasing; lra).
  assert (EP : 0 < E) by (unfold E; apply Rmult_lt_0_compat; [nra|lra]).
  destruct (factor_thermal E T ltac:(lra) P) as (f & F & TH). exists E, f. split; [exact EP|]. split; [exact F|].
  destruct TH as [[_ (n & O & ->)]|[? _]]; [|lra]. unfold occupation in O. replace (E * (11605 / 1000) / T) with (ln (1 + / m)) in O by (unfold E; field; lra).
  rewrite exp_ln in O by lra. assert (n = m); [|lra]. replace (1 + / m - 1) with (/ m) in O by ring. apply Rmult_eq_reg_r with (/ m); [|lra]. rewrite O. symmetry. apply Rinv_r. lra.
Qed.

(** ** Incoherent one-phonon scattering *)
Lemma pick_random u Ei emax : 0 <= emax ->
  pick_Ef u Ei emax = (random u (Rmax 0 (Ei - emax)) (Ei + emax), Ei + emax - Rmax 0 (Ei - emax)).
Proof.
  intros P. unfold pick_Ef. destruct (Rltb emax Ei) eqn:L.
  - apply Rltb_t in L. rewrite Rmax_right by lra. unfold random. f_equal; ring.
  - apply Rltb_f in L. rewrite Rmax_left by lra. unfold random. f_equal; ring.
Qed.
Definition ii_value (k : ii_kernel) (omega ER : R) : R :=
  if Rltb (Rabs omega) (1 / 100 * ii_emax k) then ii_sod k * (ii_T k * Kelvin2meV) * ER
  else match phonon_bose_factor omega (ii_T k) with Some f => f * ii_Z k (Rabs omega) * (ER / Rabs omega) | None => 0 end.
Lemma ii_value_spec k omega ER : 0 < ii_T k -> 0 < ii_emax k -> one_phonon (ii_Z k) (ii_sod k) (ii_emax k) (ii_T k) omega ER (ii_value k omega ER).
Proof.
  intros P M. unfold ii_value, one_phonon. split; intros H.
  - rewrite (proj2 (Rltb_t _ _)) by lra. unfold Kelvin2meV, Rdiv. ring.
  - rewrite (proj2 (Rltb_f _ _)) by lra. assert (N : omega <> 0) by (intros ->; rewrite Rabs_R0 in H; lra).
    destruct (factor_thermal omega (ii_T k) N P) as (f & -> & T'). exists f. split; [exact T'|]. unfold Rdiv. ring.
Qed.
Lemma one_phonon_unique Z sod emax T omega ER w w' : one_phonon Z sod emax T omega ER w -> one_phonon Z sod emax T omega ER w' -> w = w'.
Proof.
  intros [A B] [A' B']. destruct (Rlt_le_dec (Rabs omega) (emax / 100)) as [L|L].
  - rewrite A, A' by exact L. reflexivity.
  - destruct (B L) as (f & F & ->), (B' L) as (g & G & ->). rewrite (thermal_unique _ _ _ _ F G). reflexivity.
Qed.
Lemma speed_wave v : vnorm (vscale v2k v) = v2k * speed v.
Proof. change (vnorm (vscale v2k v)) with (speed (vscale v2k v)). apply speed_scale. left. apply v2k_pos. Qed.
Lemma wave_k2E Q : 0 <= Q -> wave_at (k2E Q) Q.
Proof. intros H. apply wave_at_iff. split; [rewrite k2E_v; apply v2E_nonneg|now apply k2E_inv]. Qed.
Lemma wave_same_energy E E' k : wave_at E k -> wave_at E' k -> E = E'.
Proof.
  intros (v & _ & A & B) (v' & _ & A' & B'). rewrite is_energy_iff in A, A'. rewrite is_wavenumber_iff in B, B'.
  assert (v = v'); [|congruence]. apply Rmult_eq_reg_l with v2k; [congruence|]. pose proof v2k_pos. lra.
Qed.
(** the outcome with a chosen unit vector and final energy *)
Lemma weigh_exact k d Ef range ev vf : e_v ev <> mkV 0 0 0 -> norm2 d = 1 -> ii_mass k <> 0 -> 0 < ii_T k -> 0 < ii_emax k -> 0 <= vf -> Ef = v2E vf ->
  let Q := v2k * speed (vsub (e_v ev) (vscale vf d)) in
  ii_weigh k d Ef range ev = Ok (with_pv ev (e_p ev * range * ((v2k * vf) / (v2k * speed (e_v ev))) * exp (- ii_DW k Q) / ii_mass k * ii_value k (v2E (speed (e_v ev)) - Ef) (k2E Q)) (Some (vscale vf d)))
  /\ transfers (e_v ev) (vscale vf d) Q (v2E (speed (e_v ev)) - Ef).
Proof.
  intros N U M P EM V EF Q. split.
  - unfold ii_weigh. change (vnorm (e_v ev)) with (speed (e_v ev)). subst Ef. rewrite v2E_inv by exact V. set (omega := v2E (speed (e_v ev)) - v2E vf).
    assert (B : exists f, phonon_bose_factor omega (ii_T k) = Some f).
    { destruct (Req_dec omega 0) as [->|NO]; [exists 1; apply factor_zero|]. destruct (factor_thermal omega (ii_T k) NO P) as (f & F & _). eauto. }
    destruct B as [f F]. unfold ii_value. rewrite F. rewrite speed_wave. fold Q. rewrite div_ok by exact M. cbn [bind]. pose proof (speed_pos _ N) as SP. rewrite div_ok by lra. cbn [bind].
    pose proof v2k_pos as VK. 
    destruct (Rltb (Rabs omega) (1 / 100 * ii_emax k)) eqn:S.
    + cbn [bind]. do 2 f_equal. field. repeat split; lra.
    + apply Rltb_f in S. rewrite div_ok by lra. cbn [bind]. do 2 f_equal. field. repeat split; lra.
  - exists (v2E (speed (e_v ev))), Ef. split; [apply energy_of|]. split; [|split; [reflexivity|apply is_wavenumber_iff; reflexivity]].
    rewrite is_energy_iff, speed_scale by exact V. rewrite EF. f_equal. rewrite (speed_eq d 1) by lra. ring.
Qed.
Lemma ii_run k ev u1 u2 u3 : 0 <= u1 <= 1 -> 0 <= ii_emax k ->
  II_S k u1 u2 u3 ev = ii_weigh k (on_sphere (random u1 (-1) 1) (random u2 0 (2 * PI)))
    (random u3 (Rmax 0 (v2E (speed (e_v ev)) - ii_emax k)) (v2E (speed (e_v ev)) + ii_emax k)) (v2E (speed (e_v ev)) + ii_emax k - Rmax 0 (v2E (speed (e_v ev)) - ii_emax k)) ev.
Proof.
  intros U P. unfold II_S. destruct (choose_unit u1 u2 U) as [_ N]. rewrite (normalize_unit _ N). change (vnorm (e_v ev)) with (speed (e_v ev)).
  rewrite pick_random by exact P. rewrite choose_on_sphere by exact U. reflexivity.
Qed.
Lemma focusing_run k Ef dEf ev u1 u2 u3 : 0 <= u1 <= 1 -> 0 <= u3 <= 1 -> 0 <= dEf -> 0 <= Ef - dEf / 2 ->
  II_focusing_S k Ef dEf u1 u2 u3 ev =
    if (Rltb (ii_emax k) (v2E (speed (e_v ev)) - (Ef + dEf / 2)) || Rltb (v2E (speed (e_v ev))) (Ef + dEf / 2))%bool then Ok (with_pv ev (-1) (Some (e_v ev)))
    else ii_weigh k (on_sphere (random u1 (-1) 1) (random u2 0 (2 * PI))) (random u3 (Ef - dEf / 2) (Ef + dEf / 2)) (Ef + dEf / 2 - (Ef - dEf / 2)) ev.
Proof.
  intros U U3 D P. unfold II_focusing_S. destruct (choose_unit u1 u2 U) as [_ N]. rewrite (normalize_unit _ N). change (vnorm (e_v ev)) with (speed (e_v ev)).
  unfold pick_Ef_focusing. set (Ei := v2E _).
  replace (Rltb (Ei - (Ef + dEf / 2)) 0) with (Rltb Ei (Ef + dEf / 2)).
  - destruct (_ || _)%bool; [reflexivity|]. rewrite (proj2 (Rltb_f _ _)) by nra. rewrite choose_on_sphere by exact U. f_equal; [unfold random; field|field].
  - destruct (Rltb Ei (Ef + dEf / 2)) eqn:L; symmetry; [apply Rltb_t; apply Rltb_t in L; lra|apply Rltb_f; apply Rltb_f in L; lra].
Qed.
Lemma random_in u a b : 0 <= u <= 1 -> a <= b -> a <= random u a b <= b.
Proof. intros U H. unfold random. nra. Qed.
(** mean over a direction and an energy between lo and hi *)
Section Mean.
Variables (k : ii_kernel) (ev : event) (lo hi : R) (G : vec3 -> R) (H : R -> R -> R -> R) (J : R -> R -> R) (K : R -> R) (I : R).
Let Ei := v2E (speed (e_v ev)).
Let ki := v2k * speed (e_v ev).
Hypothesis ev_moves : e_v ev <> mkV 0 0 0.
Hypothesis mass_ok : ii_mass k <> 0.
Hypothesis T_pos : 0 < ii_T k.
Hypothesis emax_pos : 0 < ii_emax k.
Hypothesis window : 0 <= lo <= hi.
Hypothesis H_is : forall c phi Ef vf kf Q ER w, -1 <= c <= 1 -> lo <= Ef <= hi -> 0 <= vf -> is_energy Ef vf -> wave_at Ef kf ->
  transfers (e_v ev) (vscale vf (on_sphere c phi)) Q (Ei - Ef) -> wave_at ER Q -> one_phonon (ii_Z k) (ii_sod k) (ii_emax k) (ii_T k) (Ei - Ef) ER w ->
  H c phi Ef = kf / ki * exp (- ii_DW k Q) / ii_mass k * w * G (vscale vf (on_sphere c phi)).
Hypothesis J_is : forall c phi, -1 < c < 1 -> 0 < phi < 2 * PI -> is_RInt (H c phi) lo hi (J c phi).
Hypothesis K_is : forall c, -1 < c < 1 -> is_RInt (J c) 0 (2 * PI) (K c).
Hypothesis I_is : is_RInt K (-1) 1 I.
Lemma weigh_mean : meanN 3 (fun l => carried G (ii_weigh k (on_sphere (random (stream l 0) (-1) 1) (random (stream l 1) 0 (2 * PI))) (random (stream l 2) lo hi) (hi - lo) ev)) (e_p ev * (I / (4 * PI))).
Proof.
  apply (meanN_01 3 (fun l => e_p ev * ((hi - lo) * H (random (stream l 0) (-1) 1) (random (stream l 1) 0 (2 * PI)) (random (stream l 2) lo hi)))).
  - intros l L F. assert (U0 : 0 < stream l 0 < 1) by (apply stream_in; [lia|exact F]). assert (U2 : 0 < stream l 2 < 1) by (apply stream_in; [lia|exact F]).
    set (c := random (stream l 0) (-1) 1). set (phi := random (stream l 1) 0 (2 * PI)). set (Ef := random (stream l 2) lo hi).
    assert (C : -1 <= c <= 1) by (apply random_in; lra). assert (EB : lo <= Ef <= hi) by (apply random_in; lra).
    destruct (E2v_inv Ef ltac:(lra)) as (vf & EV & VP & VE).
    destruct (weigh_exact k (on_sphere c phi) Ef (hi - lo) ev vf ev_moves (on_sphere_unit c phi C) mass_ok T_pos emax_pos VP (eq_sym VE)) as [R TR]. rewrite R.
    cbn [carried with_pv k_v k_p]. set (Q := v2k * speed (vsub (e_v ev) (vscale vf (on_sphere c phi)))) in *.
    assert (QP : 0 <= Q) by (apply Rmult_le_pos; [left; apply v2k_pos|apply speed_nonneg]).
    rewrite (H_is c phi Ef vf (v2k * vf) Q (k2E Q) (ii_value k (Ei - Ef) (k2E Q)) C EB VP).
    + fold Ei ki. unfold Rdiv. ring.
    + apply is_energy_iff. congruence.
    + exists vf. split; [exact VP|]. split; [apply is_energy_iff; congruence|apply is_wavenumber_iff; reflexivity].
    + exact TR.
    + now apply wave_k2E.
    + now apply ii_value_spec.
  - pose proof PI_RGT_0 as PP. cbn [meanN]. exists (fun u => e_p ev * / (2 * PI) * K (random u (-1) 1)). split.
    + intros u U. exists (fun u' => e_p ev * J (random u (-1) 1) (random u' 0 (2 * PI))). split.
      * intros u' U'. exists (fun u'' => e_p ev * ((hi - lo) * H (random u (-1) 1) (random u' 0 (2 * PI)) (random u'' lo hi))). split; [intros; reflexivity|].
        apply (scaled_int_k (H (random u (-1) 1) (random u' 0 (2 * PI))) lo hi (e_p ev) (J (random u (-1) 1) (random u' 0 (2 * PI)))).
        apply J_is; apply random_open; lra.
      * assert (C : -1 < random u (-1) 1 < 1) by (apply random_open; lra).
        pose proof (scaled_int_k (J (random u (-1) 1)) 0 (2 * PI) (e_p ev * / (2 * PI)) _ (K_is _ C)) as S.
        apply (int_ext01 (fun u0 => e_p ev * / (2 * PI) * ((2 * PI - 0) * J (random u (-1) 1) (random u0 0 (2 * PI))))); [|exact S].
        intros x _. field. lra.
    + pose proof (scaled_int_k K (-1) 1 (e_p ev * / (2 * PI) * / 2) _ I_is) as S. replace (e_p ev * (I / (4 * PI))) with (e_p ev * / (2 * PI) * / 2 * I) by (field; lra).
      apply (int_ext01 (fun u => e_p ev * / (2 * PI) * / 2 * ((1 - -1) * K (random u (-1) 1)))); [|exact S]. intros x _. field. lra.
Qed.
End Mean.
