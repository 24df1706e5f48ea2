(** Proofs for C73: flat excitations and witnesses. *)
From Coq Require Import Reals Lra Lia.
From Coquelicot Require Import Coquelicot.
From Verif Require Import Base RotModel RotSpec ChanModel ChanProofs ShapeModel ShapeSpec ShapeProofs ScatModel ScatSpec UnitModel UnitSpec UnitProofs KinModel KinSpec KinProofs KinProofs2 GridModel GridProofs PowdModel PowdSpec PowdProofs PowdProofs3 PhonModel PhonSpec PhonProofs3 RootModel RootSpec RootProofs RootProofs2 ConeModel ConeSpec ConeProofs CohModel CohSpec CohProofs CohProofs2 CohProofs3 CohProofs4 EvqModel EvqSpec EvqProofs EvqProofs2 EvqProofs3.
Open Scope R_scope.

Lemma last_chosen c n : chosen c n = 0%nat \/ exists i, (i < n)%nat /\ c i = true /\ chosen c n = S (chosen c i).
Proof.
  induction n as [|n IH]; [now left|]. cbn [chosen]. destruct (c n) eqn:C.
  - right. exists n. split; [lia|]. split; [exact C|lia].
  - rewrite Nat.add_0_r. destruct IH as [IH|(i & L & Ci & E)]; [now left|]. right. exists i. split; [lia|]. now split.
Qed.
Lemma chosen_two c n : (forall i j, (i < j)%nat -> (j < n)%nat -> c i = true -> c j = true -> j = S i) ->
  (chosen c n <= 1)%nat \/ (chosen c n = 2%nat /\ exists i, (S i < n)%nat /\ c i = true /\ c (S i) = true).
Proof.
  intros H. destruct (last_chosen c n) as [E|(i & L & Ci & E)]; [left; lia|]. destruct (last_chosen c i) as [E1|(j & L1 & Cj & E1)]; [left; lia|]. pose proof (H j i L1 L Cj Ci) as JI. destruct (last_chosen c j) as [E2|(m & L2 & Cm & E2)].
  - right. split; [lia|]. exists j. split; [lia|]. split; [exact Cj|]. now rewrite <- JI.
  - exfalso. pose proof (H m i ltac:(lia) L Cm Ci). lia.
Qed.
Definition decreasing (f : R -> R) (a b : R) : Prop := forall x y, a <= x -> x < y -> y <= b -> f y < f x.
Lemma grid_lt a b n i j : a < b -> (0 < n)%nat -> (i < j)%nat -> grid a b n i < grid a b n j.
Proof. intros L N I. unfold grid. assert (P : 0 < INR n) by (apply lt_0_INR; lia). apply lt_INR in I. unfold Rdiv. apply Rplus_lt_compat_l. apply Rmult_lt_compat_r; [now apply Rinv_0_lt_compat|]. apply Rmult_lt_compat_l; lra. Qed.
Lemma decreasing_steps f a b n c : a < b -> decreasing f a b -> (forall i, (i < n)%nat -> c i = true <-> changes_sign f (grid a b n i) (grid a b n (i + 1))) ->
  (chosen c n <= 1)%nat \/ (chosen c n = 2%nat /\ exists i, (0 < i < n)%nat /\ f (grid a b n i) = 0).
Proof.
  intros L D C. assert (CH : forall i, (i < n)%nat -> c i = true -> f (grid a b n (i + 1)) <= 0 <= f (grid a b n i)).
  { intros i I Ci. apply C in Ci; [|exact I]. destruct Ci as [S|S]; [|exact S]. assert (f (grid a b n (i + 1)) < f (grid a b n i)); [|lra]. apply D; [apply grid_between; [lra|lia|lia]|apply grid_lt; [exact L|lia|lia]|apply grid_between; [lra|lia|lia]]. }
  destruct (chosen_two c n) as [H|(H & i & I & C1 & C2)].
  - intros i j IJ J Ci Cj. apply CH in Ci; [|lia]. apply CH in Cj; [|exact J]. destruct (Nat.eq_dec j (i + 1)) as [->|NE]; [lia|]. exfalso. assert (f (grid a b n j) < f (grid a b n (i + 1))); [|lra]. apply D; [apply grid_between; [lra|lia|lia]|apply grid_lt; [exact L|lia|lia]|apply grid_between; [lra|lia|lia]].
  - now left.
  - right. split; [exact H|]. exists (S i). split; [lia|]. apply CH in C1; [|lia]. apply CH in C2; [|exact I]. rewrite Nat.add_1_r in C1. lra.
Qed.
(** flat excitations *)
Definition flat_f (Ei w x : R) : R := Ei - w - ksq2e * (x * x).
Lemma flat_decreasing Ei w a b : 0 <= a -> decreasing (flat_f Ei w) a b.
Proof. intros A x y X XY Y. unfold flat_f. pose proof ksq2e_pos. assert (x * x < y * y) by nra. nra. Qed.
Lemma flat_slope4 Ei w x d : d <> 0 -> four_point (flat_f Ei w) x d = - (2 * ksq2e * x).
Proof. intros D. unfold four_point, flat_f. field. exact D. Qed.
Lemma flat_balance w v d f : norm2 d = 1 -> balance (fun _ => w) v d f -> forall x, f x = flat_f (v2E (speed v)) w x.
Proof. intros N B x. rewrite (balance_unique _ _ _ _ _ B (balance_of _ _ _ N)). unfold E_vq_minus_deltaE, flat_f. cbv zeta. rewrite k2E_ksq2e. change (vnorm v) with (speed v). ring. Qed.
Lemma four_point_ext f g x d : (forall y, f y = g y) -> four_point f x d = four_point g x d.
Proof. intros H. unfold four_point. now rewrite !H. Qed.
Lemma changes_ext f g a b : (forall y, f y = g y) -> changes_sign f a b <-> changes_sign g a b.
Proof. intros H. unfold changes_sign. rewrite !H. tauto. Qed.
Lemma flat k w u1 u2 u3 ev o v' : q_E k = (fun _ => w) -> 0 < q_Emax k -> e_v ev <> mkV 0 0 0 -> speed (e_v ev) <= 10 ^ 20 -> 0 <= u1 <= 1 -> evq_scatter k u1 u2 u3 ev = Ok o -> k_v o = Some v' -> v' <> e_v ev ->
  exists n q Ei kmin ki, wave_vector q (vsub (e_v ev) v') /\ k_p o = e_p ev * INR n * (q_S k q * (speed v' / speed (e_v ev))) /\
    is_energy Ei (speed (e_v ev)) /\ slowest Ei (q_Emax k) kmin /\ is_wavenumber ki (speed (e_v ev)) /\
    (n = 1%nat \/ (n = 2%nat /\ exists i s, (0 < i < 1000)%nat /\ is_wavenumber (grid kmin ki 1000 i) s /\ is_energy (Ei - w) s)).
Proof.
  intros FE EM N SV U H HV NV. destruct (state k u1 u2 u3 ev o ltac:(lra) N SV U H) as (_ & d & f & c & Ei & kmin & ki & _ & DN & B & EI & SL & KI & CH & [(_ & V & _)|(i & kf & r & IL & CI & W & RR & DZ & [(_ & V & _)|(X & v & q & V & A & Q & P)])]); try congruence.
  rewrite V in HV. injection HV as <-. rewrite FE in B. pose proof (flat_balance w (e_v ev) d f DN B) as FF. pose proof (proj1 (is_energy_iff _ _) EI) as EI'. pose proof (wave_speed _ _ KI) as KS. pose proof (speed_pos _ N) as SP. pose proof k2v_pos as KP. assert (K0 : 0 < ki) by nra.
  assert (KM : kmin < ki /\ 0 <= kmin).
  { pose proof SL as SL'. destruct SL' as (K1 & s & S1 & S2). split; [|exact K1]. apply wave_speed in S1. apply is_energy_iff in S2. subst s. rewrite <- k2E_v, k2E_ksq2e in S2. rewrite EI', KS, <- k2E_v, k2E_ksq2e in S2. pose proof ksq2e_pos as KQ. assert (L : ksq2e * (kmin * kmin) < ksq2e * (ki * ki)) by (rewrite <- S2; assert (0 < ksq2e * (ki * ki)) by (apply Rmult_lt_0_compat; nra); unfold Rmax; destruct (Rle_dec _ _); lra). apply Rmult_lt_reg_l in L; [|exact KQ]. nra. }
  assert (KF : 0 <= kf). { pose proof (grid_between kmin ki 1000 i ltac:(lra) (Nat.lt_le_incl _ _ IL) (Nat.lt_0_succ 999)) as G1. assert (IL' : (i + 1 <= 1000)%nat) by (rewrite Nat.add_1_r; exact IL). pose proof (grid_between kmin ki 1000 (i + 1) ltac:(lra) IL' (Nat.lt_0_succ 999)) as G2.
    unfold within in W. set (g1 := grid kmin ki 1000 i) in *. set (g2 := grid kmin ki 1000 (i + 1)) in *. clearbody g1 g2. unfold Rmin, Rmax in W. destruct (Rle_dec g1 g2); lra. }
  exists (chosen c 1000), q, Ei, kmin, ki. split; [exact Q|]. split.
  - rewrite P. pose proof (energy_rate_unique _ _ _ RR (energy_rate_of kf)). subst r. rewrite (four_point_ext f _ kf (ki / 200) FF), flat_slope4, Rabs_Ropp in DZ |- * by (intros E0; lra). apply along_iff in A. rewrite A, speed_along by exact DN. rewrite (Rabs_right kf) by lra. rewrite KS. pose proof ksq2e_pos as KQ. assert (KFN : kf <> 0) by (intros ->; apply DZ; rewrite Rmult_0_r; apply Rabs_R0).
    rewrite (Rabs_right (2 * ksq2e * kf)) by (apply Rle_ge, Rmult_le_pos; lra). assert (KI0 : ki <> 0) by lra. assert (KV0 : k2v <> 0) by lra. assert (KQ0 : ksq2e <> 0) by lra. assert (R1 : 2 * ksq2e * kf / (2 * ksq2e * kf) = 1) by (field; tauto). rewrite R1. replace (k2v * kf / (k2v * ki)) with (kf / ki) by (field; tauto). ring.
  - split; [exact EI|]. split; [exact SL|]. split; [exact KI|]. destruct (decreasing_steps f kmin ki 1000 c (proj1 KM)) as [L|(E & j & J & Z)].
    + intros x y A1 A2 A3. rewrite !FF. exact (flat_decreasing _ w kmin ki (proj2 KM) x y A1 A2 A3).
    + exact CH.
    + left. destruct (last_chosen c 1000) as [E|(j & _ & _ & E)]; [|rewrite E in *; f_equal; apply le_S_n in L; now inversion L].
      exfalso. clear - E IL CI. assert (G : forall n, (i < n)%nat -> (1 <= chosen c n)%nat). { induction n as [|n IH]; intros L; [lia|]. cbn [chosen]. destruct (Nat.eq_dec i n) as [->|NE]; [rewrite CI; lia|]. specialize (IH ltac:(lia)). lia. } specialize (G _ IL). rewrite E in G. inversion G.
    + right. split; [exact E|]. exists j, (k2v * grid kmin ki 1000 j). split; [exact J|]. split; [apply wave_of|]. apply is_energy_iff. rewrite <- k2E_v, k2E_ksq2e. rewrite FF in Z. unfold flat_f in Z. rewrite EI'. lra.
Qed.
