From Coq Require Import Reals Lra Psatz.
From Coquelicot Require Import Coquelicot.
From Verif Require Import Base RotModel RotSpec DetModel ChanModel ShapeModel ShapeSpec ShapeProofs ScatModel ScatSpec UnitModel UnitSpec UnitProofs KinModel KinSpec GridModel PhonModel GridSpec PhonSpec ChanProofs GridProofs KinProofs KinProofs2 KinProofs3 KinProofs4 PhonProofs PhonProofs2 PhonProofs3 PhonProofs4.
Open Scope R_scope.

Theorem dos_rejected : forall e0 de ne Z,
  (ne = 1%nat \/ de <= 0 -> new_dos e0 de ne Z = Err AssertionError)
  /\ (0 < de -> ne <> 1%nat -> ne <> List.length Z \/ ne = 0%nat \/ e0 < 0 -> new_dos e0 de ne Z = Err CppException).
Proof.
  intros e0 de ne Z. split.
  - intros H. unfold new_dos. pose proof (pred_pos ne) as P. rewrite (proj2 (Rltb_f _ _)); [reflexivity|].
    destruct H as [->|H]; [cbn [pred_unsigned INR]; lra|nra].
  - intros D N1 H. unfold new_dos.
    assert (P : 1 <= pred_unsigned ne). { destruct ne as [|[|m]]; [cbn; lra|lia|]. rewrite pred_S. apply (le_INR 1). lia. }
    rewrite (proj2 (Rltb_t _ _)) by nra. cbn [negb]. destruct (Nat.eqb ne (List.length Z)) eqn:E; cbn [negb]; [|reflexivity]. apply Nat.eqb_eq in E.
    destruct (Nat.ltb ne 2) eqn:L; [reflexivity|]. apply Nat.ltb_ge in L. rewrite (proj2 (Rltb_f _ _)) by lra. destruct H as [H|[H|H]]; [contradiction|lia|].
    rewrite (proj2 (Rltb_t _ _)) by lra. reflexivity.
Qed.

(** an example: i^2 at i = 0, ..., n-1 *)
Definition squares_to (n : nat) : list R := map (fun i => INR i * INR i) (seq 0 n).
Lemma nth_squares i n : (i < n)%nat -> nth i (squares_to n) 0 = INR i * INR i.
Proof. intros I. unfold squares_to. rewrite (nth_indep _ 0 (INR 0 * INR 0)) by (rewrite map_length, seq_length; exact I). rewrite (map_nth (fun i => INR i * INR i)), seq_nth by exact I. reflexivity. Qed.
Lemma total_squares n : (2 <= n)%nat -> 0 < total (squares_to n).
Proof.
  intros L. unfold squares_to. rewrite <- loop_total. apply (sum_pos _ n 1); [lia|cbn; lra|]. intros i _. apply Rle_0_sqr.
Qed.
Lemma parabolic_squares n : (20 <= n)%nat -> parabolic (first_points 0 1 (squares_to n)).
Proof.
  intros L. exists 1. intros k. rewrite !residual_sum. rewrite (sum_ext _ (fun i => 0 * 0)).
  - rewrite sum_const. rewrite Rmult_0_r, Rmult_0_r. ring_simplify (10 * 0). apply sum_nonneg. intros i _. apply Rle_0_sqr.
  - intros i I. rewrite nth_squares by lia. ring.
Qed.
Lemma squares_made n : (20 <= n)%nat -> exists d, new_dos 0 1 n (squares_to n) = Ok (Some d).
Proof.
  intros L. apply dos_made_iff. split; [lra|]. split; [lra|]. split; [unfold squares_to; now rewrite map_length, seq_length|]. split; [exact L|].
  split; [pose proof (total_squares n ltac:(lia)); lra|now apply parabolic_squares].
Qed.
Lemma squares_nonneg n : Forall (fun z => 0 <= z) (squares_to n).
Proof. unfold squares_to. apply Forall_forall. intros x X. apply in_map_iff in X. destruct X as (i & <- & _). apply Rle_0_sqr. Qed.

(** detailed balance of the weights *)
Lemma value_balance k omega ER : 0 < ii_T k -> 0 < ii_emax k -> ii_emax k / 100 <= Rabs omega ->
  ii_value k omega ER = exp (omega * (11605 / 1000) / ii_T k) * ii_value k (- omega) ER.
Proof.
  intros T M L. assert (N : omega <> 0) by (intros ->; rewrite Rabs_R0 in L; lra).
  pose proof (ii_value_spec k omega ER T M) as [_ A]. pose proof (ii_value_spec k (- omega) ER T M) as [_ B]. rewrite Rabs_Ropp in B.
  destruct (A L) as (f & F & ->), (B L) as (g & G & ->).
  assert (X : f = exp (omega * (11605 / 1000) / ii_T k) * g); [|rewrite X; unfold Rdiv; ring].
  destruct (Rdichotomy _ _ N) as [P|P].
  - pose proof (thermal_balance (- omega) (ii_T k) g f ltac:(lra) T G ltac:(rewrite Ropp_involutive; exact F)) as [Y _]. rewrite Y.
    rewrite <- Rmult_assoc, <- exp_plus. replace (omega * (11605 / 1000) / ii_T k + - omega * (11605 / 1000) / ii_T k) with 0 by (field; lra). rewrite exp_0. ring.
  - now apply (thermal_balance omega (ii_T k) f g ltac:(lra) T F G).
Qed.
Lemma value_small k omega ER : Rabs omega < ii_emax k / 100 -> ii_value k (- omega) ER = ii_value k omega ER.
Proof. intros L. unfold ii_value. rewrite Rabs_Ropp. rewrite (proj2 (Rltb_t _ _)) by lra. reflexivity. Qed.
Lemma speed_back a b : speed (vsub a b) = speed (vsub b a).
Proof. unfold speed. f_equal. unfold norm2, sdot, vsub. cbn. ring. Qed.
Definition ii_range (k : ii_kernel) (Ei : R) : R := Ei + ii_emax k - Rmax 0 (Ei - ii_emax k).
(** what is known of a result with given final velocity *)
Lemma ii_known k ev u1 u2 u3 o v' : e_v ev <> mkV 0 0 0 -> ii_mass k <> 0 -> 0 < ii_T k -> 0 < ii_emax k -> 0 <= u1 <= 1 -> 0 <= u3 <= 1 ->
  II_S k u1 u2 u3 ev = Ok o -> k_v o = Some v' ->
  let Q := v2k * speed (vsub (e_v ev) v') in
  k_p o = e_p ev * ii_range k (v2E (speed (e_v ev))) * (v2k * speed v' / (v2k * speed (e_v ev))) * exp (- ii_DW k Q) / ii_mass k * ii_value k (v2E (speed (e_v ev)) - v2E (speed v')) (k2E Q).
Proof.
  intros N M T EM U1 U3 R V. rewrite ii_run in R by lra. set (d := on_sphere _ _) in *. set (Ef := random u3 _ _) in *.
  pose proof (v2E_nonneg (speed (e_v ev))) as EP. assert (EB : 0 <= Ef). { unfold Ef, random. pose proof (Rmax_l 0 (v2E (speed (e_v ev)) - ii_emax k)). pose proof (Rmax_lub 0 (v2E (speed (e_v ev)) - ii_emax k) (v2E (speed (e_v ev)) + ii_emax k) ltac:(lra) ltac:(lra)). nra. }
  destruct (E2v_inv Ef EB) as (vf & EV & VP & VE).
  assert (C : -1 <= random u1 (-1) 1 <= 1) by (apply random_in; lra). pose proof (on_sphere_unit _ (random u2 0 (2 * PI)) C) as DU. fold d in DU.
  destruct (weigh_exact k d Ef (v2E (speed (e_v ev)) + ii_emax k - Rmax 0 (v2E (speed (e_v ev)) - ii_emax k)) ev vf N DU M T EM VP (eq_sym VE)) as [W _]. rewrite W in R. injection R as <-. cbn [k_v with_pv] in V. injection V as <-.
  assert (SV : speed (vscale vf d) = vf) by (rewrite speed_scale by exact VP; rewrite (speed_eq d 1) by lra; ring).
  cbv zeta. rewrite SV, VE. cbn [k_p with_pv]. reflexivity.
Qed.
Theorem ii_balance : forall k ev ev' u1 u2 u3 u1' u2' u3' o o' Ei ki Ef kf,
  ii_mass k <> 0 -> 0 < ii_T k -> 0 < ii_emax k -> 0 <= u1 <= 1 -> 0 <= u3 <= 1 -> 0 <= u1' <= 1 -> 0 <= u3' <= 1 ->
  e_v ev <> mkV 0 0 0 -> e_v ev' <> mkV 0 0 0 -> arrives (e_v ev) Ei ki -> arrives (e_v ev') Ef kf ->
  II_S k u1 u2 u3 ev = Ok o -> k_v o = Some (e_v ev') -> II_S k u1' u2' u3' ev' = Ok o' -> k_v o' = Some (e_v ev) ->
  ii_emax k / 100 <= Rabs (Ei - Ef) ->
  k_p o * (ki * ki) * (e_p ev' * (Ef + ii_emax k - Rmax 0 (Ef - ii_emax k)))
  = exp ((Ei - Ef) * (11605 / 1000) / ii_T k) * (k_p o' * (kf * kf) * (e_p ev * (Ei + ii_emax k - Rmax 0 (Ei - ii_emax k)))).
Proof.
  intros k ev ev' u1 u2 u3 u1' u2' u3' o o' Ei ki Ef kf M T EM U1 U3 U1' U3' N N' AR AR' R V R' V' L.
  apply arrives_iff in AR. destruct AR as [-> ->]. apply arrives_iff in AR'. destruct AR' as [-> ->].
  change (vnorm (e_v ev)) with (speed (e_v ev)) in *. change (vnorm (e_v ev')) with (speed (e_v ev')) in *.
  rewrite (ii_known k ev u1 u2 u3 o (e_v ev') N M T EM U1 U3 R V). rewrite (ii_known k ev' u1' u2' u3' o' (e_v ev) N' M T EM U1' U3' R' V').
  rewrite (speed_back (e_v ev') (e_v ev)). set (Q := v2k * speed (vsub (e_v ev) (e_v ev'))).
  rewrite (value_balance k _ (k2E Q) T EM L). replace (- (v2E (speed (e_v ev)) - v2E (speed (e_v ev')))) with (v2E (speed (e_v ev')) - v2E (speed (e_v ev))) by ring.
  unfold ii_range. pose proof (speed_pos _ N) as S1. pose proof (speed_pos _ N') as S2. pose proof v2k_pos as VK. field. repeat split; lra.
Qed.
(** the two events of the examples: along z with speeds a and b, every energy in reach of emax = v2E m *)
Definition along (s : R) : event := RotModel.mkE (mkV 0 0 0) (mkV 0 0 s) 0 0 0 1.
Lemma speed_along s : 0 <= s -> speed (mkV 0 0 s) = s.
Proof. intros H. apply speed_eq; [exact H|]. unfold norm2, sdot. cbn. ring. Qed.
Lemma sphere_z phi : on_sphere 1 phi = mkV 0 0 1.
Proof. unfold on_sphere. replace (1 - 1 * 1) with 0 by ring. rewrite sqrt_0. f_equal; ring. Qed.
Lemma along_run k a b : 0 < a -> 0 <= b -> ii_mass k <> 0 -> 0 < ii_T k -> 0 < ii_emax k -> v2E a <= ii_emax k ->
  let u3 := v2E b / (v2E a + ii_emax k) in
  exists o, II_S k 1 0 u3 (along a) = Ok o /\ k_v o = Some (mkV 0 0 b) /\ in_place (along a) o.
Proof.
  intros A B M T EM L u3. rewrite ii_run by lra. cbn [e_v along]. rewrite speed_along by lra. rewrite Rmax_left by lra.
  replace (random 1 (-1) 1) with 1 by (unfold random; ring). rewrite sphere_z.
  assert (P : 0 < v2E a + ii_emax k) by (pose proof (v2E_nonneg a); lra).
  replace (random u3 0 (v2E a + ii_emax k)) with (v2E b) by (unfold random, u3; field; lra).
  destruct (weigh_exact k (mkV 0 0 1) (v2E b) (v2E a + ii_emax k - 0) (along a) b) as [R _]; try assumption; try reflexivity.
  - cbn [e_v along]. intros E. injection E; intros. lra.
  - unfold norm2, sdot. cbn. ring.
  - eexists. split; [exact R|]. cbn [with_pv k_v]. split; [f_equal; unfold vscale; cbn; f_equal; ring|unfold in_place; cbn; auto].
Qed.
