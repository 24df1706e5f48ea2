(** C54: densities of states.  C55: thermal factor and incoherent one-phonon scattering.  C56: Debye-Waller exponent. *)
From Coq Require Import Reals Lra Psatz.
From Coquelicot Require Import Coquelicot.
From Verif Require Import Base DetModel RotModel RotSpec ChanModel ShapeModel ShapeSpec ShapeProofs ScatModel ScatSpec UnitModel UnitSpec UnitProofs KinModel KinSpec GridModel PhonModel GridSpec PhonSpec ChanProofs GridProofs KinProofs KinProofs2 KinProofs3 KinProofs4 PhonProofs PhonProofs2 PhonProofs3 PhonProofs4 PhonProofs5.
Open Scope R_scope.

(** ** C54 *)
(** A density of states is made exactly from at least twenty data, evenly spaced from an energy which is not negative, with a sum which is not zero,
    whose first twenty are ten times better described by a parabola c E^2 than by a constant. *)
Theorem C54_made_iff : forall e0 de ne Z,
  (exists d, new_dos e0 de ne Z = Ok (Some d)) <->
  0 < de /\ 0 <= e0 /\ ne = List.length Z /\ (20 <= ne)%nat /\ total Z <> 0 /\ parabolic (first_points e0 de Z).
Proof. exact dos_made_iff. Qed.
Example C54_made_case : exists d, new_dos 0 1 30 (squares_to 30) = Ok (Some d).
Proof. apply squares_made. lia. Qed.
(** What happens otherwise: an exception, the end of the process, or values which are not numbers. *)
Theorem C54_rejected : forall e0 de ne Z,
  (ne = 1%nat \/ de <= 0 -> new_dos e0 de ne Z = Err AssertionError)
  /\ (0 < de -> ne <> 1%nat -> ne <> List.length Z \/ ne = 0%nat \/ e0 < 0 -> new_dos e0 de ne Z = Err CppException).
Proof. exact dos_rejected. Qed.
Theorem C54_process_ends : forall e0 de ne Z,
  0 < de -> 0 <= e0 -> ne = List.length Z -> (20 <= ne)%nat -> total Z <> 0 -> ~ parabolic (first_points e0 de Z) ->
  new_dos e0 de ne Z = Err Terminated.
Proof. exact dos_terminated. Qed.
Example C54_process_ends_case : new_dos 1 1 20 (1 :: repeat 0 19) = Err Terminated.
Proof.
  apply C54_process_ends; try lra; try lia; [reflexivity|unfold total; cbn; lra|].
  intros [c H]. specialize (H 0). unfold residual, first_points, total in H. cbn [seq map fold_right nth repeat fst snd INR] in H.
  ring_simplify in H. nra.
Qed.
Theorem C54_nan_iff : forall e0 de ne Z,
  new_dos e0 de ne Z = Ok None <-> 0 < de /\ 0 <= e0 /\ ne = List.length Z /\ (20 <= ne)%nat /\ total Z = 0.
Proof. exact dos_nan_iff. Qed.
Example C54_nan_case : new_dos 0 1 20 (repeat 0 20) = Ok None.
Proof. apply C54_nan_iff. repeat split; try lra; try lia. unfold total. cbn. ring. Qed.
(** "A density of states of two to nineteen data is accepted or refused with an exception": false, memory outside of the data is read. *)
Theorem C54_few_refuted : forall e0 de ne Z,
  0 < de -> 0 <= e0 -> ne = List.length Z -> (2 <= ne < 20)%nat -> new_dos e0 de ne Z = Err UndefinedBehaviour.
Proof. exact dos_short. Qed.
Example C54_few_case : new_dos 0 1 19 (squares_to 19) = Err UndefinedBehaviour.
Proof. apply C54_few_refuted; [lra|lra|reflexivity|lia]. Qed.

(** Values: linear between the energies of the data, data over de times their sum. *)
Theorem C54_value : forall e0 de ne Z d, new_dos e0 de ne Z = Ok (Some d) ->
  forall i t, (S i < ne)%nat -> 0 <= t < 1 ->
  dos_at d (e0 + (INR i + t) * de) = Ok (mix t (nth i Z 0) (nth (S i) Z 0) / (de * total Z)).
Proof. exact dos_value. Qed.
(** Zero below the first energy, and from the last energy on. *)
Theorem C54_outside : forall e0 de ne Z d, new_dos e0 de ne Z = Ok (Some d) ->
  forall e, e < e0 \/ e0 + INR (ne - 1) * de <= e -> dos_at d e = Ok 0.
Proof. exact dos_outside. Qed.
(** "At each of its energies the density of states has its datum": false at the last one. *)
Theorem C54_last_refuted : exists e0 de ne Z d, new_dos e0 de ne Z = Ok (Some d) /\ 0 < nth (ne - 1) Z 0 /\ dos_at d (e0 + INR (ne - 1) * de) = Ok 0.
Proof.
  destruct (squares_made 20 ltac:(lia)) as [d D]. exists 0, 1, 20%nat, (squares_to 20), d. split; [exact D|]. split.
  - rewrite nth_squares by lia. assert (0 < INR (20 - 1)) by (apply lt_0_INR; lia). nra.
  - apply (C54_outside _ _ _ _ _ D). right. lra.
Qed.
(** There is a value for every energy; if no datum is negative, no value is. *)
Theorem C54_total : forall e0 de ne Z d, new_dos e0 de ne Z = Ok (Some d) ->
  forall e, exists v, dos_at d e = Ok v /\ (Forall (fun z => 0 <= z) Z -> 0 <= v).
Proof. exact dos_total. Qed.
(** The integral over any range that covers the energies. *)
Theorem C54_integral : forall e0 de ne Z d a b,
  new_dos e0 de ne Z = Ok (Some d) -> a <= e0 -> e0 + INR (ne - 1) * de <= b ->
  is_RInt (fun e => number (dos_at d e)) a b (1 - (nth 0 Z 0 + nth (ne - 1) Z 0) / (2 * total Z)).
Proof. exact dos_integral_all. Qed.
(** "The integral of a density of states is one": false. *)
Theorem C54_normalised_refuted : exists e0 de ne Z d I,
  new_dos e0 de ne Z = Ok (Some d) /\ Forall (fun z => 0 <= z) Z /\ is_RInt (fun e => number (dos_at d e)) e0 (e0 + INR (ne - 1) * de) I /\ I < 1.
Proof.
  destruct (squares_made 20 ltac:(lia)) as [d D]. exists 0, 1, 20%nat, (squares_to 20), d. eexists. split; [exact D|]. split; [apply squares_nonneg|].
  split; [apply (C54_integral _ _ _ _ _ _ _ D); lra|]. rewrite !nth_squares by lia. pose proof (total_squares 20 ltac:(lia)) as P.
  assert (0 < INR (20 - 1)) by (apply lt_0_INR; lia). cbn [INR]. assert (0 < (0 * 0 + INR (20 - 1) * INR (20 - 1)) / (2 * total (squares_to 20))) by (apply Rdiv_lt_0_compat; nra). lra.
Qed.
(** Multiplying the data by a number which is not zero changes nothing. *)
Theorem C54_scale : forall k e0 de ne Z, k <> 0 -> new_dos e0 de ne (map (Rmult k) Z) = new_dos e0 de ne Z.
Proof. exact dos_scale. Qed.
(** The curvature at the start is that of the parabola with the least squares of deviations from the first twenty values; for a parabola it is exact. *)
Theorem C54_start : forall e0 de ne Z d, new_dos e0 de ne Z = Ok (Some d) ->
  best_parabola (d_sod d) (first_points e0 de (map (fun z => z / (de * total Z)) Z)).
Proof. exact dos_sod. Qed.
Theorem C54_start_exact : forall e0 de ne Z d A,
  new_dos e0 de ne Z = Ok (Some d) ->
  (forall i, (i < 20)%nat -> nth i Z 0 = A * ((e0 + INR i * de) * (e0 + INR i * de))) ->
  d_sod d = A / (de * total Z).
Proof. exact dos_parabola. Qed.
Example C54_start_case : forall d, new_dos 0 1 30 (squares_to 30) = Ok (Some d) -> d_sod d = 1 / (1 * total (squares_to 30)).
Proof. intros d D. apply (C54_start_exact _ _ _ _ _ _ D). intros i I. rewrite nth_squares by lia. ring. Qed.
(** From python, with evenly spaced energies: the same as above. *)
Theorem C54_histogram : forall e0 de energies I,
  evenly e0 de energies -> (2 <= List.length energies)%nat -> List.length I = List.length energies ->
  dos_fromhistogram energies I = new_dos e0 de (List.length I) I.
Proof. exact histogram_even. Qed.
Example C54_histogram_case : evenly 0 1 (map INR (seq 0 30)) /\ List.length (squares_to 30) = List.length (map INR (seq 0 30)).
Proof.
  split; [|reflexivity]. intros i I. rewrite map_length, seq_length in I. rewrite (nth_indep _ 0 (INR 0)) by (rewrite map_length, seq_length; exact I). rewrite map_nth, seq_nth by exact I. cbn. ring.
Qed.
(** "Energies that are not evenly spaced are refused or respected": false, only the first two count. *)
Theorem C54_uneven_refuted : exists energies I d i,
  dos_fromhistogram energies I = Ok (Some d) /\ (i < List.length energies)%nat /\ ~ (exists e0 de, evenly e0 de energies) /\ 0 < nth i I 0 /\ dos_at d (nth i energies 0) = Ok 0.
Proof.
  destruct (squares_made 20 ltac:(lia)) as [d D].
  exists (0 :: 1 :: map (fun i => INR i * 10) (seq 2 18)), (squares_to 20), d, 2%nat. split; [|split; [|split; [|split]]].
  - rewrite <- D. change 20%nat with (List.length (squares_to 20)) at 2. rewrite <- (C54_histogram 0 1 (map INR (seq 0 20)) (squares_to 20)).
    + cbn [seq map]. rewrite (histogram_two 0 1 (map (fun i => INR i * 10) (seq 2 18)) (map INR (seq 2 18)) _); [reflexivity|now rewrite !map_length].
    + intros i I. rewrite map_length, seq_length in I. rewrite (nth_indep _ 0 (INR 0)) by (rewrite map_length, seq_length; exact I). rewrite map_nth, seq_nth by exact I. cbn. ring.
    + rewrite map_length, seq_length. lia.
    + reflexivity.
  - cbn. lia.
  - intros (e0 & de & E). pose proof (E 0%nat ltac:(cbn; lia)) as A. pose proof (E 1%nat ltac:(cbn; lia)) as B. pose proof (E 2%nat ltac:(cbn; lia)) as C. cbn in A, B, C. lra.
  - rewrite nth_squares by lia. cbn. lra.
  - apply (C54_outside _ _ _ _ _ D). right. cbn. lra.
Qed.

(** ** C55 *)
(** The factor is n+1 for a neutron that loses the energy E, n for one that gains it. *)
Theorem C55_factor : forall E T, E <> 0 -> 0 < T -> exists f, phonon_bose_factor E T = Some f /\ thermal E T f.
Proof. exact factor_thermal. Qed.
(** Loss and gain: detailed balance, and a difference of one. *)
Theorem C55_factor_balance : forall E T, 0 < E -> 0 < T -> exists f g,
  phonon_bose_factor E T = Some f /\ phonon_bose_factor (- E) T = Some g /\ f = exp (E * (11605 / 1000) / T) * g /\ f = g + 1 /\ 0 < g.
Proof.
  intros E T P Q. destruct (factor_thermal E T ltac:(lra) Q) as (f & F & TF). destruct (factor_thermal (- E) T ltac:(lra) Q) as (g & G & TG).
  exists f, g. split; [exact F|]. split; [exact G|]. now apply thermal_balance.
Qed.
Theorem C55_factor_cold : forall E, (0 < E -> phonon_bose_factor E 0 = Some 1) /\ (E < 0 -> phonon_bose_factor E 0 = Some 0).
Proof. exact factor_cold. Qed.
(** "At zero energy the factor is the limit": false, it is one there and has no bound nearby. *)
Theorem C55_factor_zero_refuted : forall T, 0 < T -> phonon_bose_factor 0 T = Some 1 /\ forall M, exists E f, 0 < E /\ phonon_bose_factor E T = Some f /\ M < f.
Proof. intros T P. split; [apply factor_zero|]. intros M. now apply factor_unbounded. Qed.

(** One event: final energies from max(0, Ei - emax) to Ei + emax, a direction on the sphere, place, time and spin kept, and the weight. *)
Theorem C55_scatter : forall k ev u1 u2 u3 Ei ki, arrives (e_v ev) Ei ki -> e_v ev <> mkV 0 0 0 -> ii_mass k <> 0 -> 0 < ii_T k -> 0 < ii_emax k ->
  0 <= u1 <= 1 -> 0 <= u3 <= 1 ->
  let lo := Rmax 0 (Ei - ii_emax k) in let hi := Ei + ii_emax k in let Ef := lo + u3 * (hi - lo) in
  exists o vf kf Q ER w, II_S k u1 u2 u3 ev = Ok o /\ in_place ev o /\ 0 <= vf /\ is_energy Ef vf /\ wave_at Ef kf /\
    k_v o = Some (vscale vf (on_sphere (2 * u1 - 1) (2 * PI * u2))) /\ transfers (e_v ev) (vscale vf (on_sphere (2 * u1 - 1) (2 * PI * u2))) Q (Ei - Ef) /\
    wave_at ER Q /\ one_phonon (ii_Z k) (ii_sod k) (ii_emax k) (ii_T k) (Ei - Ef) ER w /\ Rabs (Ei - Ef) <= ii_emax k /\
    k_p o = e_p ev * (hi - lo) * (kf / ki * exp (- ii_DW k Q) / ii_mass k * w).
Proof.
  intros k ev u1 u2 u3 Ei ki AR N M T EM U1 U3 lo hi Ef. apply arrives_iff in AR. destruct AR as [-> ->]. change (vnorm (e_v ev)) with (speed (e_v ev)) in *.
  pose proof (v2E_nonneg (speed (e_v ev))) as EP. assert (L0 : 0 <= lo) by apply Rmax_l. assert (L1 : v2E (speed (e_v ev)) - ii_emax k <= lo) by apply Rmax_r.
  assert (LH : lo <= hi) by (apply Rmax_lub; unfold hi; lra). assert (EB : lo <= Ef <= hi) by (unfold Ef; nra).
  assert (EF : random u3 lo hi = Ef) by (unfold random, Ef; ring).
  destruct (E2v_inv Ef ltac:(lra)) as (vf & EV & VP & VE). rewrite ii_run by lra. fold lo hi. rewrite EF.
  replace (random u1 (-1) 1) with (2 * u1 - 1) by (unfold random; ring). replace (random u2 0 (2 * PI)) with (2 * PI * u2) by (unfold random; ring). set (d := on_sphere _ _).
  assert (DU : norm2 d = 1) by (apply on_sphere_unit; lra).
  destruct (weigh_exact k d Ef (hi - lo) ev vf N DU M T EM VP (eq_sym VE)) as [W TR]. set (Q := v2k * speed (vsub (e_v ev) (vscale vf d))) in *.
  exists (with_pv ev (e_p ev * (hi - lo) * (v2k * vf / (v2k * speed (e_v ev))) * exp (- ii_DW k Q) / ii_mass k * ii_value k (v2E (speed (e_v ev)) - Ef) (k2E Q)) (Some (vscale vf d))).
  exists vf, (v2k * vf), Q, (k2E Q), (ii_value k (v2E (speed (e_v ev)) - Ef) (k2E Q)).
  split; [exact W|]. split; [unfold in_place; cbn; auto|]. split; [exact VP|]. split; [apply is_energy_iff; congruence|].
  split; [exists vf; split; [exact VP|]; split; [apply is_energy_iff; congruence|apply is_wavenumber_iff; reflexivity]|].
  split; [reflexivity|]. split; [exact TR|]. split; [apply wave_k2E; apply Rmult_le_pos; [left; apply v2k_pos|apply speed_nonneg]|].
  split; [now apply ii_value_spec|]. split; [apply Rabs_le; unfold hi in *; lra|]. cbn [with_pv k_p]. unfold Rdiv. ring.
Qed.
Example C55_scatter_case : let k := mkII 27 1 1 1 (fun _ => 1) 1 40 (fun Q => Q * Q / 100) 300 in
  arrives (mkV 0 0 1000) (v2E 1000) (v2k * 1000) /\ mkV 0 0 1000 <> mkV 0 0 0 /\ ii_mass k <> 0 /\ 0 < ii_T k /\ 0 < ii_emax k.
Proof.
  cbn. split; [|split; [|lra]].
  - apply arrives_iff. change (vnorm (mkV 0 0 1000)) with (speed (mkV 0 0 1000)). rewrite speed_along by lra. split; reflexivity.
  - intros H. injection H; intros. lra.
Qed.
(** Mean over the random numbers of what a detector [G] sees: the integral over final energy and direction of kf/ki times the scattering function. *)
Theorem C55_mean : forall k ev Ei ki G H J K I, arrives (e_v ev) Ei ki -> e_v ev <> mkV 0 0 0 -> ii_mass k <> 0 -> 0 < ii_T k -> 0 < ii_emax k ->
  let lo := Rmax 0 (Ei - ii_emax k) in let hi := Ei + ii_emax k in
  (forall c phi Ef vf kf Q ER w, -1 <= c <= 1 -> lo <= Ef <= hi -> 0 <= vf -> is_energy Ef vf -> wave_at Ef kf ->
     transfers (e_v ev) (vscale vf (on_sphere c phi)) Q (Ei - Ef) -> wave_at ER Q -> one_phonon (ii_Z k) (ii_sod k) (ii_emax k) (ii_T k) (Ei - Ef) ER w ->
     H c phi Ef = kf / ki * exp (- ii_DW k Q) / ii_mass k * w * G (vscale vf (on_sphere c phi))) ->
  (forall c phi, -1 < c < 1 -> 0 < phi < 2 * PI -> is_RInt (H c phi) lo hi (J c phi)) ->
  (forall c, -1 < c < 1 -> is_RInt (J c) 0 (2 * PI) (K c)) -> is_RInt K (-1) 1 I ->
  meanN 3 (fun l => carried G (II_S k (stream l 0) (stream l 1) (stream l 2) ev)) (e_p ev * (I / (4 * PI))).
Proof.
  intros k ev Ei ki G H J K I AR N M T EM lo hi HH HJ HK HI. apply arrives_iff in AR. destruct AR as [-> ->]. change (vnorm (e_v ev)) with (speed (e_v ev)) in *.
  pose proof (v2E_nonneg (speed (e_v ev))) as EP.
  apply (meanN_01 3 (fun l => carried G (ii_weigh k (on_sphere (random (stream l 0) (-1) 1) (random (stream l 1) 0 (2 * PI))) (random (stream l 2) lo hi) (hi - lo) ev))).
  - intros l L F. assert (U : 0 < stream l 0 < 1) by (apply stream_in; [lia|exact F]). rewrite ii_run by lra. reflexivity.
  - apply (weigh_mean k ev lo hi G H J K I N M T EM); try assumption. split; [apply Rmax_l|apply Rmax_lub; unfold hi; lra].
Qed.
(** A case: a detector that weighs each neutron with the inverse of its weight; the mean is then the length of the range of energies. *)
Definition case_k : ii_kernel := mkII 1 1 1 1 (fun _ => 1) 1 1 (fun _ => 0) 1.
Definition case_x (v' : vec3) : R :=
  v2k * speed v' / (v2k * 1000) * exp (- 0) / 1 * ii_value case_k (v2E 1000 - v2E (speed v')) (k2E (v2k * speed (vsub (mkV 0 0 1000) v'))).
Definition case_H (c phi Ef : R) : R := match E2v Ef with Some vf => case_x (vscale vf (on_sphere c phi)) * / case_x (vscale vf (on_sphere c phi)) | None => 0 end.
Example C55_mean_case : let lo := Rmax 0 (v2E 1000 - 1) in let hi := v2E 1000 + 1 in
  meanN 3 (fun l => carried (fun v' => / case_x v') (II_S case_k (stream l 0) (stream l 1) (stream l 2) (along 1000))) (1 * (2 * (2 * PI * (hi - lo)) / (4 * PI))).
Proof.
  intros lo hi. assert (SA : speed (mkV 0 0 1000) = 1000) by (apply speed_along; lra).
  apply (C55_mean case_k (along 1000) (v2E 1000) (v2k * 1000) (fun v' => / case_x v') case_H (fun _ _ => hi - lo) (fun _ => 2 * PI * (hi - lo))).
  - apply arrives_iff. cbn [e_v along]. change (vnorm (mkV 0 0 1000)) with (speed (mkV 0 0 1000)). rewrite SA. split; reflexivity.
  - cbn. intros H. injection H; intros. lra.
  - cbn. lra.
  - cbn. lra.
  - cbn. lra.
  - intros c phi Ef vf kf Q ER w C EB VP VE WF TR WQ OP. rewrite is_energy_iff in VE. unfold case_H. rewrite VE, v2E_inv by exact VP.
    assert (SV : speed (vscale vf (on_sphere c phi)) = vf) by (rewrite speed_scale by exact VP; rewrite (speed_eq (on_sphere c phi) 1); [ring|lra|rewrite on_sphere_unit by exact C; ring]).
    assert (KF : kf = v2k * vf). { destruct WF as (v1 & V1 & E1 & K1). rewrite is_energy_iff in E1. rewrite is_wavenumber_iff in K1. rewrite K1. f_equal. apply v2E_inj; congruence. }
    destruct TR as (E1 & E2 & _ & _ & _ & QW). rewrite is_wavenumber_iff in QW. cbn [e_v along] in QW.
    assert (QP : 0 <= Q) by (rewrite QW; apply Rmult_le_pos; [left; apply v2k_pos|apply speed_nonneg]).
    pose proof (wave_same_energy _ _ _ WQ (wave_k2E Q QP)) as ->.
    assert (W : w = ii_value case_k (v2E 1000 - Ef) (k2E Q)) by (apply (one_phonon_unique _ _ _ _ _ _ _ _ OP); apply ii_value_spec; cbn; lra). 
    f_equal. unfold case_x. rewrite SV, <- VE, <- QW, <- W, KF. reflexivity.
  - intros c phi C P. apply (is_RInt_ext (fun _ => 1)).
    + intros Ef E. assert (L0 : 0 <= lo) by apply Rmax_l. assert (LH : lo <= hi). { apply Rmax_lub; unfold hi; [pose proof (v2E_nonneg 1000)|]; lra. }
      change (Rmax 0 (v2E 1000 - ii_emax case_k)) with lo in E. change (v2E 1000 + ii_emax case_k) with hi in E. rewrite Rmin_left, Rmax_right in E by exact LH.
      unfold case_H. destruct (E2v_inv Ef ltac:(lra)) as (vf & -> & VP & VE). assert (VF : 0 < vf). { destruct VP as [VP|<-]; [exact VP|]. unfold v2E in VE. lra. }
      assert (SV : speed (vscale vf (on_sphere c phi)) = vf) by (rewrite speed_scale by lra; rewrite (speed_eq (on_sphere c phi) 1); [ring|lra|rewrite on_sphere_unit by lra; ring]).
      symmetry. apply Rinv_r. unfold case_x. rewrite SV. pose proof v2k_pos as VK.
      assert (DIFF : mkV 0 0 1000 <> vscale vf (on_sphere c phi)).
      { intros EQ. assert (SP : speed (mkV 0 0 1000) = vf) by (rewrite EQ; exact SV). rewrite SA in SP. rewrite <- SP in EQ. unfold on_sphere, vscale in EQ. cbn [vx vy vz] in EQ. injection EQ; intros. lra. }
      assert (SQ : 0 < speed (vsub (mkV 0 0 1000) (vscale vf (on_sphere c phi)))).
      { destruct (Rle_lt_or_eq_dec _ _ (speed_nonneg (vsub (mkV 0 0 1000) (vscale vf (on_sphere c phi))))) as [S0|S0]; [exact S0|]. exfalso. apply DIFF. symmetry in S0. apply speed_zero in S0.
        destruct (vscale vf (on_sphere c phi)) as [a b e]. unfold vsub in S0. cbn in S0. injection S0; intros. f_equal; lra. }
      set (q := k2E _). assert (QP : 0 < q). { unfold q. rewrite k2E_v. unfold v2E. pose proof k2v_pos. assert (0 < vsq2e) by (pose proof vsq2e_pos; assumption). assert (0 < k2v * (v2k * speed (vsub (mkV 0 0 1000) (vscale vf (on_sphere c phi))))) by (apply Rmult_lt_0_compat; [assumption|]; apply Rmult_lt_0_compat; assumption). apply Rmult_lt_0_compat; [|assumption]. apply Rmult_lt_0_compat; assumption. }
      assert (A : v2k * vf / (v2k * 1000) * exp (- 0) / 1 <> 0). { apply Rgt_not_eq. apply Rdiv_lt_0_compat; [|lra]. apply Rmult_lt_0_compat; [|apply exp_pos]. apply Rdiv_lt_0_compat; apply Rmult_lt_0_compat; lra. }
      apply Rmult_integral_contrapositive. split; [exact A|].
      assert (B : exists v, ii_value case_k (v2E 1000 - v2E vf) q = v /\ 0 < v); [|destruct B as (v & -> & B); lra].
      eexists. split; [reflexivity|]. destruct (ii_value_spec case_k (v2E 1000 - v2E vf) q) as [V1 V2]; [cbn; lra|cbn; lra|].
      destruct (Rlt_le_dec (Rabs (v2E 1000 - v2E vf)) (ii_emax case_k / 100)) as [L|L].
      * rewrite V1 by exact L. cbn. nra.
      * destruct (V2 L) as (f & F & ->). cbn [case_k ii_Z ii_emax] in *. assert (FP : 0 < f).
        { destruct F as [[P1 (n & O & ->)]|[P1 O]]; unfold occupation in O; cbn [case_k ii_T] in O.
          - pose proof (exp_gt1 _ (arg_pos _ 1 P1 Rlt_0_1)). assert (0 < n) by (apply Rmult_lt_reg_r with (exp ((v2E 1000 - v2E vf) * (11605 / 1000) / 1) - 1); lra). lra.
          - pose proof (exp_gt1 _ (arg_pos (- (v2E 1000 - v2E vf)) 1 ltac:(lra) Rlt_0_1)). apply Rmult_lt_reg_r with (exp (- (v2E 1000 - v2E vf) * (11605 / 1000) / 1) - 1); lra. }
        apply Rdiv_lt_0_compat; [nra|lra].
    + pose proof (@is_RInt_const R_NormedModule lo hi 1) as CI. assert (C2 : is_RInt (fun _ : R => 1) lo hi ((hi - lo) * 1)) by exact CI. rewrite Rmult_1_r in C2. exact C2.
  - intros c C. assert (C2 : is_RInt (fun _ : R => hi - lo) 0 (2 * PI) ((2 * PI - 0) * (hi - lo))) by exact (@is_RInt_const R_NormedModule 0 (2 * PI) (hi - lo)). rewrite Rminus_0_r in C2. exact C2.
  - assert (C2 : is_RInt (fun _ : R => 2 * PI * (hi - lo)) (-1) 1 ((1 - -1) * (2 * PI * (hi - lo)))) by exact (@is_RInt_const R_NormedModule (-1) 1 (2 * PI * (hi - lo))). replace (1 - -1) with 2 in C2 by ring. exact C2.
Qed.
(** Detailed balance: the rates of a transition and of its inverse, per final energy and direction, are in the ratio of Boltzmann,
    for energy transfers of at least a hundredth of the greatest phonon energy. *)
Theorem C55_detailed_balance : forall k ev ev' u1 u2 u3 u1' u2' u3' o o' Ei ki Ef kf,
  ii_mass k <> 0 -> 0 < ii_T k -> 0 < ii_emax k -> 0 <= u1 <= 1 -> 0 <= u3 <= 1 -> 0 <= u1' <= 1 -> 0 <= u3' <= 1 ->
  e_v ev <> mkV 0 0 0 -> e_v ev' <> mkV 0 0 0 -> arrives (e_v ev) Ei ki -> arrives (e_v ev') Ef kf ->
  II_S k u1 u2 u3 ev = Ok o -> k_v o = Some (e_v ev') -> II_S k u1' u2' u3' ev' = Ok o' -> k_v o' = Some (e_v ev) ->
  ii_emax k / 100 <= Rabs (Ei - Ef) ->
  k_p o * (ki * ki) * (e_p ev' * (Ef + ii_emax k - Rmax 0 (Ef - ii_emax k)))
  = exp ((Ei - Ef) * (11605 / 1000) / ii_T k) * (k_p o' * (kf * kf) * (e_p ev * (Ei + ii_emax k - Rmax 0 (Ei - ii_emax k)))).
Proof. exact ii_balance. Qed.
Definition wide_k : ii_kernel := mkII 1 1 1 1 (fun _ => 1) 1 (v2E 3000) (fun _ => 0) 1.
Lemma v2E_lt a b : 0 <= a < b -> v2E a < v2E b.
Proof. intros H. unfold v2E. pose proof vsq2e_pos. assert (a * a < b * b) by nra. nra. Qed.
Lemma wide_ok : ii_mass wide_k <> 0 /\ 0 < ii_T wide_k /\ 0 < ii_emax wide_k.
Proof. cbn. repeat split; try lra. pose proof (v2E_lt 0 3000 ltac:(lra)). unfold v2E in *. lra. Qed.
Lemma u_in a b c : 0 <= a <= 3000 -> 0 < b -> c = v2E 3000 -> 0 <= v2E a / (v2E b + c) <= 1.
Proof.
  intros A B ->. pose proof (v2E_nonneg a). pose proof (v2E_lt 0 b ltac:(lra)) as BP. replace (v2E 0) with 0 in BP by (unfold v2E; ring). pose proof (v2E_nonneg 3000).
  assert (v2E a <= v2E 3000) by (destruct (Req_dec a 3000) as [->|]; [lra|left; apply v2E_lt; lra]).
  split; [apply Rmult_le_pos; [lra|left; apply Rinv_0_lt_compat; lra]|]. apply Rmult_le_reg_r with (v2E b + v2E 3000); [lra|].
  replace (v2E a / (v2E b + v2E 3000) * (v2E b + v2E 3000)) with (v2E a) by (field; lra). lra.
Qed.
Example C55_detailed_balance_case : exists u3 u3' o o', 0 <= u3 <= 1 /\ 0 <= u3' <= 1 /\
  II_S wide_k 1 0 u3 (along 1000) = Ok o /\ k_v o = Some (e_v (along 2000)) /\ II_S wide_k 1 0 u3' (along 2000) = Ok o' /\ k_v o' = Some (e_v (along 1000)) /\
  ii_emax wide_k / 100 <= Rabs (v2E 1000 - v2E 2000).
Proof.
  destruct wide_ok as (M & T & EM). pose proof vsq2e_pos as VS.
  destruct (along_run wide_k 1000 2000 ltac:(lra) ltac:(lra) M T EM ltac:(left; apply v2E_lt; lra)) as (o & A & B & _).
  destruct (along_run wide_k 2000 1000 ltac:(lra) ltac:(lra) M T EM ltac:(left; apply v2E_lt; lra)) as (o' & A' & B' & _).
  eexists _, _, o, o'. split; [|split; [|split; [exact A|split; [exact B|split; [exact A'|split; [exact B'|]]]]]].
  - apply u_in; try lra. reflexivity.
  - apply u_in; try lra. reflexivity.
  - cbn. rewrite Rabs_left; unfold v2E; nra.
Qed.
(** "Detailed balance holds for every transition": false for small energy transfers, where gain and loss have the same weight. *)
Theorem C55_detailed_balance_refuted : exists k ev ev' u3 u3' o o', 0 <= u3 <= 1 /\ 0 <= u3' <= 1 /\ 0 < ii_T k /\
  II_S k 1 0 u3 ev = Ok o /\ k_v o = Some (e_v ev') /\ II_S k 1 0 u3' ev' = Ok o' /\ k_v o' = Some (e_v ev) /\
  exists Ei ki Ef kf, arrives (e_v ev) Ei ki /\ arrives (e_v ev') Ef kf /\
  k_p o * (ki * ki) * (e_p ev' * (Ef + ii_emax k - Rmax 0 (Ef - ii_emax k)))
  <> exp ((Ei - Ef) * (11605 / 1000) / ii_T k) * (k_p o' * (kf * kf) * (e_p ev * (Ei + ii_emax k - Rmax 0 (Ei - ii_emax k)))).
Proof.
  destruct wide_ok as (M & T & EM). pose proof vsq2e_pos as VS.
  destruct (along_run wide_k 1000 1001 ltac:(lra) ltac:(lra) M T EM ltac:(left; apply v2E_lt; lra)) as (o & A & B & _).
  destruct (along_run wide_k 1001 1000 ltac:(lra) ltac:(lra) M T EM ltac:(left; apply v2E_lt; lra)) as (o' & A' & B' & _).
  assert (N : e_v (along 1000) <> mkV 0 0 0) by (cbn; intros H; injection H; intros; lra). assert (N' : e_v (along 1001) <> mkV 0 0 0) by (cbn; intros H; injection H; intros; lra).
  pose proof (u_in 1001 1000 (ii_emax wide_k) ltac:(lra) ltac:(lra) eq_refl) as U. pose proof (u_in 1000 1001 (ii_emax wide_k) ltac:(lra) ltac:(lra) eq_refl) as U'.
  exists wide_k, (along 1000), (along 1001), (v2E 1001 / (v2E 1000 + ii_emax wide_k)), (v2E 1000 / (v2E 1001 + ii_emax wide_k)), o, o'.
  split; [exact U|]. split; [exact U'|]. split; [exact T|]. split; [exact A|]. split; [exact B|]. split; [exact A'|]. split; [exact B'|].
  exists (v2E 1000), (v2k * 1000), (v2E 1001), (v2k * 1001).
  assert (SA : speed (e_v (along 1000)) = 1000) by (apply speed_along; lra). assert (SB : speed (e_v (along 1001)) = 1001) by (apply speed_along; lra).
  split; [apply arrives_iff; change (vnorm (e_v (along 1000))) with (speed (e_v (along 1000))); rewrite SA; split; reflexivity|].
  split; [apply arrives_iff; change (vnorm (e_v (along 1001))) with (speed (e_v (along 1001))); rewrite SB; split; reflexivity|].
  rewrite (ii_known wide_k (along 1000) 1 0 _ o _ N M T EM ltac:(lra) U A B). rewrite (ii_known wide_k (along 1001) 1 0 _ o' _ N' M T EM ltac:(lra) U' A' B').
  change (mkV 0 0 1001) with (e_v (along 1001)). change (mkV 0 0 1000) with (e_v (along 1000)).
  rewrite (speed_back (e_v (along 1001)) (e_v (along 1000))). rewrite SA, SB. set (Q := v2k * speed _).
  replace (v2E 1001 - v2E 1000) with (- (v2E 1000 - v2E 1001)) by ring. rewrite value_small.
  2:{ cbn [wide_k ii_emax]. rewrite Rabs_left; unfold v2E; nra. }
  set (x := exp ((v2E 1000 - v2E 1001) * (11605 / 1000) / ii_T wide_k)).
  assert (X : x < 1). { unfold x. rewrite <- exp_0. apply exp_increasing. cbn [wide_k ii_T]. pose proof (v2E_lt 1000 1001 ltac:(lra)). lra. }
  unfold ii_range. set (r := v2E 1000 + ii_emax wide_k - Rmax 0 (v2E 1000 - ii_emax wide_k)). set (r' := v2E 1001 + ii_emax wide_k - Rmax 0 (v2E 1001 - ii_emax wide_k)).
  assert (R1 : 0 < r). { unfold r. rewrite Rmax_left; cbn [wide_k ii_emax]; [pose proof (v2E_nonneg 1000); pose proof (v2E_lt 1000 3000 ltac:(lra)); lra|pose proof (v2E_lt 1000 3000 ltac:(lra)); lra]. }
  assert (R2 : 0 < r'). { unfold r'. rewrite Rmax_left; cbn [wide_k ii_emax]; [pose proof (v2E_nonneg 1001); pose proof (v2E_lt 1001 3000 ltac:(lra)); lra|pose proof (v2E_lt 1001 3000 ltac:(lra)); lra]. }
  assert (QP : 0 < Q). { unfold Q. apply Rmult_lt_0_compat; [apply v2k_pos|]. cbn [e_v along]. unfold vsub. cbn. unfold speed, norm2, sdot. apply sqrt_lt_R0. cbn. lra. }
  assert (VP : 0 < ii_value wide_k (v2E 1000 - v2E 1001) (k2E Q)).
  { unfold ii_value. rewrite (proj2 (Rltb_t _ _)) by (cbn [wide_k ii_emax]; rewrite Rabs_left; unfold v2E; nra). cbn [wide_k ii_sod ii_T]. unfold Kelvin2meV. rewrite k2E_v. unfold v2E. pose proof k2v_pos. assert (0 < k2v * Q) by nra. assert (0 < k2v * Q * (k2v * Q) * vsq2e) by (apply Rmult_lt_0_compat; [|exact VS]; apply Rmult_lt_0_compat; assumption). lra. }
  set (V := ii_value wide_k (v2E 1000 - v2E 1001) (k2E Q)) in *. cbn [wide_k ii_DW ii_mass e_p along]. rewrite Ropp_0, exp_0. pose proof v2k_pos as VK.
  replace (1 * r * (v2k * 1001 / (v2k * 1000)) * 1 / 1 * V * (v2k * 1000 * (v2k * 1000)) * (1 * r')) with (r * r' * (v2k * v2k) * (1000 * 1001) * V) by (field; lra).
  replace (1 * r' * (v2k * 1000 / (v2k * 1001)) * 1 / 1 * V * (v2k * 1001 * (v2k * 1001)) * (1 * r)) with (r * r' * (v2k * v2k) * (1000 * 1001) * V) by (field; lra).
  set (w := r * r' * (v2k * v2k) * (1000 * 1001) * V). assert (WP : 0 < w) by (unfold w; apply Rmult_lt_0_compat; [|exact VP]; apply Rmult_lt_0_compat; [|lra]; apply Rmult_lt_0_compat; apply Rmult_lt_0_compat; assumption). nra.
Qed.
(** Focusing on final energies: a window that the neutron can reach by losing energy gives the same, from the window; any other neutron is refused. *)
Theorem C55_focusing : forall k Ef0 dEf ev u1 u2 u3 Ei ki, arrives (e_v ev) Ei ki -> e_v ev <> mkV 0 0 0 -> ii_mass k <> 0 -> 0 < ii_T k -> 0 < ii_emax k ->
  0 <= u1 <= 1 -> 0 <= u3 <= 1 -> 0 <= dEf -> let lo := Ef0 - dEf / 2 in let hi := Ef0 + dEf / 2 in 0 <= lo ->
  (hi <= Ei <= hi + ii_emax k -> let Ef := lo + u3 * (hi - lo) in
    exists o vf kf Q ER w, II_focusing_S k Ef0 dEf u1 u2 u3 ev = Ok o /\ in_place ev o /\ 0 <= vf /\ is_energy Ef vf /\ wave_at Ef kf /\
      k_v o = Some (vscale vf (on_sphere (2 * u1 - 1) (2 * PI * u2))) /\ transfers (e_v ev) (vscale vf (on_sphere (2 * u1 - 1) (2 * PI * u2))) Q (Ei - Ef) /\
      wave_at ER Q /\ one_phonon (ii_Z k) (ii_sod k) (ii_emax k) (ii_T k) (Ei - Ef) ER w /\
      k_p o = e_p ev * dEf * (kf / ki * exp (- ii_DW k Q) / ii_mass k * w)) /\
  (~ (hi <= Ei <= hi + ii_emax k) -> exists o, II_focusing_S k Ef0 dEf u1 u2 u3 ev = Ok o /\ in_place ev o /\ k_v o = Some (e_v ev) /\ k_p o = -1).
Proof.
  intros k Ef0 dEf ev u1 u2 u3 Ei ki AR N M T EM U1 U3 D lo hi L0. apply arrives_iff in AR. destruct AR as [-> ->]. change (vnorm (e_v ev)) with (speed (e_v ev)) in *.
  rewrite focusing_run by (fold lo; lra). fold lo hi. split; intros W.
  - intros Ef. rewrite (proj2 (Rltb_f _ _)) by lra. rewrite (proj2 (Rltb_f _ _)) by lra. cbn [orb].
    assert (EB : lo <= Ef <= hi) by (unfold Ef, lo, hi; nra). assert (EF : random u3 lo hi = Ef) by (unfold random, Ef; ring). rewrite EF.
    destruct (E2v_inv Ef ltac:(lra)) as (vf & EV & VP & VE).
    replace (random u1 (-1) 1) with (2 * u1 - 1) by (unfold random; ring). replace (random u2 0 (2 * PI)) with (2 * PI * u2) by (unfold random; ring). set (d := on_sphere _ _).
    assert (DU : norm2 d = 1) by (apply on_sphere_unit; lra).
    destruct (weigh_exact k d Ef (hi - lo) ev vf N DU M T EM VP (eq_sym VE)) as [WE TR]. set (Q := v2k * speed (vsub (e_v ev) (vscale vf d))) in *.
    eexists. exists vf, (v2k * vf), Q, (k2E Q), (ii_value k (v2E (speed (e_v ev)) - Ef) (k2E Q)).
    split; [exact WE|]. split; [unfold in_place; cbn; auto|]. split; [exact VP|]. split; [apply is_energy_iff; congruence|].
    split; [exists vf; split; [exact VP|]; split; [apply is_energy_iff; congruence|apply is_wavenumber_iff; reflexivity]|].
    split; [reflexivity|]. split; [exact TR|]. split; [apply wave_k2E; apply Rmult_le_pos; [left; apply v2k_pos|apply speed_nonneg]|].
    split; [now apply ii_value_spec|]. cbn [with_pv k_p]. replace dEf with (hi - lo) by (unfold hi, lo; field). unfold Rdiv. ring.
  - exists (with_pv ev (-1) (Some (e_v ev))). split; [|split; [unfold in_place; cbn; auto|split; reflexivity]].
    destruct (Rltb (ii_emax k) _) eqn:A; [reflexivity|]. apply Rltb_f in A. rewrite (proj2 (Rltb_t _ _)) by lra. reflexivity.
Qed.
(** "With focusing the neutron reaches any final energy in the window that the kernel without focusing can reach": false for gains of energy. *)
Theorem C55_focusing_gain_refuted : exists k Ef0 dEf ev u3 o o', (exists vf, 0 <= vf /\ k_v o = Some (mkV 0 0 vf) /\ is_energy Ef0 vf) /\ 0 < dEf /\ 0 < k_p o /\
  II_S k 1 0 u3 ev = Ok o /\ (forall u1 u2 u3', 0 <= u1 <= 1 -> 0 <= u3' <= 1 -> II_focusing_S k Ef0 dEf u1 u2 u3' ev = Ok o' /\ k_p o' = -1).
Proof.
  destruct wide_ok as (M & T & EM). pose proof vsq2e_pos as VS.
  destruct (along_run wide_k 1000 2000 ltac:(lra) ltac:(lra) M T EM ltac:(left; apply v2E_lt; lra)) as (o & A & B & _).
  assert (N : e_v (along 1000) <> mkV 0 0 0) by (cbn; intros H; injection H; intros; lra). assert (SA : speed (e_v (along 1000)) = 1000) by (apply speed_along; lra).
  pose proof (u_in 2000 1000 (ii_emax wide_k) ltac:(lra) ltac:(lra) eq_refl) as U.
  exists wide_k, (v2E 2000), (v2E 1000), (along 1000), (v2E 2000 / (v2E 1000 + ii_emax wide_k)), o, (with_pv (along 1000) (-1) (Some (e_v (along 1000)))).
  split; [exists 2000; split; [lra|]; split; [exact B|now apply is_energy_iff]|]. assert (P1 : 0 < v2E 1000) by (unfold v2E; nra). split; [exact P1|]. split.
  - rewrite (ii_known wide_k (along 1000) 1 0 _ o _ N M T EM ltac:(lra) U A B). rewrite SA. set (Q := v2k * speed (vsub _ _)). rewrite speed_along by lra.
    assert (QP : 0 < Q). { unfold Q. apply Rmult_lt_0_compat; [apply v2k_pos|]. unfold vsub. cbn. unfold speed, norm2, sdot. apply sqrt_lt_R0. cbn. lra. }
    assert (KP : 0 < k2E Q). { rewrite k2E_v. unfold v2E. pose proof k2v_pos. assert (0 < k2v * Q) by nra. apply Rmult_lt_0_compat; [|exact VS]. apply Rmult_lt_0_compat; assumption. }
    assert (V : 0 < ii_value wide_k (v2E 1000 - v2E 2000) (k2E Q)).
    { assert (AB : Rabs (v2E 1000 - v2E 2000) = v2E 2000 - v2E 1000) by (rewrite Rabs_left; unfold v2E; nra).
      destruct (ii_value_spec wide_k (v2E 1000 - v2E 2000) (k2E Q) T EM) as [_ V2]. destruct V2 as (f & F & ->).
      - rewrite AB. cbn [wide_k ii_emax]. unfold v2E. nra.
      - destruct F as [[P _]|[P O]]; [unfold v2E in P; nra|]. unfold occupation in O. cbn [wide_k ii_T] in O. pose proof (exp_gt1 _ (arg_pos (- (v2E 1000 - v2E 2000)) 1 ltac:(lra) Rlt_0_1)) as X.
        assert (FP : 0 < f) by (apply Rmult_lt_reg_r with (exp (- (v2E 1000 - v2E 2000) * (11605 / 1000) / 1) - 1); lra).
        rewrite AB. cbn [wide_k ii_Z]. apply Rdiv_lt_0_compat; [nra|unfold v2E; nra]. }
    unfold ii_range. rewrite Rmax_left by (cbn [wide_k ii_emax]; pose proof (v2E_lt 1000 3000 ltac:(lra)); lra). cbn [wide_k ii_DW ii_mass e_p along]. rewrite Ropp_0, exp_0. pose proof v2k_pos as VK.
    assert (0 < v2k * 2000 / (v2k * 1000)) by (apply Rdiv_lt_0_compat; lra). unfold Rdiv at 1. rewrite Rinv_1, !Rmult_1_r, Rmult_1_l. pose proof EM as EM'. cbn [wide_k ii_emax] in EM' |- *. apply Rmult_lt_0_compat; [|exact V]. apply Rmult_lt_0_compat; lra.
  - split; [exact A|]. intros u1 u2 u3' U1 U3. split; [|reflexivity]. rewrite focusing_run; [|exact U1|exact U3|lra|unfold v2E; nra].
    rewrite SA. destruct (Rltb (ii_emax wide_k) _); [reflexivity|]. rewrite (proj2 (Rltb_t _ _)) by (unfold v2E; nra). reflexivity.
Qed.
(** The default mass is the mean of the masses, the default cross sections are the sums; a positive argument replaces each of them. *)
Theorem C55_defaults : forall atoms vol Z sod emax dw T am sx ax k, new_ii atoms vol Z sod emax dw T am sx ax = Ok k ->
  (am <= 0 -> ii_mass k * INR (List.length atoms) = total (map a_mass atoms)) /\ (0 < am -> ii_mass k = am) /\
  (sx <= 0 -> ii_scattering k = total (map a_inc atoms)) /\ (0 < sx -> ii_scattering k = sx) /\
  (ax <= 0 -> ii_absorption k = total (map a_abs atoms)) /\ (0 < ax -> ii_absorption k = ax).
Proof.
  intros atoms vol Z sod emax dw T am sx ax k. unfold new_ii, get_mass_and_xs. destruct (divide _ _) as [m|] eqn:D; [|discriminate]. cbn [bind]. intros H. injection H as <-.
  assert (F : forall g : atom -> R, forall l a, fold_left (fun s x => s + g x) l a = a + total (map g l)).
  { intros g. induction l as [|y l IH]; intros a; [cbn; unfold total; cbn; ring|]. cbn [fold_left map]. rewrite IH. unfold total. cbn. ring. }
  assert (C : forall a b c : R, (a <= 0 -> (if Rltb 0 a then b else c) = c) /\ (0 < a -> (if Rltb 0 a then b else c) = b)).
  { intros a b c. split; intros L; [rewrite (proj2 (Rltb_f _ _)) by lra|rewrite (proj2 (Rltb_t _ _)) by lra]; reflexivity. }
  cbn [ii_mass ii_scattering ii_absorption]. rewrite !F, !Rplus_0_l in *.
  split; [|split; [apply C|split; [apply C|split; [apply C|split; [apply C|apply C]]]]].
  intros L. rewrite (proj1 (C am am m)) by exact L. unfold divide in D. destruct (Req_EM_T _ 0) as [E|E]; [discriminate|]. injection D as <-. field. exact E.
Qed.
Example C55_defaults_case : exists k, new_ii [mkAtom 12 1 2; mkAtom 16 3 4] 1 (fun _ => 0) 0 1 (fun _ => 0) 300 0 0 0 = Ok k /\ ii_mass k = 14.
Proof.
  unfold new_ii, get_mass_and_xs. cbn [fold_left List.length a_mass a_inc a_abs]. rewrite div_ok by (cbn; lra). cbn [bind]. eexists. split; [reflexivity|]. cbn [ii_mass]. rewrite (proj2 (Rltb_f 0 0)) by lra. cbn. lra.
Qed.
(** Coefficients: cross section (barn) over cell volume (cubic angstrom) in 1/m, absorption at 2200 m/s scaled with the inverse speed. *)
Theorem C55_coefficients : forall k v, ii_vol k <> 0 -> v <> 0 -> exists a s, ii_absorption_coefficient k v = Ok a /\ ii_scattering_coefficient k = Ok s /\
  a * v * (ii_vol k / 10 ^ 30) = ii_absorption k / 10 ^ 28 * 2200 /\ s * (ii_vol k / 10 ^ 30) = ii_scattering k / 10 ^ 28.
Proof.
  intros k v V N. unfold ii_absorption_coefficient, ii_scattering_coefficient. rewrite !div_ok by assumption. cbn [bind]. eexists _, _. repeat split; field; auto.
Qed.
Example C55_coefficients_case : let k := mkII 51 5 5 14 (fun _ => 1) 1 40 (fun _ => 0) 300 in ii_vol k <> 0 /\ ii_absorption k / 10 ^ 28 * 2200 <> 0.
Proof. cbn. split; lra. Qed.
(** "Q enters as the recoil energy hbar^2 Q^2 / (2 M) of the atom, M in atomic mass units": false, the neutron's mass is the unit; 0.8 percent too small. *)
Theorem C55_recoil_refuted : forall Q, 0 < Q -> forall m, 0 < m ->
  k2E Q / m < (1 - 8 / 1000) * ((1054571628 / 10 ^ 43 * (Q * 10 ^ 10)) ^ 2 / (2 * (166053886 / 10 ^ 35) * m) / (160217733 / 10 ^ 30)).
Proof.
  intros Q P m MP. unfold k2E, ksquare2E, vsquare2E, k2v, vsq2e, hbar, neutron_mass, electron_charge. assert (0 < / m) by (now apply Rinv_0_lt_compat). assert (0 < Q * Q * / m) by (repeat apply Rmult_lt_0_compat; assumption).
  match goal with |- ?a < ?b => let a' := constr:(a) in replace a with (Q * Q * / m * (a / (Q * Q * / m))) by (field; lra) end.
  match goal with |- _ < ?b => replace b with (Q * Q * / m * (b / (Q * Q * / m))) by (field; lra) end.
  apply Rmult_lt_compat_l; [assumption|].
  match goal with |- ?a < ?b => field_simplify a; [field_simplify b|]; try lra end.
  all: lra.
Qed.

(** ** C56 *)
(** The exponent is quadratic in the momentum transfer, and for a vector depends on its length. *)
Theorem C56_exponent : forall core q Q, DW core (q * speed Q) = q * q * DW_vector core Q /\ DW_vector core Q = (vx Q * vx Q + vy Q * vy Q + vz Q * vz Q) * core.
Proof.
  intros core q Q. unfold DW_vector, DW. change (vnorm Q) with (speed Q). pose proof (speed_norm Q) as N. unfold norm2, sdot in N. split; [ring|]. rewrite N. ring.
Qed.
(** A density of states from zero energy: hbar^2/(2M) times the trapezoidal sum of (2n+1) Z(E) / E at equal steps, linearly extrapolated to E = 0. *)
Theorem C56_sum : forall Z wmax mass T n, 0 < wmax -> 0 <= T -> let h := wmax / (INR (n - 1) + 1 / 10 ^ 8) in mass <> 0 -> (3 <= n)%nat ->
  forall F : nat -> R, (forall i, (1 <= i < n)%nat -> fluctuation Z T (INR i * h) (F i)) -> F 0%nat = 2 * F 1%nat - F 2%nat ->
  calc_DW_core Z 0 wmax n mass T = Ok (dw_unit mass * trapezoids h F (n - 1)).
Proof. intros Z wmax mass T n W TP h. exact (core_zero Z wmax mass T n W TP). Qed.
Example C56_sum_case : exists F : nat -> R, let h := 40 / (INR (100 - 1) + 1 / 10 ^ 8) in
  (forall i, (1 <= i < 100)%nat -> fluctuation (fun E => E * E) 0 (INR i * h) (F i)) /\ F 0%nat = 2 * F 1%nat - F 2%nat /\ 0 < F 1%nat.
Proof.
  assert (P : 0 < INR (100 - 1)) by (apply lt_0_INR; lia). set (h := 40 / (INR (100 - 1) + 1 / 10 ^ 8)). assert (HP : 0 < h) by (apply Rdiv_lt_0_compat; lra).
  exists (fun i => INR i * h). cbv zeta. split; [|split; cbn [INR]; lra]. intros i I. exists 0. split; [right; split; reflexivity|].
  assert (0 < INR i) by (apply lt_0_INR; lia). field. split; apply Rgt_not_eq; assumption.
Qed.
(** A density of states that starts at an energy above zero: half of the step times the first value and the value extrapolated to E = 0 are added. *)
Theorem C56_sum_gap : forall Z wmin wmax mass T n, let h := (wmax - wmin) / (INR (n - 1) + 1 / 10 ^ 8) in
  0 < wmin < wmax -> 0 <= T -> mass <> 0 -> (2 <= n)%nat -> wmax / INR n / 100 <= wmin ->
  forall F : nat -> R, (forall i, (i < n)%nat -> fluctuation Z T (wmin + INR i * h) (F i)) ->
  calc_DW_core Z wmin wmax n mass T = Ok (dw_unit mass * (trapezoids h F (n - 1) + h * (F 0%nat + (F 0%nat - wmin * (F 1%nat - F 0%nat) / h)) / 2)).
Proof. exact core_gap. Qed.
Example C56_sum_gap_case : exists F : nat -> R, let h := (40 - 10) / (INR (100 - 1) + 1 / 10 ^ 8) in
  (forall i, (i < 100)%nat -> fluctuation (fun E => E * E) 0 (10 + INR i * h) (F i)) /\ 40 / INR 100 / 100 <= 10.
Proof.
  assert (P : 0 < INR (100 - 1)) by (apply lt_0_INR; lia). set (h := (40 - 10) / (INR (100 - 1) + 1 / 10 ^ 8)). assert (HP : 0 < h) by (apply Rdiv_lt_0_compat; lra).
  exists (fun i => 10 + INR i * h). cbv zeta. split.
  - intros i I. exists 0. split; [right; split; reflexivity|]. pose proof (pos_INR i). field. nra.
  - assert (1 <= INR 100) by (apply (le_INR 1); lia). apply Rmult_le_reg_r with (INR 100); [lra|]. replace (40 / INR 100 / 100 * INR 100) with (40 / 100) by (field; lra). lra.
Qed.
(** "For a density of states above a gap the sum is over its range": false, energies below it contribute. *)
Theorem C56_gap_refuted : exists Z wmin wmax n mass c, (forall E, ~ wmin <= E <= wmax -> Z E = 0) /\ 0 < wmin < wmax /\ (3 <= n)%nat /\ 0 < mass /\
  let h := (wmax - wmin) / (INR (n - 1) + 1 / 10 ^ 8) in calc_DW_core Z wmin wmax n mass 0 = Ok c /\
  exists F, (forall i, (i < n)%nat -> fluctuation Z 0 (wmin + INR i * h) (F i)) /\ dw_unit mass * trapezoids h F (n - 1) < c.
Proof.
  set (Z := fun E => if Rle_dec 10 E then if Rle_dec E 40 then E else 0 else 0).
  assert (P : 0 < INR (100 - 1)) by (apply lt_0_INR; lia). set (h := (40 - 10) / (INR (100 - 1) + 1 / 10 ^ 8)). assert (HP : 0 < h) by (apply Rdiv_lt_0_compat; lra).
  assert (FL : forall i, (i < 100)%nat -> fluctuation Z 0 (10 + INR i * h) 1).
  { intros i I. exists 0. split; [right; split; reflexivity|]. pose proof (pos_INR i) as IP. assert (IB : INR i <= INR (100 - 1)) by (apply le_INR; lia).
    assert (B : INR i * h <= 30). { unfold h. apply Rmult_le_reg_r with (INR (100 - 1) + 1 / 10 ^ 8); [lra|]. replace (INR i * ((40 - 10) / (INR (100 - 1) + 1 / 10 ^ 8)) * (INR (100 - 1) + 1 / 10 ^ 8)) with (30 * INR i) by (field; lra). nra. }
    unfold Z. destruct (Rle_dec 10 _) as [_|X]; [|exfalso; apply X; nra]. destruct (Rle_dec _ 40) as [_|X]; [|exfalso; apply X; lra]. field. nra. }
  assert (W : 40 / INR 100 / 100 <= 10). { assert (1 <= INR 100) by (apply (le_INR 1); lia). apply Rmult_le_reg_r with (INR 100); [lra|]. replace (40 / INR 100 / 100 * INR 100) with (40 / 100) by (field; lra). lra. }
  pose proof (C56_sum_gap Z 10 40 1 0 100 ltac:(lra) ltac:(lra) R1_neq_R0 ltac:(lia) W (fun _ => 1) FL) as C. fold h in C. cbv beta in C.
  eexists Z, 10, 40, 100%nat, 1, _. split; [|split; [lra|split; [lia|split; [lra|]]]].
  - intros E NE. unfold Z. destruct (Rle_dec 10 E); [|reflexivity]. destruct (Rle_dec E 40); [|reflexivity]. exfalso. apply NE. lra.
  - cbv zeta. split; [exact C|]. exists (fun _ => 1). split; [exact FL|]. fold h. pose proof (dw_unit_pos 1 Rlt_0_1) as U. apply Rmult_lt_compat_l; [exact U|].
    replace (h * (1 + (1 - 10 * (1 - 1) / h)) / 2) with h by (field; lra). lra.
Qed.
(** "Every number of samples gives a number or an exception": false below three. *)
Theorem C56_few_refuted : forall Z wmax mass T n, 0 < wmax ->
  (n = 2%nat -> calc_DW_core Z 0 wmax n mass T = Err UndefinedBehaviour) /\ ((n < 2)%nat -> calc_DW_core Z 0 wmax n mass T = Err Terminated).
Proof. intros Z wmax mass T n W. exact (core_few Z wmax mass T n W). Qed.
(** "With more samples the result converges": false.  A density of states of this library is linear up to its second datum, and then
    the result grows beyond any bound (as the logarithm of the number of samples). *)
Theorem C56_converges_refuted : forall de ne Z d mass T, new_dos 0 de ne Z = Ok (Some d) -> Forall (fun z => 0 <= z) Z -> nth 0 Z 0 = 0 -> 0 < nth 1 Z 0 -> 0 < mass -> 0 < T ->
  forall M, exists N, forall n, (N <= n)%nat -> exists c, calc_DW_core (fun E => number (dos_at d E)) 0 (INR (ne - 1) * de) n mass T = Ok c /\ M < c.
Proof.
  intros de ne Z d mass T D P Z0 Z1 MP TP. destruct (made_facts _ _ _ _ _ D) as (DP & _ & NL & L & TZ & _).
  assert (TPos : 0 < total Z) by (pose proof (total_nonneg Z P); lra).
  apply (core_diverges _ (nth 1 Z 0 / (de * total Z) / de) de); try assumption.
  - repeat apply Rdiv_lt_0_compat; try assumption. nra.
  - apply Rmult_lt_0_compat; [apply lt_0_INR; lia|exact DP].
  - intros E [E1 E2]. replace E with (0 + (INR 0 + E / de) * de) at 1 by (cbn [INR]; field; lra).
    rewrite (dos_value _ _ _ _ _ D 0 (E / de)); [|lia|].
    + cbn [number]. rewrite Z0. unfold mix. field. split; lra.
    + split; [apply Rmult_le_pos; [lra|left; now apply Rinv_0_lt_compat]|]. apply Rmult_lt_reg_r with de; [exact DP|]. replace (E / de * de) with E by (field; lra). lra.
  - intros E _. destruct (dos_total _ _ _ _ _ D E) as (v & -> & V). cbn. now apply V.
Qed.
Example C56_converges_case : exists d, new_dos 0 1 30 (squares_to 30) = Ok (Some d) /\ Forall (fun z => 0 <= z) (squares_to 30) /\ nth 0 (squares_to 30) 0 = 0 /\ 0 < nth 1 (squares_to 30) 0.
Proof. destruct (squares_made 30 ltac:(lia)) as [d D]. exists d. split; [exact D|]. split; [apply squares_nonneg|]. rewrite !nth_squares by lia. cbn. lra. Qed.

Print Assumptions C54_made_iff.
Print Assumptions C54_rejected.
Print Assumptions C54_process_ends.
Print Assumptions C54_nan_iff.
Print Assumptions C54_few_refuted.
Print Assumptions C54_value.
Print Assumptions C54_outside.
Print Assumptions C54_last_refuted.
Print Assumptions C54_total.
Print Assumptions C54_integral.
Print Assumptions C54_normalised_refuted.
Print Assumptions C54_scale.
Print Assumptions C54_start.
Print Assumptions C54_start_exact.
Print Assumptions C54_histogram.
Print Assumptions C54_uneven_refuted.
Print Assumptions C55_factor.
Print Assumptions C55_factor_balance.
Print Assumptions C55_factor_cold.
Print Assumptions C55_factor_zero_refuted.
Print Assumptions C55_scatter.
Print Assumptions C55_mean.
Print Assumptions C55_detailed_balance.
Print Assumptions C55_detailed_balance_refuted.
Print Assumptions C55_focusing.
Print Assumptions C55_focusing_gain_refuted.
Print Assumptions C55_defaults.
Print Assumptions C55_coefficients.
Print Assumptions C55_recoil_refuted.
Print Assumptions C56_exponent.
Print Assumptions C56_sum.
Print Assumptions C56_sum_gap.
Print Assumptions C56_gap_refuted.
Print Assumptions C56_few_refuted.
Print Assumptions C56_converges_refuted.
