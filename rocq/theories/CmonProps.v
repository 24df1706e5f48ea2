(** C97: cylindrical monitors. *)
From Coq Require Import Reals List Lra Lia ZArith.
From Verif Require Import Base RotModel ChanModel ShapeModel ShapeSpec ChanProofs GridProofs OptModel OptSpec OptProofs3 McsModel McsSpec McsProofs McsProps BmonModel BmonSpec BmonProofs BmonProofs2 CmonModel CmonSpec CmonProofs.
Import ListNotations.
Open Scope R_scope.

(** TOF_cylPSD_monitor counts a neutron that leaves through the side within the time window in the cell of its time and of its angle about the axis, and moves it there. *)
Theorem C97_tofcyl : forall radius height nt nphi t_0 t_1 h r s phi i j, (0 < nt < 2 ^ 31)%Z -> (0 < nphi < 2 ^ 31)%Z -> 0 <= height -> vx (r_vel r) <> 0 \/ vz (r_vel r) <> 0 -> t_0 < t_1 ->
  List.length h = (Z.to_nat nt * Z.to_nat nphi)%nat -> leaves_side radius height r s -> azimuth (vx (on_line (r_pos r) (r_vel r) s)) (vz (on_line (r_pos r) (r_vel r) s)) phi ->
  (i < Z.to_nat nt)%nat -> (j < Z.to_nat nphi)%nat -> in_bin t_0 t_1 nt i (10 ^ 6 * (r_t r + s)) -> in_bin (- PI) PI nphi j phi ->
  exists h' r', tofcyl_trace None radius height nt nphi t_0 t_1 h r = Ok (h', r') /\ flown weightless r s r' /\ counted h h' (j + i * Z.to_nat nphi) (r_p r).
Proof.
  intros R0 H nt nphi t_0 t_1 h r s phi i j NT NP HH NV TT LEN L AZ I J BI BJ. pose proof PI_RGT_0 as Pp. pose proof (n31 nphi NP) as N. exists (add_at h (j + i * Z.to_nat nphi) (r_p r)), (prop_dt_nogravity s r).
  split; [|split; [apply moved_flown|apply add_counted; rewrite LEN; now apply flat]].
  rewrite (tof_unfold R0 H nt nphi t_0 t_1 h r s phi NT NP HH NV TT L AZ i BI I). apply (in_bin_floor (- PI) PI nphi j) in BJ; [|lra|lia].
  assert (E : (phi - - PI) * IZR nphi / (PI - - PI) = IZR nphi / 2 + phi / (2 * PI) * IZR nphi) by (field; lra). rewrite E in BJ.
  assert (Rg : - 2 ^ 31 <= IZR nphi / 2 + phi / (2 * PI) * IZR nphi < 2 ^ 31).
  { destruct (floor_bounds (IZR nphi / 2 + phi / (2 * PI) * IZR nphi)) as [A B]. rewrite BJ in A, B. assert (0 <= IZR (Z.of_nat j)) by (apply IZR_le; lia). assert (IZR (Z.of_nat j) <= IZR nphi - 1) by (rewrite <- minus_IZR; apply IZR_le; lia). lra. }
  rewrite (int_floor_ok _ Rg), BJ. cbn [bind]. rewrite flat_of by lia. rewrite tally_in by (rewrite LEN; now apply flat). reflexivity.
Qed.
Print Assumptions C97_tofcyl.
(** from the centre along x, in a cylinder of radius 1 m: it arrives after 1 ms at 90 degrees *)
Definition aside : ray := mkRay (mkV 0 (1 / 10) 0) (mkV 1000 0 0) 0 0 0 2.
Lemma aside_leaves : leaves_side 1 2 aside (/ 1000).
Proof. unfold leaves_side. split; [apply cyl_open_iff; unfold axis_dist2; cbn; lra|]. unfold axis_dist2, on_line. cbn. split; [lra|]. split; [field|lra]. Qed.
Lemma aside_phi : azimuth (vx (on_line (r_pos aside) (r_vel aside) (/ 1000))) (vz (on_line (r_pos aside) (r_vel aside) (/ 1000))) (PI / 2).
Proof. exists 1. pose proof PI_RGT_0. rewrite sin_PI2, cos_PI2. cbn. split; [lra|]. split; [lra|]. split; field. Qed.
Example C97_tofcyl_ex : exists h' r', tofcyl_trace None 1 2 2 4 0 1500 (empty 8) aside = Ok (h', r') /\ nth_error h' 7 = Some (mkCell 1 2 4).
Proof.
  pose proof PI_RGT_0. destruct (C97_tofcyl 1 2 2 4 0 1500 (empty 8) aside (/ 1000) (PI / 2) 1 3) as (h' & r' & E & _ & (_ & (c & c' & A & B & C1 & C2 & C3) & _));
    [lia|lia|lra|left; cbn; lra|lra|reflexivity|exact aside_leaves|exact aside_phi|cbn; lia|cbn; lia|unfold in_bin; cbn; lra|unfold in_bin; cbn; lra|].
  exists h', r'. split; [exact E|]. cbn in A. injection A as <-. change (1 * Z.to_nat 4)%nat with 4%nat in B. cbn [Nat.add] in B. rewrite B. destruct c'. cbn in *. f_equal. f_equal; lra.
Qed.

(** Outside of the window nothing is counted; neutrons that leave through an end, never are in the cylinder or come from outside are absorbed. *)
Theorem C97_tofcyl_lost : forall radius height nt nphi t_0 t_1 h r, 0 <= height -> vx (r_vel r) <> 0 \/ vz (r_vel r) <> 0 -> t_0 < t_1 ->
  (forall s, leaves_side radius height r s -> 10 ^ 6 * (r_t r + s) < t_0 \/ t_1 <= 10 ^ 6 * (r_t r + s) -> (0 < nt)%Z -> - 2 ^ 31 <= (10 ^ 6 * (r_t r + s) - t_0) * IZR nt / (t_1 - t_0) < 2 ^ 31 ->
    exists r', tofcyl_trace None radius height nt nphi t_0 t_1 h r = Ok (h, r') /\ flown weightless r s r') /\
  (forall s, leaves_end radius height r s -> exists r', tofcyl_trace None radius height nt nphi t_0 t_1 h r = Ok (h, r') /\ absorbed r') /\
  ((forall t, closed_cylinder radius height (on_line (r_pos r) (r_vel r) t) -> 0 < t) -> exists r', tofcyl_trace None radius height nt nphi t_0 t_1 h r = Ok (h, r') /\ absorbed r').
Proof.
  intros R0 H nt nphi t_0 t_1 h r HH NV TT. assert (P6 : 0 < / 10 ^ 6) by (apply Rinv_0_lt_compat; lra). assert (Ab : forall q, absorbed (absorb q)) by (intros q; unfold absorbed, absorb; cbn; lra). split; [|split].
  - intros s L W NT B. destruct (hit_inside R0 H r HH NV (proj1 L)) as (t0 & t1 & k & E & K & T & In). assert (t1 = s) by (eapply last_time; eauto). subst t1. exists (prop_dt_nogravity s r). split; [|apply moved_flown].
    unfold tofcyl_trace. cbv zeta. rewrite E. cbn [bind hit_value hit_times]. rewrite (proj2 (Z.eqb_neq k 0) K), (proj2 (Rltb_f 0 t0)) by lra. rewrite moved by lra. rewrite !moved_at.
    destruct L as (_ & S0 & _ & Y). rewrite (proj2 (Rleb_false (H / 2) _)), (proj2 (Rleb_false _ (- H / 2))) by lra. cbn [orb]. change (r_t (prop_dt_nogravity s r)) with (r_t r + s). set (u := r_t r + s) in *.
    assert (X : (u - t_0 * / 10 ^ 6) * IZR nt / (t_1 * / 10 ^ 6 - t_0 * / 10 ^ 6) = (10 ^ 6 * u - t_0) * IZR nt / (t_1 - t_0)) by (field; lra).
    assert (Bn : bin u (t_0 * / 10 ^ 6) (t_1 * / 10 ^ 6) (IZR nt) = Ok (floorZ ((10 ^ 6 * u - t_0) * IZR nt / (t_1 - t_0)))).
    { unfold bin, quot. rewrite (proj2 (Reqb_f _ 0)). 2: { assert (t_0 * / 10 ^ 6 < t_1 * / 10 ^ 6) by (apply Rmult_lt_compat_r; assumption). lra. } cbn [bind]. rewrite X. apply (int_floor_ok _ B). }
    rewrite Bn. cbn [bind]. set (q := (10 ^ 6 * u - t_0) * IZR nt / (t_1 - t_0)) in *. destruct (floor_bounds q) as [F1 F2]. assert (Nn : 0 < IZR nt) by (apply IZR_lt; lia). assert (Qq : q * (t_1 - t_0) = (10 ^ 6 * u - t_0) * IZR nt) by (unfold q; field; lra).
    destruct W as [W|W].
    + assert (Q0 : q < 0) by nra. assert (Z0 : (floorZ q < 0)%Z) by (apply lt_IZR; lra). rewrite (proj2 (Z.ltb_lt _ _) Z0). reflexivity.
    + assert (Q0 : IZR nt <= q) by nra. assert (Z0 : (nt <= floorZ q)%Z). { apply Z.lt_succ_r, lt_IZR. rewrite succ_IZR. lra. } rewrite (proj2 (Z.leb_le _ _) Z0), Bool.orb_true_r. reflexivity.
  - intros s L. destruct (hit_inside R0 H r HH NV (proj1 L)) as (t0 & t1 & k & E & K & T & In). assert (t1 = s) by (eapply last_time; eauto). subst t1.
    unfold tofcyl_trace. cbv zeta. rewrite E. cbn [bind hit_value hit_times]. rewrite (proj2 (Z.eqb_neq k 0) K), (proj2 (Rltb_f 0 t0)) by lra. rewrite moved by lra. rewrite !moved_at. eexists. split; [|apply Ab].
    destruct L as (_ & _ & _ & Y). unfold Rabs in Y. destruct (Rcase_abs (vy (on_line (r_pos r) (r_vel r) s))) as [N|N].
    + rewrite (proj2 (Rleb_true _ (- H / 2))) by lra. rewrite Bool.orb_true_r. reflexivity.
    + rewrite (proj2 (Rleb_true (H / 2) _)) by lra. reflexivity.
  - intros O. destruct (C78_cylinder (r_pos r) (r_vel r) R0 H HH NV) as (o & k & E & K0 & K1). exists (absorb r). split; [|apply Ab]. unfold tofcyl_trace. cbv zeta. rewrite E. cbn [bind hit_value hit_times].
    destruct (Z.eqb_spec k 0) as [Z|Z]; [reflexivity|]. destruct (K1 Z) as (t0 & t1 & -> & [Le In] & _). assert (T0 : 0 < t0) by (apply O, In; lra). rewrite (proj2 (Rltb_t _ _) T0). reflexivity.
Qed.
Print Assumptions C97_tofcyl_lost.
Example C97_tofcyl_lost_ex : leaves_side 1 2 aside (/ 1000) /\ 10 <= 10 ^ 6 * (r_t aside + / 1000) /\ leaves_end 1 2 (mkRay (mkV 0 0 0) (mkV 1 2 0) 0 0 0 1) (1 / 2) /\
  (forall t, closed_cylinder 1 2 (on_line (mkV (-3) 0 0) (mkV 1 0 0) t) -> 0 < t).
Proof.
  split; [exact aside_leaves|]. split; [cbn; lra|]. split.
  - unfold leaves_end. split; [apply cyl_open_iff; unfold axis_dist2; cbn; lra|]. unfold axis_dist2, on_line. cbn. split; [lra|]. split; [lra|]. rewrite Rabs_right; lra.
  - intros t C. apply cyl_iff in C. unfold axis_dist2, on_line in C. cbn in C. nra.
Qed.

(** A neutron at exactly 180 degrees is counted in the next time channel at -180 degrees, and outside of the array in the last one. *)
Theorem C97_tofcyl_back_refuted : forall radius height nt nphi t_0 t_1 h r s i, (0 < nt < 2 ^ 31)%Z -> (0 < nphi < 2 ^ 31)%Z -> 0 <= height -> vx (r_vel r) <> 0 \/ vz (r_vel r) <> 0 -> t_0 < t_1 ->
  List.length h = (Z.to_nat nt * Z.to_nat nphi)%nat -> leaves_side radius height r s -> azimuth (vx (on_line (r_pos r) (r_vel r) s)) (vz (on_line (r_pos r) (r_vel r) s)) PI ->
  (i < Z.to_nat nt)%nat -> in_bin t_0 t_1 nt i (10 ^ 6 * (r_t r + s)) ->
  ((i + 1 < Z.to_nat nt)%nat -> exists h' r', tofcyl_trace None radius height nt nphi t_0 t_1 h r = Ok (h', r') /\ counted h h' (0 + (i + 1) * Z.to_nat nphi) (r_p r)) /\
  ((i + 1 = Z.to_nat nt)%nat -> tofcyl_trace None radius height nt nphi t_0 t_1 h r = Err UndefinedBehaviour).
Proof.
  intros R0 H nt nphi t_0 t_1 h r s i NT NP HH NV TT LEN L AZ I BI. pose proof PI_RGT_0 as Pp. pose proof (n31 nphi NP) as N. rewrite (tof_unfold R0 H nt nphi t_0 t_1 h r s PI NT NP HH NV TT L AZ i BI I).
  replace (IZR nphi / 2 + PI / (2 * PI) * IZR nphi) with (IZR nphi) by (field; lra). rewrite int_floor_ok by lra. rewrite floor_IZR. cbn [bind].
  replace (nphi + Z.of_nat i * nphi)%Z with (Z.of_nat (0 + (i + 1) * Z.to_nat nphi)) by (rewrite Nat2Z.inj_add, Nat2Z.inj_mul, Z2Nat.id by lia; lia). split.
  - intros I'. assert (K : (0 + (i + 1) * Z.to_nat nphi < List.length h)%nat) by (rewrite LEN; apply flat; lia). rewrite tally_in by exact K. eexists _, _. split; [reflexivity|]. now apply add_counted.
  - intros I'. unfold tally. rewrite LEN, I'. destruct (Z.ltb_spec (Z.of_nat (0 + Z.to_nat nt * Z.to_nat nphi)) 0); [lia|]. rewrite (proj2 (Z.leb_le _ _)) by lia. reflexivity.
Qed.
Print Assumptions C97_tofcyl_back_refuted.
Definition back : ray := mkRay (mkV 0 0 0) (mkV 0 0 (-1000)) 0 0 0 1.
Example C97_tofcyl_back_ex : leaves_side 1 2 back (/ 1000) /\ azimuth (vx (on_line (r_pos back) (r_vel back) (/ 1000))) (vz (on_line (r_pos back) (r_vel back) (/ 1000))) PI /\ in_bin 0 1500 2 1 (10 ^ 6 * (r_t back + / 1000)).
Proof.
  pose proof PI_RGT_0. split; [|split].
  - unfold leaves_side. split; [apply cyl_open_iff; unfold axis_dist2; cbn; lra|]. unfold axis_dist2, on_line. cbn. split; [lra|]. split; [field|lra].
  - exists 1. rewrite sin_PI, cos_PI. cbn. split; [lra|]. split; [lra|]. split; field.
  - unfold in_bin. cbn. lra.
Qed.

(** PSDcyl_monitor counts in the cell of angle and height, from 0 on, the neutrons with an angle from 0 to 180 degrees in the upper half of the cylinder. *)
Theorem C97_psdcyl : forall radius height nr ny h r s phi i j, (0 < nr < 2 ^ 31)%Z -> (0 < ny < 2 ^ 31)%Z -> 2 * / 10 ^ 10 <= height -> vx (r_vel r) <> 0 \/ vz (r_vel r) <> 0 ->
  List.length h = (Z.to_nat nr * Z.to_nat ny)%nat -> leaves_side radius height r s -> azimuth (vx (on_line (r_pos r) (r_vel r) s)) (vz (on_line (r_pos r) (r_vel r) s)) phi ->
  (i < Z.to_nat nr)%nat -> (j < Z.to_nat ny)%nat -> in_bin 0 (2 * PI) nr i phi -> in_bin 0 height ny j (vy (on_line (r_pos r) (r_vel r) s)) ->
  exists h' r', psdcyl_trace None radius height nr ny h r = Ok (h', r') /\ flown weightless r s r' /\ counted h h' (j + i * Z.to_nat ny) (r_p r).
Proof.
  intros R0 H nr ny h r s phi i j NR NY HH NV LEN L AZ I J BI BJ. pose proof PI_RGT_0 as Pp. exists (add_at h (j + i * Z.to_nat ny) (r_p r)), (prop_dt_nogravity s r).
  split; [|split; [apply moved_flown|apply add_counted; rewrite LEN; now apply flat]].
  rewrite (psd_unfold R0 H nr ny h r s phi HH NV L AZ). apply (in_bin_floor 0 (2 * PI) nr i) in BI; [|lra|lia]. assert (P10 : 0 < / 10 ^ 10) by (apply Rinv_0_lt_compat; lra). apply (in_bin_floor 0 H ny j) in BJ; [|lra|lia].
  set (y := vy (on_line (r_pos r) (r_vel r) s)) in *. assert (E1 : (phi - 0) * IZR nr / (2 * PI - 0) = phi / (2 * PI) * IZR nr) by (field; lra). rewrite E1 in BI.
  assert (E2 : (y - 0) * IZR ny / (H - 0) = y / H * IZR ny) by (field; lra). rewrite E2 in BJ.
  assert (Q : forall x n k, (0 < n < 2 ^ 31)%Z -> (k < Z.to_nat n)%nat -> floorZ x = Z.of_nat k -> int_floor x = Ok (Z.of_nat k)).
  { intros x n k N K F. pose proof (n31 n N). rewrite int_floor_ok; [now rewrite F|]. destruct (floor_bounds x) as [A B]. rewrite F in A, B. assert (0 <= IZR (Z.of_nat k)) by (apply IZR_le; lia).
    assert (IZR (Z.of_nat k) <= IZR n - 1) by (rewrite <- minus_IZR; apply IZR_le; lia). lra. }
  rewrite (Q _ nr i NR I BI). cbn [bind]. rewrite (Q _ ny j NY J BJ). cbn [bind]. rewrite flat_of by lia. rewrite tally_in by (rewrite LEN; now apply flat). reflexivity.
Qed.
Print Assumptions C97_psdcyl.
Example C97_psdcyl_ex : exists h' r', psdcyl_trace None 1 2 4 4 (empty 16) aside = Ok (h', r') /\ nth_error h' 4 = Some (mkCell 1 2 4).
Proof.
  pose proof PI_RGT_0. destruct (C97_psdcyl 1 2 4 4 (empty 16) aside (/ 1000) (PI / 2) 1 0) as (h' & r' & E & _ & (_ & (c & c' & A & B & C1 & C2 & C3) & _));
    [lia|lia|lra|left; cbn; lra|reflexivity|exact aside_leaves|exact aside_phi|cbn; lia|cbn; lia|unfold in_bin; cbn; lra|unfold in_bin; cbn; lra|].
  exists h', r'. split; [exact E|]. cbn in A. injection A as <-. change (1 * Z.to_nat 4)%nat with 4%nat in B. cbn [Nat.add] in B. rewrite B. destruct c'. cbn in *. f_equal. f_equal; lra.
Qed.

(** All neutrons with a negative angle write before the start of the arrays. *)
Theorem C97_psdcyl_refuted : forall radius height nr ny h r s phi, (0 < nr < 2 ^ 31)%Z -> (0 < ny < 2 ^ 31)%Z -> 2 * / 10 ^ 10 <= height -> vx (r_vel r) <> 0 \/ vz (r_vel r) <> 0 ->
  leaves_side radius height r s -> azimuth (vx (on_line (r_pos r) (r_vel r) s)) (vz (on_line (r_pos r) (r_vel r) s)) phi -> phi < 0 ->
  psdcyl_trace None radius height nr ny h r = Err UndefinedBehaviour.
Proof.
  intros R0 H nr ny h r s phi NR NY HH NV L AZ Neg. pose proof PI_RGT_0 as Pp. assert (P10 : 0 < / 10 ^ 10) by (apply Rinv_0_lt_compat; lra). rewrite (psd_unfold R0 H nr ny h r s phi HH NV L AZ).
  pose proof (n31 nr NR) as N1. pose proof (n31 ny NY) as N2. set (y := vy (on_line (r_pos r) (r_vel r) s)). assert (Y : - H / 2 < y < H / 2) by apply L. assert (P : - PI < phi) by (destruct AZ as (rho & _ & A & _); lra).
  assert (F1 : - 1 < phi / (2 * PI) < 0). { assert (0 < / (2 * PI)) by (apply Rinv_0_lt_compat; lra). assert (E : phi / (2 * PI) * (2 * PI) = phi) by (field; lra). split; nra. }
  assert (F2 : - 1 < y / H < 1). { assert (E : y / H * H = y) by (field; lra). split; nra. }
  set (a := phi / (2 * PI)) in *. set (b := y / H) in *. assert (A1 : - IZR nr < a * IZR nr < 0) by (split; nra). assert (B1 : - IZR ny < b * IZR ny < IZR ny) by (split; nra).
  rewrite int_floor_ok by lra. cbn [bind]. rewrite int_floor_ok by lra. cbn [bind]. destruct (floor_bounds (a * IZR nr)) as [G1 _]. destruct (floor_bounds (b * IZR ny)) as [G2 _].
  assert (I0 : (floorZ (a * IZR nr) < 0)%Z) by (apply lt_IZR; lra). assert (J0 : (floorZ (b * IZR ny) < ny)%Z) by (apply lt_IZR; lra). unfold tally. rewrite (proj2 (Z.ltb_lt _ 0)) by nia. reflexivity.
Qed.
Print Assumptions C97_psdcyl_refuted.
Definition left : ray := mkRay (mkV 0 0 0) (mkV (-1000) 0 0) 0 0 0 1.
Example C97_psdcyl_refuted_ex : psdcyl_trace None 1 2 4 4 (empty 16) left = Err UndefinedBehaviour.
Proof.
  pose proof PI_RGT_0. apply (C97_psdcyl_refuted 1 2 4 4 (empty 16) left (/ 1000) (- (PI / 2))); [lia|lia|lra|left; cbn; lra| | |lra].
  - unfold leaves_side. split; [apply cyl_open_iff; unfold axis_dist2; cbn; lra|]. unfold axis_dist2, on_line. cbn. split; [lra|]. split; [field|lra].
  - exists 1. rewrite sin_neg, cos_neg, sin_PI2, cos_PI2. cbn. split; [lra|]. split; [lra|]. split; field.
Qed.

(** Monitor_4PI counts every neutron and changes none. *)
Theorem C97_all : forall rs, exists c rs', run (fun c r => Ok (monitor_4pi_trace c r)) (mkCell 0 0 0) rs = Ok (c, rs') /\ rs' = rs /\ holds (fun _ => True) rs (c_N c) (c_p c) (c_p2 c).
Proof. exact all_run. Qed.
Print Assumptions C97_all.
Example C97_all_ex : exists c, run (fun c r => Ok (monitor_4pi_trace c r)) (mkCell 0 0 0) [aside; back] = Ok (c, [aside; back]) /\ c_p c = 3.
Proof. eexists. split; [reflexivity|]. cbn. lra. Qed.
