(** C94: velocity selectors. *)
From Coq Require Import Reals Lra Lia.
From Verif Require Import Base RotModel ChanModel ShapeModel OptModel SelcModel SelcSpec SelcProofs.
Open Scope R_scope.

(** the documented examples *)
Definition example_v : vselector := mkVsel (3 / 100) (5 / 100) (30 / 100) (12 / 100) (42298 / 1000) (25 / 100) (4 / 10000) 20000 72.
Definition example_s : selector := mkSel (mkOp (-15 / 1000) (15 / 1000) (-25 / 1000) (25 / 1000) 0) (25 / 100) 72 (4 / 10000) (12 / 100) (48298 / 1000) 500.
Definition straight (z v : R) : ray := mkRay (mkV 0 0 z) (mkV 0 0 v) 0 0 0 1.

(** V_selector absorbs what misses an aperture, at z = - l0 / 2 or at z = l0 / 2. *)
Theorem C94_v_apertures : forall c r, 0 < vz (r_vel r) -> vz (r_pos r) <= - v_l0 c / 2 -> 0 <= v_l1 c <= v_l0 c ->
  ~ in_aperture (v_width c) (v_height c) (crossing r (- v_l0 c / 2)) \/ ~ in_aperture (v_width c) (v_height c) (crossing r (v_l0 c / 2)) ->
  exists r', vselector_trace None c r = Ok r' /\ r_p r' = -1.
Proof. intros c r V Z L. now apply v_absorbs. Qed.
Print Assumptions C94_v_apertures.
Example C94_v_apertures_ex : exists r', vselector_trace None example_v (mkRay (mkV (1 / 10) 0 (-1)) (mkV 0 0 800) 0 0 0 1) = Ok r' /\ r_p r' = -1.
Proof. apply C94_v_apertures; try (cbn; lra). left. intros [A _]. unfold crossing in A. cbn in A. rewrite Rabs_right in A by lra. lra. Qed.

(** It absorbs what does not move along the beam. *)
Theorem C94_v_still : forall g c r, vz (r_vel r) = 0 -> exists r', vselector_trace g c r = Ok r' /\ r_p r' = -1.
Proof. intros g c r Z. unfold vselector_trace. rewrite (proj2 (GridProofs.Reqb_t _ _) Z). eexists. split; reflexivity. Qed.
Print Assumptions C94_v_still.
Example C94_v_still_ex : exists r', vselector_trace None example_v (straight (-1) 0) = Ok r' /\ r_p r' = -1.
Proof. apply C94_v_still. reflexivity. Qed.

(** Otherwise its weight is multiplied with the share of the positions of the rotor at which it hits no blade.  It leaves at z = l0 / 2, or is absorbed when the share is 0.
    The blades are as thick as tb at the mean of its radii, and it moves against them by its own angle, less their rotation (positive from y to x) and twist. *)
Theorem C94_v_share : forall c r ri ti rf tf, 0 < vz (r_vel r) -> vz (r_pos r) <= - v_l0 c / 2 -> 0 <= v_l1 c <= v_l0 c -> 0 < v_nb c ->
  in_aperture (v_width c) (v_height c) (crossing r (- v_l0 c / 2)) -> in_aperture (v_width c) (v_height c) (crossing r (v_l0 c / 2)) ->
  polar (v_r0 c) (crossing r (- v_l1 c / 2)) ri ti -> polar (v_r0 c) (crossing r (v_l1 c / 2)) rf tf ->
  let pitch := 2 * PI / v_nb c in let gap := pitch - v_tb c / ((ri + rf) / 2) in
  let delta := v_phi c * (PI / 180) + (tf - ti) - 2 * PI * (v_rot c / 60) * (v_l1 c / vz (r_vel r)) in
  (gap <= Rabs delta -> exists r', vselector_trace None c r = Ok r' /\ r_p r' = -1) /\
  (Rabs delta < gap -> exists f, free_share pitch gap delta f /\ vselector_trace None c r = Ok (with_p (crossing r (v_l0 c / 2)) (r_p r * f))).
Proof. intros c r ri ti rf tf V Z L N A E Pb Pd. exact (v_passes c r V Z L ri ti rf tf A E Pb Pd N). Qed.
Print Assumptions C94_v_share.
Lemma straight_polar r0 z v z' : 0 < r0 -> polar r0 (crossing (straight z v) z') r0 0.
Proof. intros H. unfold polar, crossing, straight. cbn. rewrite sin_0, cos_0. pose proof PI_RGT_0. repeat split; lra. Qed.
(* 42.298 degrees in the time of flight: the neutron turns with the rotor and loses only the thickness of the blades *)
Example C94_v_share_ex : let v := 360 * (20000 / 60) * (25 / 100) / (42298 / 1000) in exists f, free_share (2 * PI / 72) (2 * PI / 72 - 4 / 10000 / (12 / 100)) 0 f /\
  vselector_trace None example_v (straight (-1) v) = Ok (with_p (crossing (straight (-1) v) (30 / 100 / 2)) (1 * f)).
Proof.
  cbv zeta. set (v := 360 * (20000 / 60) * (25 / 100) / (42298 / 1000)). assert (Vp : 0 < v) by (unfold v; lra). pose proof PI_RGT_0 as Pp.
  assert (P2 : 2 * PI > 6). { pose proof PI2_3_2. lra. }
  destruct (C94_v_share example_v (straight (-1) v) (12 / 100) 0 (12 / 100) 0) as [_ H]; try (cbn; lra).
  - split; cbn; replace (0 + 0 * _) with 0 by ring; rewrite Rabs_R0; lra.
  - split; cbn; replace (0 + 0 * _) with 0 by ring; rewrite Rabs_R0; lra.
  - apply straight_polar. lra.
  - apply straight_polar. lra.
  - cbn [v_phi v_rot v_l1 v_tb v_nb v_l0 example_v] in H. change (vz (r_vel (straight (-1) v))) with v in H.
    replace (42298 / 1000 * (PI / 180) + (0 - 0) - 2 * PI * (20000 / 60) * (25 / 100 / v)) with 0 in H by (unfold v; field).
    replace ((12 / 100 + 12 / 100) / 2) with (12 / 100) in H by field. apply H. rewrite Rabs_R0. lra.
Qed.

(** Selector draws the position of the rotor: a random number u puts the neutron at the angle gap * u into the gap.  It passes when it hits no blade up to z = len, and its
    weight is multiplied with the share of the gap in the pitch.  The blades are as thick as width at the radius where it enters. *)
Theorem C94_selector : forall c u r ri ti, 0 < vz (r_vel r) -> 0 <= s_len c -> 0 < s_num c ->
  (~ in_window (s_frame c) (crossing r 0) -> exists r', selector_trace None c u r = Ok r' /\ r_p r' = -1) /\
  (in_window (s_frame c) (crossing r 0) -> polar (s_radius c) (crossing r 0) ri ti ->
    (~ in_window (s_frame c) (crossing r (s_len c)) -> exists r', selector_trace None c u r = Ok r' /\ r_p r' = -1) /\
    let pitch := 2 * PI / s_num c in let gap := pitch - s_width c / ri in
    0 < gap -> 0 <= u <= 1 -> forall rf tf, in_window (s_frame c) (crossing r (s_len c)) -> polar (s_radius c) (crossing r (s_len c)) rf tf ->
      let delta := tf - ti + 2 * PI * s_feq c * (s_len c / vz (r_vel r)) - s_alfa c * (PI / 180) in
      (free gap delta (gap * u) -> selector_trace None c u r = Ok (with_p (crossing r (s_len c)) (r_p r * (gap / pitch)))) /\
      (~ free gap delta (gap * u) -> exists r', selector_trace None c u r = Ok r' /\ r_p r' = -1)).
Proof.
  intros c u r ri ti V L N. split; [now apply s_absorbs_entry|]. intros A Pa. destruct (s_passes c r V L u ri ti A Pa N) as [H1 H2]. split; [exact H1|].
  intros pitch gap G U rf tf E Pe delta. destruct (H2 rf tf E Pe) as [F1 F2]. fold pitch gap delta in F1, F2. split; intros F.
  - apply F1. apply F.
  - apply F2. intros K. apply F. split; [nra|exact K].
Qed.
Print Assumptions C94_selector.
Example C94_selector_ex : let v := 360 * 500 * (25 / 100) / (48298 / 1000) in
  selector_trace None example_s (1 / 2) (straight (-1) v) = Ok (with_p (crossing (straight (-1) v) (25 / 100)) (1 * ((2 * PI / 72 - 4 / 10000 / (12 / 100)) / (2 * PI / 72)))).
Proof.
  cbv zeta. set (v := 360 * 500 * (25 / 100) / (48298 / 1000)). assert (Vp : 0 < v) by (unfold v; lra). pose proof PI2_3_2 as Pp.
  destruct (C94_selector example_s (1 / 2) (straight (-1) v) (12 / 100) 0) as [_ H]; try (cbn; lra).
  destruct H as [_ H]; [unfold in_window, crossing; cbn; lra|apply straight_polar; lra|]. cbv zeta in H. cbn [s_frame s_len s_num s_width s_radius s_alfa s_feq example_s] in H.
  destruct (H ltac:(lra) ltac:(lra) (12 / 100) 0) as [F _]; [unfold in_window, crossing; cbn; lra|apply straight_polar; lra|]. apply F. change (vz (r_vel (straight (-1) v))) with v.
  replace (0 - 0 + 2 * PI * 500 * (25 / 100 / v) - 48298 / 1000 * (PI / 180)) with 0 by (unfold v; field). unfold free. lra.
Qed.

(** So for a random number spread evenly on [0, 1] the weight that passes is on the average the weight times the same share: the random numbers that pass are an interval,
    and its length times gap / pitch is that share. *)
Theorem C94_selector_mean : forall c r ri ti rf tf, 0 < vz (r_vel r) -> 0 <= s_len c -> 0 < s_num c ->
  in_window (s_frame c) (crossing r 0) -> polar (s_radius c) (crossing r 0) ri ti -> in_window (s_frame c) (crossing r (s_len c)) -> polar (s_radius c) (crossing r (s_len c)) rf tf ->
  let pitch := 2 * PI / s_num c in let gap := pitch - s_width c / ri in
  let delta := tf - ti + 2 * PI * s_feq c * (s_len c / vz (r_vel r)) - s_alfa c * (PI / 180) in 0 < gap ->
  (gap < Rabs delta -> forall u, 0 <= u <= 1 -> exists r', selector_trace None c u r = Ok r' /\ r_p r' = -1) /\
  (Rabs delta <= gap -> exists lo hi, 0 <= lo <= hi /\ hi <= 1 /\ free_share pitch gap delta ((hi - lo) * (gap / pitch)) /\
    forall u, 0 <= u <= 1 -> (lo <= u <= hi -> selector_trace None c u r = Ok (with_p (crossing r (s_len c)) (r_p r * (gap / pitch)))) /\
      (u < lo \/ hi < u -> exists r', selector_trace None c u r = Ok r' /\ r_p r' = -1)).
Proof.
  intros c r ri ti rf tf V L N A Pa E Pe pitch gap delta G.
  assert (H : forall u, 0 <= u <= 1 -> (free gap delta (gap * u) -> selector_trace None c u r = Ok (with_p (crossing r (s_len c)) (r_p r * (gap / pitch)))) /\
      (~ free gap delta (gap * u) -> exists r', selector_trace None c u r = Ok r' /\ r_p r' = -1)).
  { intros u U. destruct (C94_selector c u r ri ti V L N) as [_ H]. destruct (H A Pa) as [_ K]. exact (K G U rf tf E Pe). }
  split.
  - intros D u U. apply (H u U). now apply free_none.
  - intros D. destruct (free_interval gap delta D) as (lo & hi & O & F & Le). assert (F1 := proj2 (F lo) ltac:(lra)). assert (F2 := proj2 (F hi) ltac:(lra)).
    assert (K : forall x u, x = gap * (x / gap) /\ (x / gap <= u -> x <= gap * u) /\ (u <= x / gap -> gap * u <= x) /\ (x / gap < u -> x < gap * u) /\ (u < x / gap -> gap * u < x)).
    { intros x u. assert (Q : x = gap * (x / gap)) by (field; lra). set (q := x / gap) in *. clearbody q. rewrite Q. split; [ring|]. repeat split; intros; nra. }
    exists (lo / gap), (hi / gap). destruct F1 as [F1 _], F2 as [F2 _].
    destruct (K lo 0) as (Ql & _). destruct (K hi 0) as (Qh & _). split; [split; [nra|]|split; [nra|]].
    + apply Rmult_le_compat_r; [apply Rlt_le, Rinv_0_lt_compat, G|exact O].
    + split.
      * exists lo, hi. split; [exact O|]. split; [exact F|]. pose proof PI_RGT_0. unfold pitch. field. repeat split; lra.
      * intros u U. destruct (K lo u) as (_ & l1 & _ & _ & l4). destruct (K hi u) as (_ & _ & h2 & h3 & _). split; intros B.
        -- apply (H u U). apply F. split; [apply l1|apply h2]; tauto.
        -- apply (H u U). intros X. apply F in X. destruct B as [B|B]; [apply l4 in B|apply h3 in B]; lra.
Qed.
Print Assumptions C94_selector_mean.
Example C94_selector_mean_ex : let v := 360 * 500 * (25 / 100) / (48298 / 1000) in exists lo hi, 0 <= lo <= hi /\ hi <= 1 /\
  free_share (2 * PI / 72) (2 * PI / 72 - 4 / 10000 / (12 / 100)) 0 ((hi - lo) * ((2 * PI / 72 - 4 / 10000 / (12 / 100)) / (2 * PI / 72))).
Proof.
  cbv zeta. set (v := 360 * 500 * (25 / 100) / (48298 / 1000)). assert (Vp : 0 < v) by (unfold v; lra). pose proof PI2_3_2 as Pp.
  destruct (C94_selector_mean example_s (straight (-1) v) (12 / 100) 0 (12 / 100) 0) as [_ H]; try (cbn; lra).
  - unfold in_window, crossing; cbn; lra.
  - apply straight_polar; lra.
  - unfold in_window, crossing; cbn; lra.
  - apply straight_polar; lra.
  - cbv zeta in H. cbn [s_frame s_len s_num s_width s_radius s_alfa s_feq example_s] in H. change (vz (r_vel (straight (-1) v))) with v in H.
    replace (0 - 0 + 2 * PI * 500 * (25 / 100 / v) - 48298 / 1000 * (PI / 180)) with 0 in H by (unfold v; field).
    destruct H as (lo & hi & B1 & B2 & F & _); [rewrite Rabs_R0; lra|]. exists lo, hi. tauto.
Qed.

(** For a neutron along the beam both components agree on the average, when they have the same parameters (rot = 60 feq) and the entrance of Selector is that of V_selector. *)
Theorem C94_agree : forall c d r rho phi, same_rotor c d -> vx (r_vel r) = 0 -> vy (r_vel r) = 0 -> 0 < vz (r_vel r) -> vz (r_pos r) <= - v_l0 c / 2 -> 0 <= v_l0 c -> 0 < v_nb c ->
  in_aperture (v_width c) (v_height c) r -> polar (v_r0 c) r rho phi -> v_tb c / rho < 2 * PI / v_nb c ->
  (exists f g lo hi, 0 <= lo <= hi /\ hi <= 1 /\ f = (hi - lo) * g /\ vselector_trace None c r = Ok (with_p (crossing r (v_l0 c / 2)) (r_p r * f)) /\
    forall u, 0 <= u <= 1 -> (lo <= u <= hi -> selector_trace None d u (shifted r (v_l0 c / 2)) = Ok (shifted (with_p (crossing r (v_l0 c / 2)) (r_p r * g)) (v_l0 c / 2))) /\
      (u < lo \/ hi < u -> exists r', selector_trace None d u (shifted r (v_l0 c / 2)) = Ok r' /\ r_p r' = -1)) \/
  ((exists r', vselector_trace None c r = Ok r' /\ r_p r' = -1) /\ exists x, forall u, 0 <= u <= 1 -> u <> x -> exists r', selector_trace None d u (shifted r (v_l0 c / 2)) = Ok r' /\ r_p r' = -1).
Proof.
  intros c d r rho phi (E1 & E2 & E3 & E4 & E5 & E6 & E7 & W1 & W2 & H1 & H2) VX VY V Z L0 N A P T. set (s := shifted r (v_l0 c / 2)). pose proof PI_RGT_0 as Pp.
  assert (CA : forall z, in_aperture (v_width c) (v_height c) (crossing r z)). { intros z. unfold in_aperture, crossing in *. cbn. rewrite VX, VY, !Rmult_0_l, !Rplus_0_r. exact A. }
  assert (CP : forall z, polar (v_r0 c) (crossing r z) rho phi). { intros z. unfold polar, crossing in *. cbn. rewrite VX, VY, !Rmult_0_l, !Rplus_0_r. exact P. }
  assert (CS : forall z, in_window (s_frame d) (crossing s z)).
  { intros z. unfold in_aperture in A. unfold in_window, crossing, s, shifted. cbn. rewrite VX, VY, !Rmult_0_l, !Rplus_0_r, W1, W2, H1, H2. destruct A as [A1 A2]. pose proof (Rle_abs (vx (r_pos r))). pose proof (Rle_abs (- vx (r_pos r))) as X1. pose proof (Rle_abs (vy (r_pos r))). pose proof (Rle_abs (- vy (r_pos r))) as X2. rewrite Rabs_Ropp in X1, X2. lra. }
  assert (CQ : forall z, polar (s_radius d) (crossing s z) rho phi). { intros z. unfold polar in P. unfold polar, crossing, s, shifted. cbn. rewrite VX, VY, !Rmult_0_l, !Rplus_0_r, <- E3. exact P. }
  destruct (C94_v_share c r rho phi rho phi V Z ltac:(lra) N (CA _) (CA _) (CP _) (CP _)) as [V1 V2].
  assert (Vs : 0 < vz (r_vel s)) by exact V.
  pose proof (C94_selector_mean d s rho phi rho phi Vs ltac:(lra) ltac:(lra) (CS _) (CQ _) (CS _) (CQ _)) as K. cbv zeta in V1, V2, K.
  replace ((rho + rho) / 2) with rho in V1, V2 by field. rewrite <- E6, <- E5, <- E4, <- E1 in K. change (vz (r_vel s)) with (vz (r_vel r)) in K.
  set (gap := 2 * PI / v_nb c - v_tb c / rho) in *. set (dv := v_phi c * (PI / 180) + (phi - phi) - 2 * PI * (v_rot c / 60) * (v_l1 c / vz (r_vel r))) in *.
  assert (ED : phi - phi + 2 * PI * s_feq d * (v_l0 c / vz (r_vel r)) - v_phi c * (PI / 180) = - dv) by (unfold dv; rewrite E7, E1, E2; field; lra).
  rewrite ED, Rabs_Ropp in K. assert (G : 0 < gap) by (unfold gap; lra). destruct (K G) as [K1 K2]. clear K.
  assert (SX : forall q, with_p (crossing s (v_l0 c)) q = shifted (with_p (crossing r (v_l0 c / 2)) q) (v_l0 c / 2)).
  { intros q. unfold s, crossing, shifted, with_p. cbn. rewrite VX, VY, !Rmult_0_l, !Rplus_0_r. f_equal; [f_equal; field|]. f_equal. field. lra. }
  destruct (Rlt_dec (Rabs dv) gap) as [D|D].
  - left. destruct (V2 D) as (f & Ff & Ef). destruct (K2 ltac:(lra)) as (lo & hi & B1 & B2 & Fs & Ks). exists f, (gap / (2 * PI / v_nb c)), lo, hi. split; [exact B1|]. split; [exact B2|]. split; [|split; [exact Ef|]].
    + destruct Ff as (a & b & O & I & ->). destruct Fs as (a' & b' & O' & I' & ->). f_equal. clear - I I' O O' D G. unfold free in *.
      pose proof (proj2 (I a) ltac:(lra)). pose proof (proj2 (I b) ltac:(lra)). pose proof (proj2 (I' a') ltac:(lra)). pose proof (proj2 (I' b') ltac:(lra)).
      pose proof (proj1 (I (a' - dv)) ltac:(lra)). pose proof (proj1 (I (b' - dv)) ltac:(lra)). pose proof (proj1 (I' (a + dv)) ltac:(lra)). pose proof (proj1 (I' (b + dv)) ltac:(lra)). lra.
    + intros u U. destruct (Ks u U) as [X Y]. split; [|exact Y]. intros B. rewrite <- SX. exact (X B).
  - right. split; [apply V1; lra|]. destruct (Rlt_dec gap (Rabs dv)) as [D'|D'].
    + exists 0. intros u U _. now apply K1.
    + destruct (K2 ltac:(lra)) as (lo & hi & B1 & B2 & Fs & Ks). exists lo. intros u U X. apply (Ks u U). destruct Fs as (a & b & O & I & Ef).
      assert (ab : a = b). { assert (Rabs dv = gap) by lra. unfold free in I. pose proof (proj2 (I a) ltac:(lra)). pose proof (proj2 (I b) ltac:(lra)). unfold Rabs in *. destruct (Rcase_abs dv); lra. }
      assert (lo = hi). { subst b. replace ((a - a) / (2 * PI / v_nb c)) with 0 in Ef by (unfold Rdiv; ring). assert (0 < gap / (2 * PI / v_nb c)) by (repeat apply Rdiv_lt_0_compat; lra). nra. }
      lra.
Qed.
Print Assumptions C94_agree.
Definition example_same : selector := mkSel (mkOp (-15 / 1000) (15 / 1000) (-25 / 1000) (25 / 1000) 0) (25 / 100) 72 (4 / 10000) (12 / 100) (48298 / 1000) (1000 / 3).
Definition example_same_v : vselector := mkVsel (3 / 100) (5 / 100) (25 / 100) (12 / 100) (48298 / 1000) (25 / 100) (4 / 10000) 20000 72.
Example C94_agree_ex : same_rotor example_same_v example_same /\ in_aperture (3 / 100) (5 / 100) (straight (-1) 700) /\ polar (12 / 100) (straight (-1) 700) (12 / 100) 0 /\ 4 / 10000 / (12 / 100) < 2 * PI / 72.
Proof.
  pose proof PI2_3_2. split; [unfold same_rotor; cbn; lra|]. split; [split; cbn; rewrite Rabs_R0; lra|]. split; [|lra]. unfold polar, straight. cbn. rewrite sin_0, cos_0. repeat split; lra.
Qed.

(** For other neutrons they need not: with the same parameters the rotors turn in opposite senses.  This neutron passes V_selector with its full weight and is always absorbed in Selector. *)
Definition sense_v : vselector := mkVsel 4 4 1 1 45 1 0 15 8.
Definition sense_s : selector := mkSel (mkOp (-2) 2 (-2) 2 0) 1 8 0 1 45 (1 / 4).
Definition inclined : ray := mkRay (mkV 0 0 (- 1 / 2)) (mkV 1 0 1) 0 0 0 1.
Theorem C94_sense_refuted : same_rotor sense_v sense_s /\ vselector_trace None sense_v inclined = Ok (crossing inclined (1 / 2)) /\
  forall u, 0 <= u <= 1 -> exists r', selector_trace None sense_s u (shifted inclined (1 / 2)) = Ok r' /\ r_p r' = -1.
Proof.
  pose proof PI_RGT_0 as Pp. assert (S2 : 0 < sqrt 2) by (apply sqrt_lt_R0; lra).
  assert (D0 : forall r0 r, vx (r_pos r) = 0 -> vy (r_pos r) + r0 = 1 -> polar r0 r 1 0) by (intros r0 r X Y; unfold polar; rewrite X, Y, sin_0, cos_0; repeat split; lra).
  assert (D1 : forall r0 r, vx (r_pos r) = 1 -> vy (r_pos r) + r0 = 1 -> polar r0 r (sqrt 2) (PI / 4)).
  { intros r0 r X Y. unfold polar. rewrite X, Y, sin_PI4, cos_PI4. repeat split; try lra; field; lra. }
  split; [unfold same_rotor; cbn; lra|]. split.
  - destruct (C94_v_share sense_v inclined 1 0 (sqrt 2) (PI / 4)) as [_ H]; try (cbn; lra).
    + split; cbn; apply Rabs_le; lra.
    + split; cbn; apply Rabs_le; lra.
    + apply D0; cbn; lra.
    + apply D1; cbn; lra.
    + cbn [v_phi v_rot v_l1 v_tb v_nb v_l0 sense_v] in H. change (vz (r_vel inclined)) with 1 in H. cbv zeta in H.
      replace (45 * (PI / 180) + (PI / 4 - 0) - 2 * PI * (15 / 60) * (1 / 1)) with 0 in H by field.
      replace (2 * PI / 8 - 0 / ((1 + sqrt 2) / 2)) with (2 * PI / 8) in H by (field; lra).
      destruct H as (f & (lo & hi & O & I & F) & ->); [rewrite Rabs_R0; lra|].
      unfold free in I. pose proof (proj2 (I lo) ltac:(lra)). pose proof (proj2 (I hi) ltac:(lra)). pose proof (proj1 (I 0) ltac:(lra)). pose proof (proj1 (I (2 * PI / 8)) ltac:(lra)).
      assert (Ef : f = 1) by (rewrite F; replace hi with (2 * PI / 8) by lra; replace lo with 0 by lra; field; lra). rewrite Ef. unfold with_p, crossing, inclined. cbn. do 2 f_equal. ring.
  - intros u U. destruct (C94_selector_mean sense_s (shifted inclined (1 / 2)) 1 0 (sqrt 2) (PI / 4)) as [H _]; try (cbn; lra).
    + unfold in_window, crossing. cbn. lra.
    + apply D0; cbn; lra.
    + unfold in_window, crossing. cbn. lra.
    + apply D1; cbn; lra.
    + apply H; [|exact U]. cbn. rewrite Rabs_right; lra.
Qed.
Print Assumptions C94_sense_refuted.

(** When blades are so thick that they leave no gap, Selector absorbs everything, as V_selector does by C94_v_share. *)
Theorem C94_selector_no_gap : forall c u r ri ti, 0 < vz (r_vel r) -> 0 <= s_len c -> 0 < s_num c -> polar (s_radius c) (crossing r 0) ri ti ->
  (exists rf tf, polar (s_radius c) (crossing r (s_len c)) rf tf) -> 2 * PI / s_num c < s_width c / ri -> exists r', selector_trace None c u r = Ok r' /\ r_p r' = -1.
Proof.
  intros c u r ri ti V L N Pa (rf & tf & Pe) G. destruct (s_outside c (crossing r 0)) eqn:A.
  - apply s_absorbs_entry; [exact V|now apply s_outside_iff].
  - assert (A' : in_window (s_frame c) (crossing r 0)). { unfold s_outside in A. cbv zeta in A. apply Bool.orb_false_iff in A. destruct A as [A A4]. apply Bool.orb_false_iff in A. destruct A as [A A3]. apply Bool.orb_false_iff in A. destruct A as [A1 A2]. apply ChanProofs.Rltb_f in A1, A2, A3, A4. unfold in_window. lra. }
    destruct (s_passes c r V L u ri ti A' Pa N) as [H1 H2]. destruct (s_outside c (crossing r (s_len c))) eqn:E; [apply H1; now apply s_outside_iff|].
    assert (E' : in_window (s_frame c) (crossing r (s_len c))). { unfold s_outside in E. cbv zeta in E. apply Bool.orb_false_iff in E. destruct E as [E A4]. apply Bool.orb_false_iff in E. destruct E as [E A3]. apply Bool.orb_false_iff in E. destruct E as [A1 A2]. apply ChanProofs.Rltb_f in A1, A2, A3, A4. unfold in_window. lra. }
    apply (H2 rf tf E' Pe). lra.
Qed.
Print Assumptions C94_selector_no_gap.
Definition thick : selector := mkSel (mkOp (-2) 2 (-2) 2 0) 1 8 2 1 0 0.
Example C94_selector_no_gap_ex : exists r', selector_trace None thick (1 / 2) (straight (-1) 1) = Ok r' /\ r_p r' = -1.
Proof.
  apply (C94_selector_no_gap _ _ _ 1 0); try (cbn; lra); [apply straight_polar; cbn; lra|exists 1, 0; apply straight_polar; cbn; lra|]. cbn. pose proof PI_4. lra.
Qed.
