(** Property C30: time and position channels. *)
From Coq Require Import Reals Lra Psatz.
From Verif Require Import Base StorageModel StorageSpec RotModel RotSpec DetModel DetSpec DetProofs DetProps ChanModel ChanSpec ChanProofs.
From Coq Require Import ZifyBool.
Open Scope R_scope.

(** A converter exists exactly for a non-empty interval and a positive step; it then assigns channel k to the times of the
    k-th slot that are in the interval, and -1 to all other times.  (Up to 2^31 channels.) *)
Theorem C30_time_channel :
  forall tmin tmax tstep : R,
  (~ (tmin < tmax /\ 0 < tstep) -> new_tof2channel tmin tmax tstep = Err CppException) /\
  (tmin < tmax -> 0 < tstep -> (tmax - tmin) / tstep <= 2 ^ 31 ->
   exists c, new_tof2channel tmin tmax tstep = Ok c /\
     forall t,
       (tof_channel c t = Ok (-1)%Z <-> ~ in_interval tmin tmax t) /\
       forall k, (0 <= k)%Z ->
         (tof_channel c t = Ok k <->
          in_interval tmin tmax t /\ in_interval (tmin + IZR k * tstep) (tmin + (IZR k + 1) * tstep) t)).
Proof.
  intros tmin tmax tstep. unfold new_tof2channel. split.
  - intros H. destruct (Rleb tmax tmin) eqn:A; [reflexivity|]. apply Rleb_false in A.
    destruct (Rleb tstep 0) eqn:B; [reflexivity|]. apply Rleb_false in B. lra.
  - intros A B L. replace (Rleb tmax tmin) with false by (symmetry; apply Rleb_false; assumption).
    replace (Rleb tstep 0) with false by (symmetry; apply Rleb_false; assumption).
    eexists. split; [reflexivity|]. intros t. set (c := mkT2C tmin tmax tstep). unfold in_interval.
    assert (P31 : 2 ^ 31 = IZR (2 ^ 31)) by exact (pow_IZR 2 31). rewrite P31 in L.
    assert (Hin : tmin <= t < tmax -> let k := floorZ ((t - tmin) / tstep) in
       (0 <= k)%Z /\ tmin + IZR k * tstep <= t < tmin + (IZR k + 1) * tstep /\ tof_channel c t = Ok k).
    { intros H. destruct (tof_in c t B H) as (K0 & K1 & K2). cbn [tofmin tofstep c] in *.
      split; [assumption|]. split; [assumption|]. rewrite K2.
      replace (floorZ ((t - tmin) / tstep) <? 2 ^ 31)%Z with true; [reflexivity|].
      symmetry. apply Z.ltb_lt. apply floor_lt. apply Rlt_le_trans with ((tmax - tmin) / tstep); [|assumption].
      apply Rmult_lt_compat_r; [apply Rinv_0_lt_compat; assumption|lra]. }
    assert (Hout : ~ (tmin <= t < tmax) -> tof_channel c t = Ok (-1)%Z) by (intros H; apply tof_out; exact H).
    split.
    + split; [|assumption]. intros E H. destruct (Hin H) as (K0 & _ & K2). rewrite K2 in E. injection E as E. lia.
    + intros k Hk. split.
      * intros E. destruct (Rle_lt_dec tmin t) as [H1|H1]; [destruct (Rlt_le_dec t tmax) as [H2|H2]|].
        -- destruct (Hin (conj H1 H2)) as (K0 & K1 & K2). rewrite K2 in E. injection E as E. rewrite <- E. auto.
        -- rewrite Hout in E by lra. injection E as E. lia.
        -- rewrite Hout in E by lra. injection E as E. lia.
      * intros [H1 H2]. destruct (Hin H1) as (K0 & K1 & K2). rewrite K2. f_equal.
        exact (slots_disjoint tmin tstep _ k t B K1 H2).
Qed.
Print Assumptions C30_time_channel.

(** Beyond 2^31 channels the conversion to int is undefined. *)
Theorem C30_too_many_time_channels :
  forall tmin tmax tstep c t, new_tof2channel tmin tmax tstep = Ok c ->
  in_interval tmin tmax t -> tmin + 2 ^ 31 * tstep <= t -> tof_channel c t = Err UndefinedBehaviour.
Proof.
  intros tmin tmax tstep c t E H B. unfold new_tof2channel in E.
  destruct (Rleb tmax tmin); [discriminate|]. destruct (Rleb tstep 0) eqn:S; [discriminate|].
  apply Rleb_false in S. injection E as <-.
  destruct (tof_in (mkT2C tmin tmax tstep) t S H) as (K0 & K1 & K2). cbn [tofmin tofstep] in *. rewrite K2.
  replace (floorZ ((t - tmin) / tstep) <? 2 ^ 31)%Z with false; [reflexivity|].
  symmetry. apply Z.ltb_ge. apply floor_ge. assert (P31 : 2 ^ 31 = IZR (2 ^ 31)) by exact (pow_IZR 2 31). rewrite <- P31.
  apply Rmult_le_reg_r with tstep; [assumption|]. replace ((t - tmin) / tstep * tstep) with (t - tmin) by (field; lra). lra.
Qed.
Print Assumptions C30_too_many_time_channels.

(** The position channel of a converter made for a detector of this length: with z the distance along the axis from the
    reference point, channel k is for z in [(k-1/2)h, (k+1/2)h), h the pixel height; everything else is -1. *)
Theorem C30_position_channel :
  forall (length : R) (n : Z) (axis c0 : vec3),
  (~ (0 < length /\ n <> 0%Z) -> new_z2channel length n axis c0 = Err CppException) /\
  (0 < length -> (0 < n < 2 ^ 31)%Z ->
   exists c, new_z2channel length n axis c0 = Ok c /\
   let h := length / IZR n in
   forall r, let z := sdot (vsub r c0) axis in Rabs (z / h) <= 2 ^ 30 ->
     (z_channel c r = Ok (-1)%Z <-> ~ in_interval (- / 2 * h) ((IZR n - / 2) * h) z) /\
     forall k, (0 <= k)%Z ->
       (z_channel c r = Ok k <-> (k < n)%Z /\ in_interval ((IZR k - / 2) * h) ((IZR k + / 2) * h) z)).
Proof.
  intros len n axis c0. unfold new_z2channel. split.
  - intros H. destruct (Rleb len 0) eqn:A; [reflexivity|]. apply Rleb_false in A.
    destruct (n =? 0)%Z eqn:B; [reflexivity|]. exfalso. apply H. split; [assumption|lia].
  - intros L N. replace (Rleb len 0) with false by (symmetry; apply Rleb_false; assumption).
    replace (n =? 0)%Z with false by lia. eexists. split; [reflexivity|].
    set (h := len / IZR n). intros r. set (z := sdot (vsub r c0) axis). intros B. set (c := mkZ2C h n axis c0).
    assert (Hn : 1 <= IZR n) by (apply (IZR_le 1); lia).
    assert (Hh : 0 < h) by (unfold h; apply Rmult_lt_0_compat; [assumption|apply Rinv_0_lt_compat; lra]).
    destruct (z_channel_spec c r Hh N B) as (k & E & D). cbn [npixels pixelheight channel0Coords axisDirection c] in D.
    fold h z in D. unfold in_interval. rewrite E. split.
    + split.
      * intros K. injection K as ->. destruct D as [[_ D]|[D _]]; [|lia]. lra.
      * intros K. destruct D as [[-> _]|[[D1 D3] D2]]; [reflexivity|]. exfalso. apply K.
        apply IZR_le in D1. assert (k <= n - 1)%Z by lia. apply IZR_le in H. rewrite minus_IZR in H.
        split; nra.
    + intros j Hj. split.
      * intros K. injection K as ->. destruct D as [[D _]|[D1 D2]]; [lia|]. split; [lia|assumption].
      * intros [Hj2 K]. f_equal. destruct D as [[-> D]|[D1 D2]].
        -- exfalso. assert (j <= n - 1)%Z by lia. apply IZR_le in H. rewrite minus_IZR in H. apply IZR_le in Hj.
           destruct D as [D|D]; nra.
        -- apply (slots_disjoint (- / 2 * h) h k j z Hh); lra.
Qed.
Print Assumptions C30_position_channel.

(** For a tube described by two or more equally spaced pixels the channel is the index of the nearest pixel centre; a position more
    than half a pixel beyond the first or last centre (along the tube) is rejected, every other position is accepted. *)
Theorem C30_nearest_pixel :
  forall (p s : vec3) (n : nat), (2 <= n)%nat -> (Z.of_nat n < 2 ^ 31)%Z -> 0 < norm2 s ->
  exists c, tube_z2channel (row_of_pixels p s n) = Ok c /\
  forall r, Rabs (along p s r) <= 2 ^ 30 ->
    (z_channel c r = Ok (-1)%Z <-> ~ in_interval (- / 2) (INR n - / 2) (along p s r)) /\
    (in_interval (- / 2) (INR n - / 2) (along p s r) ->
       exists k, (k < n)%nat /\ z_channel c r = Ok (Z.of_nat k) /\
         forall j, (j < n)%nat -> dist2 r (displaced p s (INR k)) <= dist2 r (displaced p s (INR j))) /\
    forall k, (k < n)%nat -> r = displaced p s (INR k) -> z_channel c r = Ok (Z.of_nat k).
Proof.
  intros p s n N1 N2 S. destruct (tube_channel p s n N1 S) as (c & E & Ec & E0 & H & _ & Hz).
  exists c. split; [assumption|]. intros r B.
  assert (Np : (0 < npixels c < 2 ^ 31)%Z) by lia.
  assert (Bz : Rabs (sdot (vsub r (channel0Coords c)) (axisDirection c) / pixelheight c) <= 2 ^ 30).
  { rewrite E0, Hz. replace (along p s r * pixelheight c / pixelheight c) with (along p s r) by (field; lra). assumption. }
  destruct (z_channel_spec c r H Np Bz) as (k & Ek & D). rewrite E0, Hz, Ec in D. set (a := along p s r) in *.
  rewrite <- INR_IZR_INZ in D.
  assert (D' : (k = (-1)%Z /\ ~ in_interval (- / 2) (INR n - / 2) a) \/
               ((0 <= k < Z.of_nat n)%Z /\ IZR k - / 2 <= a < IZR k + / 2)).
  { destruct D as [[D1 D2]|[D1 [D2 D3]]].
    - left. split; [assumption|]. unfold in_interval. intros [A1 A2]. destruct D2 as [D2|D2].
      + assert (- / 2 * pixelheight c <= a * pixelheight c) by (apply Rmult_le_compat_r; lra). lra.
      + apply Rmult_le_reg_r in D2; lra.
    - right. split; [assumption|]. split; [apply Rmult_le_reg_r in D2; lra|apply Rmult_lt_reg_r in D3; lra]. }
  clear D. rewrite Ek. split; [|split].
  - split.
    + intros K. injection K as ->. destruct D' as [[_ D]|[D _]]; [assumption|lia].
    + intros K. destruct D' as [[-> _]|[[D1 D3] D2]]; [reflexivity|]. exfalso. apply K. unfold in_interval.
      apply IZR_le in D1. assert (k <= Z.of_nat n - 1)%Z by lia. apply IZR_le in H0. rewrite minus_IZR, <- INR_IZR_INZ in H0. lra.
  - intros K. destruct D' as [[_ D]|[D1 D2]]; [contradiction|].
    exists (Z.to_nat k). split; [lia|]. split; [f_equal; lia|]. intros j Hj.
    assert (Ei : INR (Z.to_nat k) = IZR k) by (rewrite INR_IZR_INZ; f_equal; lia). rewrite Ei.
    pose proof (dist_pixels p s r (INR j) (IZR k) (Rgt_not_eq _ _ S)) as Dd. fold a in Dd.
    assert (0 <= norm2 s * (INR j - IZR k) * (INR j + IZR k - 2 * a)); [|lra].
    rewrite Rmult_assoc. apply Rmult_le_pos; [lra|].
    rewrite INR_IZR_INZ. destruct (Z.lt_trichotomy (Z.of_nat j) k) as [J|[J|J]].
    + assert (Z.of_nat j + 1 <= k)%Z by lia. apply IZR_le in H0. rewrite plus_IZR in H0. nra.
    + rewrite J. nra.
    + assert (k + 1 <= Z.of_nat j)%Z by lia. apply IZR_le in H0. rewrite plus_IZR in H0. nra.
  - intros j Hj Er. f_equal.
    assert (Ea : a = INR j).
    { unfold a, along. rewrite Er. unfold sdot, vsub, displaced, norm2, sdot. cbn [vx vy vz]. unfold norm2, sdot in S. field. lra. }
    rewrite Ea in D'. destruct D' as [[_ D]|[D1 [D2 D3]]].
    + exfalso. apply D. unfold in_interval. apply lt_INR in Hj as Hj'. pose proof (pos_INR j).
      assert (INR j + 1 <= INR n) by (rewrite <- S_INR; apply le_INR; lia). lra.
    + rewrite INR_IZR_INZ in D2, D3.
      assert (IZR k < IZR (Z.of_nat j) + 1) by lra. assert (IZR (Z.of_nat j) < IZR k + 1) by lra.
      rewrite <- plus_IZR in H0, H1. apply lt_IZR in H0. apply lt_IZR in H1. lia.
Qed.
Print Assumptions C30_nearest_pixel.

(** One pixel cannot be described this way, and coinciding first and last pixels neither. *)
Theorem C30_degenerate_tubes :
  (forall p, tube_z2channel [p] = Err ZeroDivisionError) /\
  (forall p l, tube_z2channel (p :: l ++ [p]) = Err CppException).
Proof.
  split; [reflexivity|]. intros p l. unfold tube_z2channel. rewrite app_comm_cons, last_last.
  replace (Z.of_nat (List.length ((p :: l) ++ [p])) =? 1)%Z with false by (symmetry; apply Z.eqb_neq; rewrite app_length; cbn [List.length]; lia).
  unfold new_z2channel. replace (vnorm (vsub p p)) with 0.
  - replace (Rleb _ 0) with true; [reflexivity|]. symmetry. apply Rleb_true.
    unfold Rdiv. rewrite !Rmult_0_l. lra.
  - unfold vnorm, vdot, vsub. cbn [vx vy vz].
    replace (_ + _ + _) with 0 by ring. symmetry. apply sqrt_0.
Qed.
Print Assumptions C30_degenerate_tubes.

(** A neutron absorbed in a tube with these pixels is recorded under the nearest pixel and its time channel exactly if it is
    within the tube and within the time interval; otherwise the file is not changed.  No exception occurs. *)
Theorem C30_absorbed_neutron :
  forall (p s : vec3) (n : nat) (tmin tmax tstep : R) (tube_dims tube : list Z) (file : list Z) (r : vec3) (t : R) (w : Z),
  (2 <= n)%nat -> (Z.of_nat n < 2 ^ 31)%Z -> 0 < norm2 s -> Rabs (along p s r) <= 2 ^ 30 ->
  tmin < tmax -> 0 < tstep -> (tmax - tmin) / tstep <= 2 ^ 31 ->
  within tube_dims tube -> (product (tube_dims ++ [Z.of_nat n]) <= 2 ^ 32)%Z -> wf_word w ->
  exists zc tc, tube_z2channel (row_of_pixels p s n) = Ok zc /\ new_tof2channel tmin tmax tstep = Ok tc /\
    (in_interval (- / 2) (INR n - / 2) (along p s r) /\ in_interval tmin tmax t ->
     exists k c, (k < n)%nat /\ (forall j, (j < n)%nat -> dist2 r (displaced p s (INR k)) <= dist2 r (displaced p s (INR j))) /\
       (0 <= c)%Z /\ in_interval (tmin + IZR c * tstep) (tmin + (IZR c + 1) * tstep) t /\
       absorb (tube_dims ++ [Z.of_nat n]) file tube zc tc r t w =
         Ok (file ++ record_bytes (rank_of (tube_dims ++ [Z.of_nat n]) (tube ++ [Z.of_nat k])) c w)) /\
    (~ (in_interval (- / 2) (INR n - / 2) (along p s r) /\ in_interval tmin tmax t) ->
     absorb (tube_dims ++ [Z.of_nat n]) file tube zc tc r t w = Ok file).
Proof.
  intros p s n tmin tmax tstep tdims tube file r t w N1 N2 S B T1 T2 T3 W P Ww.
  destruct (C30_nearest_pixel p s n N1 N2 S) as (zc & Ez & Hz). destruct (Hz r B) as (Z1 & Z2 & _).
  destruct (proj2 (C30_time_channel tmin tmax tstep) T1 T2 T3) as (tc & Et & Ht). destruct (Ht t) as (H1 & H2).
  exists zc, tc. split; [assumption|]. split; [assumption|].
  assert (Dne : tdims ++ [Z.of_nat n] <> []) by (destruct tdims; discriminate).
  assert (Wk : forall k, (k < n)%nat -> within (tdims ++ [Z.of_nat n]) (tube ++ [Z.of_nat k])).
  { intros k Hk. apply Forall2_app; [assumption|]. constructor; [lia|constructor]. }
  assert (Lw : List.length tdims = List.length tube) by (apply within_length; assumption).
  assert (Tin : in_interval tmin tmax t -> exists c, (0 <= c < 2 ^ 31)%Z /\ tof_channel tc t = Ok c /\
     in_interval (tmin + IZR c * tstep) (tmin + (IZR c + 1) * tstep) t).
  { intros Hi. set (c := floorZ ((t - tmin) / tstep)).
    assert (Etc : tc = mkT2C tmin tmax tstep).
    { unfold new_tof2channel in Et. destruct (Rleb tmax tmin); [discriminate|]. destruct (Rleb tstep 0); [discriminate|]. congruence. }
    destruct (tof_in tc t) as (K0 & K1 & K2); rewrite ?Etc in *; cbn [tofmin tofmax tofstep] in *; [assumption|exact Hi|].
    exists c. assert (c < 2 ^ 31)%Z.
    { apply floor_lt. replace (IZR (2 ^ 31)) with (2 ^ 31) by exact (pow_IZR 2 31).
      apply Rlt_le_trans with ((tmax - tmin) / tstep); [|assumption].
      apply Rmult_lt_compat_r; [apply Rinv_0_lt_compat; assumption|unfold in_interval in Hi; lra]. }
    split; [split; assumption|]. split; [|exact K1]. apply (proj2 (H2 c K0)). split; [assumption|exact K1]. }
  split.
  - intros [Ia It]. destruct (Z2 Ia) as (k & Hk & Ek & Near). destruct (Tin It) as (c & Hc & Ec & Ic).
    exists k, c. split; [assumption|]. split; [assumption|]. split; [lia|]. split; [assumption|].
    unfold absorb. rewrite Ek, Ec. cbn [bind].
    replace (tube ++ [Z.of_nat k; c]) with ((tube ++ [Z.of_nat k]) ++ [c]) by (rewrite <- app_assoc; reflexivity).
    apply (C29_identifier (tdims ++ [Z.of_nat n]) (tube ++ [Z.of_nat k]) c w file); try assumption; try (apply Wk; assumption).
  - intros NB. unfold absorb.
    destruct (Rle_lt_dec (- / 2) (along p s r)) as [A1|A1].
    1: destruct (Rlt_le_dec (along p s r) (INR n - / 2)) as [A2|A2].
    + destruct (Z2 (conj A1 A2)) as (k & Hk & Ek & _). rewrite Ek.
      assert (NT : ~ in_interval tmin tmax t) by (intros Hi; apply NB; split; [split; assumption|assumption]).
      rewrite (proj2 H1 NT). cbn [bind].
      change [Z.of_nat k; (-1)%Z] with ([Z.of_nat k] ++ [(-1)%Z]). rewrite app_assoc.
      apply (accept_missed (tdims ++ [Z.of_nat n]) (tube ++ [Z.of_nat k]) (-1) [] w file); try lia; [assumption| |].
      * rewrite !app_length. cbn. lia.
      * rewrite firstn_all2; [apply Wk; assumption|]. rewrite !app_length. cbn. lia.
    + assert (NI : ~ in_interval (- / 2) (INR n - / 2) (along p s r)) by (unfold in_interval; lra).
      rewrite (proj2 Z1 NI). cbn [bind].
      destruct (Rle_lt_dec tmin t) as [B1|B1]; [destruct (Rlt_le_dec t tmax) as [B2|B2]|].
      * destruct (Tin (conj B1 B2)) as (c & _ & Ec & _). rewrite Ec. cbn [bind].
        apply accept_missed; [assumption| | |lia].
        -- rewrite !app_length. cbn. lia.
        -- rewrite firstn_app, <- Lw, Nat.sub_diag, firstn_all, app_nil_r. assumption.
      * rewrite (proj2 H1) by (unfold in_interval; lra). cbn [bind].
        apply accept_missed; [assumption| | |lia].
        -- rewrite !app_length. cbn. lia.
        -- rewrite firstn_app, <- Lw, Nat.sub_diag, firstn_all, app_nil_r. assumption.
      * rewrite (proj2 H1) by (unfold in_interval; lra). cbn [bind].
        apply accept_missed; [assumption| | |lia].
        -- rewrite !app_length. cbn. lia.
        -- rewrite firstn_app, <- Lw, Nat.sub_diag, firstn_all, app_nil_r. assumption.
    + assert (NI : ~ in_interval (- / 2) (INR n - / 2) (along p s r)) by (unfold in_interval; lra).
      rewrite (proj2 Z1 NI). cbn [bind].
      destruct (Rle_lt_dec tmin t) as [B1|B1]; [destruct (Rlt_le_dec t tmax) as [B2|B2]|].
      * destruct (Tin (conj B1 B2)) as (c & _ & Ec & _). rewrite Ec. cbn [bind].
        apply accept_missed; [assumption| | |lia].
        -- rewrite !app_length. cbn. lia.
        -- rewrite firstn_app, <- Lw, Nat.sub_diag, firstn_all, app_nil_r. assumption.
      * rewrite (proj2 H1) by (unfold in_interval; lra). cbn [bind].
        apply accept_missed; [assumption| | |lia].
        -- rewrite !app_length. cbn. lia.
        -- rewrite firstn_app, <- Lw, Nat.sub_diag, firstn_all, app_nil_r. assumption.
      * rewrite (proj2 H1) by (unfold in_interval; lra). cbn [bind].
        apply accept_missed; [assumption| | |lia].
        -- rewrite !app_length. cbn. lia.
        -- rewrite firstn_app, <- Lw, Nat.sub_diag, firstn_all, app_nil_r. assumption.
Qed.
Print Assumptions C30_absorbed_neutron.

(** The documentation of Z2Channel calls the reference point the start of the detector (the negative end of channel 0).  Used in this way the
    channels are shifted by half a pixel, and the last half pixel of the detector is lost. *)
Theorem C30_reference_is_start_refuted :
  exists c, new_z2channel 4 4 (mkV 0 0 1) (mkV 0 0 0) = Ok c /\
    z_channel c (mkV 0 0 (3 / 4)) = Ok 1%Z /\ z_channel c (mkV 0 0 (15 / 4)) = Ok (-1)%Z.
Proof.
  destruct (proj2 (C30_position_channel 4 4 (mkV 0 0 1) (mkV 0 0 0))) as (c & E & H); [lra|lia|].
  exists c. split; [assumption|]. unfold sdot, vsub in H. cbn [vx vy vz] in H. unfold in_interval in H. split.
  - apply (H (mkV 0 0 (3/4))); [|lia|]; cbn [vx vy vz].
    + replace (((0-0)*0 + (0-0)*0 + (3/4-0)*1) / (4/4)) with (3/4) by field. rewrite Rabs_right; lra.
    + split; [lia|lra].
  - refine (proj2 (proj1 (H (mkV 0 0 (15/4)) _)) _); cbn [vx vy vz].
    + replace (((0-0)*0 + (0-0)*0 + (15/4-0)*1) / (4/4)) with (15/4) by field. rewrite Rabs_right; lra.
    + intros [A1 A2]. lra.
Qed.
Print Assumptions C30_reference_is_start_refuted.

(* four pixels 1 cm apart along y; a hit near pixel 2, at 5.5 time units *)
Example C30_example :
  0 < norm2 (mkV 0 (/ 100) 0) /\ in_interval (- / 2) (INR 4 - / 2) (along (mkV 0 0 3) (mkV 0 (/ 100) 0) (mkV (/ 10) (23 / 1000) 3)) /\
  (exists c, tube_z2channel (row_of_pixels (mkV 0 0 3) (mkV 0 (/ 100) 0) 4) = Ok c /\ z_channel c (mkV (/ 10) (23 / 1000) 3) = Ok 2%Z) /\
  (exists c, new_tof2channel 1 11 (1/2) = Ok c /\ tof_channel c (11/2) = Ok 9%Z).
Proof.
  assert (N : 0 < norm2 (mkV 0 (/ 100) 0)) by (unfold norm2, sdot; cbn; lra).
  assert (A : along (mkV 0 0 3) (mkV 0 (/ 100) 0) (mkV (/ 10) (23 / 1000) 3) = 23 / 10).
  { unfold along, norm2, sdot, vsub. cbn [vx vy vz]. field. }
  assert (I : in_interval (- / 2) (INR 4 - / 2) (along (mkV 0 0 3) (mkV 0 (/ 100) 0) (mkV (/ 10) (23 / 1000) 3)))
    by (rewrite A; unfold in_interval; cbn [INR]; lra).
  split; [assumption|]. split; [assumption|]. split.
  - destruct (tube_channel (mkV 0 0 3) (mkV 0 (/ 100) 0) 4 ltac:(lia) N) as (c & E & Ec & E0 & H & _ & Hz).
    exists c. split; [assumption|].
    destruct (z_channel_spec c (mkV (/ 10) (23 / 1000) 3) H) as (k & Ek & D); [lia| |].
    + rewrite E0, Hz, A. replace (23 / 10 * pixelheight c / pixelheight c) with (23 / 10) by (field; lra). rewrite Rabs_right; lra.
    + rewrite E0, Hz, A, Ec in D. rewrite Ek. f_equal.
      destruct D as [[_ [D|D]]|[D1 [D2 D3]]].
      * exfalso. lra.
      * exfalso. apply Rmult_le_reg_r in D; [|assumption]. change (IZR (Z.of_nat 4)) with 4 in D. lra.
      * apply Rmult_le_reg_r in D2; [|assumption]. apply Rmult_lt_reg_r in D3; [|assumption].
        assert (IZR 1 < IZR k) by lra. assert (IZR k < IZR 3) by lra. apply lt_IZR in H0. apply lt_IZR in H1. lia.
  - destruct (proj2 (C30_time_channel 1 11 (1/2))) as (c & E & Hc); [lra|lra|lra|].
    exists c. split; [assumption|]. apply (proj2 (Hc (11/2))); [lia|]. unfold in_interval. lra.
Qed.
