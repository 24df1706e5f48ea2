(** Proofs for C57: statements in the form of the properties. *)
From Coq Require Import Reals Lra Lia.
From Coquelicot Require Import Coquelicot.
From Verif Require Import Base RotModel RotSpec ChanModel ChanProofs ShapeModel ShapeSpec ShapeProofs ScatModel ScatSpec UnitModel UnitSpec UnitProofs KinModel KinSpec KinProofs KinProofs2 KinProofs3 KinProofs4 GridProofs PowdModel PowdSpec PowdProofs PowdProofs2 PowdProofs3 PowdProofs4 PowdProofs5.
Open Scope R_scope.

Lemma speed_prod v c : sqrt (norm2 v * norm2 c) = speed v * speed c.
Proof. unfold speed. apply sqrt_mult; [rewrite <- speed_norm|rewrite <- speed_norm]; apply (Rle_0_sqr (speed _)). Qed.
Lemma rotates eps v c a : 0 < eps -> v <> mkV 0 0 0 -> c <> mkV 0 0 0 ->
  (nearly_parallel eps v c -> rotate eps v c (Some a) = Some v) /\ (~ nearly_parallel eps v c -> exists v', rotate eps v c (Some a) = Some v' /\ turned_about c a v v' /\ speed v' = speed v).
Proof.
  intros EP NV NC. destruct (normalize_some c NC) as (n & E & A). rewrite (rotate_eq eps v c n a EP NV NC A E). pose proof (speed_pos v NV) as SV. pose proof (speed_pos c NC) as SC.
  assert (X : Rabs (sdot v c) / (speed v * speed c) = Rabs (sdot v n) / speed v). { destruct A as [A _]. rewrite A at 1. rewrite sdot_scale_r, Rabs_mult, (Rabs_pos_eq (speed c)) by lra. field. lra. }
  assert (B : Rabs (sdot v n) / speed v <= 1). { pose proof (cauchy v n) as H. rewrite (unit_speed n (proj2 A)) in H. apply (Rmult_le_reg_r (speed v)); [exact SV|]. replace (Rabs (sdot v n) / speed v * speed v) with (Rabs (sdot v n)) by (field; lra). lra. }
  rewrite Rabs_pos_eq by lra. unfold nearly_parallel. rewrite speed_prod, X. split; intros H.
  - rewrite (proj2 (Rltb_t _ _)) by lra. reflexivity.
  - rewrite (proj2 (Rltb_f _ _)) by lra. eexists. split; [reflexivity|]. split; [apply turn_about; [apply A|apply (proj1 A)]|]. unfold speed. f_equal. apply turn_speed, A.
Qed.
Lemma means data k ev kk : new_powder data 0 = Ok (Some k) -> e_v ev <> mkV 0 0 0 -> is_wavenumber kk (speed (e_v ev)) ->
  (forall p, In p (pd_peaks data) -> 0 < pk_q p /\ pk_line_width p = 0) -> (exists p, In p (pd_peaks data) /\ pk_q p <= 2 * kk) ->
  exists e1 e2 e3, norm2 e1 = 1 /\ norm2 e2 = 1 /\ sdot e1 e2 = 0 /\ e3 = vcross e1 e2 /\ e_v ev = vscale (speed (e_v ev)) e1 /\
  forall uw G (J : peak -> R),
    (forall p, In p (pd_peaks data) -> pk_q p <= 2 * kk -> Rabs (cos (two_theta kk p)) <= 1 - 1 / 10 ^ 7 /\ is_RInt (fun phi => G (on_cone e1 e2 e3 (speed (e_v ev)) (two_theta kk p) phi)) (- PI) PI (2 * PI * J p)) ->
    meanN 2 (fun l => carried G (outgoing (powder_scatter k (stream l 0) uw (stream l 1) ev))) (e_p ev * over_reached kk (fun p => cone_coefficient kk (pd_volume data) p * J p) (pd_peaks data)).
Proof.
  intros Mk N W Q (p1 & I1 & R1). destruct (mean_cones data k ev kk Mk N W) as (e1 & e2 & e3 & (U1 & U2 & D & E3) & [A1 _] & H); [intros Z; rewrite Z in I1; destruct I1|exact Q|].
  exists e1, e2, e3. repeat (split; [assumption|]). intros uw G J HJ. apply H.
  - intros p0 l' L. unfold reached. destruct (Rle_dec _ _) as [|Z]; [reflexivity|]. exfalso. apply new_inv in Mk. destruct Mk as (O & _). rewrite L in O, I1. apply ordered_cons in O. destruct O as [O _]. destruct I1 as [<-|I1]; [lra|]. specialize (O p1 I1). lra.
  - intros p I R. destruct (HJ p I) as [C HI]; [unfold reached in R; destruct (Rle_dec _ _); [lra|discriminate]|]. unfold near. rewrite (proj2 (Rltb_f _ _)) by lra. pose proof PI_RGT_0 as PP.
    pose proof (scaled_int _ _ _ _ HI) as SI. pose proof (@is_RInt_scal R_NormedModule _ 0 1 (/ (2 * PI)) _ SI) as S2. cbv beta in S2.
    replace (J p) with (scal (/ (2 * PI)) (2 * PI * J p)) by (unfold scal; cbn; unfold mult; cbn; field; lra).
    apply (@is_RInt_ext R_NormedModule (fun y => scal (/ (2 * PI)) ((PI - - PI) * G (on_cone e1 e2 e3 (speed (e_v ev)) (two_theta kk p) (random y (- PI) PI))))); [|exact S2].
    intros u _. replace (PI * (2 * u - 1)) with (random u (- PI) PI) by (unfold random; ring). unfold scal; cbn; unfold mult; cbn. field. lra.
Qed.
Lemma total_mean data k ev kk : new_powder data 0 = Ok (Some k) -> e_v ev <> mkV 0 0 0 -> is_wavenumber kk (speed (e_v ev)) ->
  (forall p, In p (pd_peaks data) -> 0 < pk_q p /\ pk_line_width p = 0) -> (exists p, In p (pd_peaks data) /\ pk_q p <= 2 * kk) ->
  exists c, powder_scattering k (e_v ev) = Some c /\ forall uw, meanN 2 (fun l => carried (fun _ => 1) (outgoing (powder_scatter k (stream l 0) uw (stream l 1) ev))) (e_p ev * c).
Proof.
  intros Mk N W Q (p1 & I1 & R1). destruct (mean_cones data k ev kk Mk N W) as (e1 & e2 & e3 & (U1 & U2 & D & E3) & [A1 _] & H); [intros Z; rewrite Z in I1; destruct I1|exact Q|].
  exists (over_reached kk (cone_coefficient kk (pd_volume data)) (pd_peaks data)). split; [now apply (scattering_is data 0 k kk)|]. intros uw.
  rewrite <- (over_ext kk (fun p => cone_coefficient kk (pd_volume data) p * 1)) by (intros; ring). apply H.
  - intros p0 l' L. unfold reached. destruct (Rle_dec _ _) as [|Z]; [reflexivity|]. exfalso. apply new_inv in Mk. destruct Mk as (O & _). rewrite L in O, I1. apply ordered_cons in O. destruct O as [O _]. destruct I1 as [<-|I1]; [lra|]. specialize (O p1 I1). lra.
  - intros p I R. apply RInt_const01.
Qed.
Lemma refused data d k ev kk up uw ua : new_powder data d = Ok (Some k) -> is_wavenumber kk (speed (e_v ev)) -> pd_peaks data <> [] -> (forall p, In p (pd_peaks data) -> 2 * kk < pk_q p) ->
  powder_scatter k up uw ua ev = Ok (k, with_pv ev (-1) (Some (e_v ev))).
Proof.
  intros Mk W NE A. destruct (pd_peaks data) as [|p l] eqn:L; [now elim NE|]. apply (scatter_low data d k ev kk Mk W up uw ua p l L). unfold reached. destruct (Rle_dec _ _); [|reflexivity]. specialize (A p (or_introl eq_refl)). lra.
Qed.
