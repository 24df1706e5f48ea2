(** C40: kernels scatter with the transfers and weights of their scattering functions. *)
From Coq Require Import Reals Lra Lia.
From Coquelicot Require Import Coquelicot.
From Verif Require Import Base RotModel RotSpec ChanModel ChanProofs ShapeModel ShapeSpec ShapeProofs ScatModel ScatSpec UnitModel UnitSpec UnitProofs KinModel KinSpec KinProofs KinProofs2 KinProofs3 KinProofs4.
Open Scope R_scope.

(** S(Q,E): for a neutron that does not fly nearly along z, every choice of random numbers that gives an energy transfer below the neutron's own
    energy and a range of Q which is not empty gives exactly the chosen transfer, inside the limits of the kernel; the weight is multiplied
    by S(Q,E) Q dQ dE / (2 ki^2); place, time and spin are kept. *)
Theorem C40_SQE : forall m ev u1 u2 u3 Ei ki kf, arrives (e_v ev) Ei ki -> e_v ev <> mkV 0 0 0 -> off_axis (1 / 10 ^ 10) (e_v ev) -> 0 <= u1 <= 1 -> 0 <= u2 <= 1 ->
  m_Emin m <= Rmin Ei (m_Emax m) -> let E := m_Emin m + u1 * (Rmin Ei (m_Emax m) - m_Emin m) in E < Ei -> wave_at (Ei - E) kf -> Qlow (m_Qmin m) ki kf <= Qhigh (m_Qmax m) ki kf ->
  let dQ := Qhigh (m_Qmax m) ki kf - Qlow (m_Qmin m) ki kf in let Q := Qlow (m_Qmin m) ki kf + u2 * dQ in
  exists o v', SQE_S m u1 u2 u3 ev = Ok o /\ in_place ev o /\ k_v o = Some v' /\ transfers (e_v ev) v' Q E /\ m_Qmin m <= Q <= m_Qmax m /\ m_Emin m <= E <= m_Emax m /\
    k_p o = e_p ev * (m_sqe m Q E * Q * dQ * (Rmin Ei (m_Emax m) - m_Emin m) / (2 * ki * ki)).
Proof.
  intros m ev u1 u2 u3 Ei ki kf AR N OFF U1 U2 EW E EE W H dQ Q. apply arrives_iff in AR. destruct AR as [-> ->]. change (vnorm (e_v ev)) with (speed (e_v ev)) in *.
  set (Ehi := Rmin (v2E (speed (e_v ev))) (m_Emax m)) in *. assert (RE : E = random u1 (m_Emin m) Ehi) by (unfold random, E; ring). assert (RQ : Q = random u2 (Qlow (m_Qmin m) (v2k * speed (e_v ev)) kf) (Qhigh (m_Qmax m) (v2k * speed (e_v ev)) kf)) by (unfold random, Q, dQ; ring).
  pose proof (wave_pos_lt _ _ (Rlt_Rminus _ _ EE) W) as KP. rewrite RE in W. destruct (sqe_exact m (m_Emin m) Ehi u1 u2 u3 ev kf N OFF W KP H U2) as (v' & R & T & QR). rewrite <- RE, <- RQ in *. fold dQ in R.
  assert (M1 : Ehi <= v2E (speed (e_v ev))) by apply Rmin_l. assert (M2 : Ehi <= m_Emax m) by apply Rmin_r.
  eexists _, v'. split; [|split; [|split; [|split; [exact T|split; [exact QR|split; [|]]]]]].
  - unfold SQE_S. change (vnorm (e_v ev)) with (speed (e_v ev)). cbv zeta. fold Ehi. rewrite (proj2 (Rltb_f _ (m_Emin m))) by lra. exact R.
  - unfold in_place, with_pv; cbn. now repeat split.
  - reflexivity.
  - unfold E. nra.
  - reflexivity.
Qed.
(** The same with focusing on final energies: the energy transfer is between those of the kernel and of the focusing window. *)
Theorem C40_SQE_focusing : forall m Ef dEf ev u1 u2 u3 Ei ki kf, arrives (e_v ev) Ei ki -> e_v ev <> mkV 0 0 0 -> off_axis (1 / 10 ^ 10) (e_v ev) -> 0 <= u1 <= 1 -> 0 <= u2 <= 1 ->
  let Elo := Rmax (m_Emin m) (Ei - (Ef + dEf)) in let Ehi := Rmin (Ei - (Ef - dEf)) (Rmin Ei (m_Emax m)) in
  Elo <= Ehi -> let E := Elo + u1 * (Ehi - Elo) in E < Ei -> wave_at (Ei - E) kf -> Qlow (m_Qmin m) ki kf <= Qhigh (m_Qmax m) ki kf ->
  let dQ := Qhigh (m_Qmax m) ki kf - Qlow (m_Qmin m) ki kf in let Q := Qlow (m_Qmin m) ki kf + u2 * dQ in
  exists o v', SQE_focusing_S m Ef dEf u1 u2 u3 ev = Ok o /\ in_place ev o /\ k_v o = Some v' /\ transfers (e_v ev) v' Q E /\ m_Qmin m <= Q <= m_Qmax m /\ m_Emin m <= E <= m_Emax m /\
    (exists Ef', is_energy Ef' (speed v') /\ Ef - dEf <= Ef' <= Ef + dEf) /\ k_p o = e_p ev * (m_sqe m Q E * Q * dQ * (Ehi - Elo) / (2 * ki * ki)).
Proof.
  intros m Ef dEf ev u1 u2 u3 Ei ki kf AR N OFF U1 U2 Elo Ehi EW E EE W H dQ Q. apply arrives_iff in AR. destruct AR as [-> ->]. change (vnorm (e_v ev)) with (speed (e_v ev)) in *.
  assert (RE : E = random u1 Elo Ehi) by (unfold random, E; ring). assert (RQ : Q = random u2 (Qlow (m_Qmin m) (v2k * speed (e_v ev)) kf) (Qhigh (m_Qmax m) (v2k * speed (e_v ev)) kf)) by (unfold random, Q, dQ; ring).
  pose proof (wave_pos_lt _ _ (Rlt_Rminus _ _ EE) W) as KP. rewrite RE in W. destruct (sqe_exact m Elo Ehi u1 u2 u3 ev kf N OFF W KP H U2) as (v' & R & T & QR). rewrite <- RE, <- RQ in *. fold dQ in R.
  set (E0 := v2E (speed (e_v ev))) in *.
  assert (M1 : Ehi <= E0) by (apply Rle_trans with (Rmin E0 (m_Emax m)); [apply Rmin_r|apply Rmin_l]). assert (M2 : Ehi <= m_Emax m) by (apply Rle_trans with (Rmin E0 (m_Emax m)); [apply Rmin_r|apply Rmin_r]).
  assert (M3 : Ehi <= E0 - (Ef - dEf)) by apply Rmin_l. assert (M4 : m_Emin m <= Elo) by apply Rmax_l. assert (M5 : E0 - (Ef + dEf) <= Elo) by apply Rmax_r. assert (EB : Elo <= E <= Ehi) by (unfold E; nra).
  eexists _, v'. split; [|split; [|split; [|split; [exact T|split; [exact QR|split; [lra|split; [|]]]]]]].
  - unfold SQE_focusing_S. change (vnorm (e_v ev)) with (speed (e_v ev)). cbv zeta. fold E0. rewrite (proj2 (Rltb_f E0 (m_Emin m))) by lra. exact R.
  - unfold in_place, with_pv; cbn. now repeat split.
  - reflexivity.
  - destruct T as (Ea & Eb & A & B & C & _). exists Eb. split; [exact B|]. rewrite is_energy_iff in A. fold E0 in A. lra.
  - reflexivity.
Qed.
(** S(Q): the same for elastic scattering. *)
Theorem C40_SQ : forall S lo0 hi0 ev u1 u2 Ei ki, arrives (e_v ev) Ei ki -> e_v ev <> mkV 0 0 0 -> off_axis (1 / 10 ^ 10) (e_v ev) -> 0 <= u1 <= 1 ->
  let lo := Rmax lo0 0 in let hi := Rmin hi0 (2 * ki) in lo <= hi -> let Q := lo + u1 * (hi - lo) in
  exists o v', SQ_S S lo0 hi0 u1 u2 ev = Ok o /\ in_place ev o /\ k_v o = Some v' /\ transfers (e_v ev) v' Q 0 /\ lo0 <= Q <= hi0 /\ k_p o = e_p ev * (S Q * Q * (hi - lo) / (2 * ki * ki)).
Proof.
  intros S lo0 hi0 ev u1 u2 Ei ki AR N OFF U1 lo hi H Q. apply arrives_iff in AR. destruct AR as [-> ->]. change (vnorm (e_v ev)) with (speed (e_v ev)) in *.
  destruct (sq_exact S lo0 hi0 u1 u2 ev N OFF H U1) as (v' & R & T & QR). fold lo hi in R, T, QR. assert (RQ : Q = random u1 lo hi) by (unfold random, Q; ring). rewrite <- RQ in *.
  eexists _, v'. split; [exact R|]. split; [unfold in_place, with_pv; cbn; now repeat split|]. split; [reflexivity|]. split; [exact T|]. split; [exact QR|reflexivity].
Qed.
(** Nearly along z, the basis of S(Q,E) kernels is not exactly orthonormal: the final energy is off by at most 1.0000000001e-10 of itself. *)
Theorem C40_near_axis : forall m ev u1 u2 u3 Ei ki kf, arrives (e_v ev) Ei ki -> e_v ev <> mkV 0 0 0 -> 0 <= u1 <= 1 -> 0 <= u2 <= 1 ->
  m_Emin m <= Rmin Ei (m_Emax m) -> let E := m_Emin m + u1 * (Rmin Ei (m_Emax m) - m_Emin m) in E < Ei -> wave_at (Ei - E) kf -> Qlow (m_Qmin m) ki kf <= Qhigh (m_Qmax m) ki kf ->
  exists o v' Ef, SQE_S m u1 u2 u3 ev = Ok o /\ k_v o = Some v' /\ is_energy Ef (speed v') /\ within (1 / 10 ^ 10 + 1 / 10 ^ 20) Ef (Ei - E).
Proof.
  intros m ev u1 u2 u3 Ei ki kf AR N U1 U2 EW E EE W H. apply arrives_iff in AR. destruct AR as [-> ->]. change (vnorm (e_v ev)) with (speed (e_v ev)) in *.
  set (Ehi := Rmin (v2E (speed (e_v ev))) (m_Emax m)) in *. assert (RE : E = random u1 (m_Emin m) Ehi) by (unfold random, E; ring).
  pose proof (wave_pos_lt _ _ (Rlt_Rminus _ _ EE) W) as KP. rewrite RE in W. destruct (sqe_near m (m_Emin m) Ehi u1 u2 u3 ev kf N W KP H U2) as (p & v' & R & B). rewrite <- RE in *.
  assert (M1 : Ehi <= v2E (speed (e_v ev))) by apply Rmin_l.
  eexists _, v', (v2E (speed v')). split; [|split; [|split; [apply energy_of|]]].
  - unfold SQE_S. change (vnorm (e_v ev)) with (speed (e_v ev)). cbv zeta. fold Ehi. rewrite (proj2 (Rltb_f _ (m_Emin m))) by lra. exact R.
  - reflexivity.
  - unfold within. replace (1 / 10 ^ 10 + 1 / 10 ^ 20) with (1 / 10 ^ 10 + 1 / 10 ^ 10 * (1 / 10 ^ 10)) by lra. exact B.
Qed.
(** Means over the random numbers.  [G] is any observable of the outgoing neutron which depends on the transfer only, with value [F Q E].  The mean of
    what it sees is the incoming weight times the integral of S(Q,E) F(Q,E) Q / (2 ki^2) over all of (Q,E) that kernel and kinematics allow. [J E] is the
    integral over Q at fixed E; energies for which the range of Q is empty contribute nothing, provided that [G] does not see the neutron as it came. *)
Theorem C40_SQE_unbiased : forall m ev Ei ki G F J I, arrives (e_v ev) Ei ki -> e_v ev <> mkV 0 0 0 -> off_axis (1 / 10 ^ 10) (e_v ev) -> m_Emin m < Rmin Ei (m_Emax m) ->
  (forall v' Q E, transfers (e_v ev) v' Q E -> G v' = F Q E) ->
  (forall E kf, m_Emin m < E < Rmin Ei (m_Emax m) -> wave_at (Ei - E) kf -> let lo := Qlow (m_Qmin m) ki kf in let hi := Qhigh (m_Qmax m) ki kf in
     (lo <= hi -> is_RInt (fun Q => m_sqe m Q E * F Q E * Q) lo hi (J E)) /\ (hi < lo -> J E = 0 /\ G (e_v ev) = 0)) ->
  is_RInt J (m_Emin m) (Rmin Ei (m_Emax m)) I ->
  meanN 3 (fun l => carried G (SQE_S m (stream l 0) (stream l 1) (stream l 2) ev)) (e_p ev * (I / (2 * ki * ki))).
Proof.
  intros m ev Ei ki G F J I AR N OFF EL GF W HJ. apply arrives_iff in AR. destruct AR as [-> ->]. change (vnorm (e_v ev)) with (speed (e_v ev)) in *.
  pose proof (Rmin_l (v2E (speed (e_v ev))) (m_Emax m)) as M1. apply (mean_ext 3 (fun l => carried G (sqe_body m (m_Emin m) (Rmin (v2E (speed (e_v ev))) (m_Emax m)) (v2k * speed (e_v ev)) (v2E (speed (e_v ev))) (stream l 0) (stream l 1) (stream l 2) ev))).
  - intros l. unfold SQE_S. change (vnorm (e_v ev)) with (speed (e_v ev)). cbv zeta. rewrite (proj2 (Rltb_f _ (m_Emin m))) by lra. reflexivity.
  - apply (sqe_mean m _ _ ev G F J I N OFF); [lra|exact GF|exact W|exact HJ].
Qed.
(** Focusing does not bias: the same integral, over the window. *)
Theorem C40_SQE_focusing_unbiased : forall m Ef dEf ev Ei ki G F J I, arrives (e_v ev) Ei ki -> e_v ev <> mkV 0 0 0 -> off_axis (1 / 10 ^ 10) (e_v ev) ->
  let Elo := Rmax (m_Emin m) (Ei - (Ef + dEf)) in let Ehi := Rmin (Ei - (Ef - dEf)) (Rmin Ei (m_Emax m)) in Elo < Ehi ->
  (forall v' Q E, transfers (e_v ev) v' Q E -> G v' = F Q E) ->
  (forall E kf, Elo < E < Ehi -> wave_at (Ei - E) kf -> let lo := Qlow (m_Qmin m) ki kf in let hi := Qhigh (m_Qmax m) ki kf in
     (lo <= hi -> is_RInt (fun Q => m_sqe m Q E * F Q E * Q) lo hi (J E)) /\ (hi < lo -> J E = 0 /\ G (e_v ev) = 0)) ->
  is_RInt J Elo Ehi I ->
  meanN 3 (fun l => carried G (SQE_focusing_S m Ef dEf (stream l 0) (stream l 1) (stream l 2) ev)) (e_p ev * (I / (2 * ki * ki))).
Proof.
  intros m Ef dEf ev Ei ki G F J I AR N OFF Elo Ehi EL GF W HJ. apply arrives_iff in AR. destruct AR as [-> ->]. change (vnorm (e_v ev)) with (speed (e_v ev)) in *. set (E0 := v2E (speed (e_v ev))) in *.
  assert (M1 : Ehi <= E0) by (apply Rle_trans with (Rmin E0 (m_Emax m)); [apply Rmin_r|apply Rmin_l]). assert (M4 : m_Emin m <= Elo) by apply Rmax_l.
  apply (mean_ext 3 (fun l => carried G (sqe_body m Elo Ehi (v2k * speed (e_v ev)) E0 (stream l 0) (stream l 1) (stream l 2) ev))).
  - intros l. unfold SQE_focusing_S. change (vnorm (e_v ev)) with (speed (e_v ev)). cbv zeta. fold E0. rewrite (proj2 (Rltb_f E0 (m_Emin m))) by lra. reflexivity.
  - apply (sqe_mean m _ _ ev G F J I N OFF); [fold E0; lra|exact GF|exact W|exact HJ].
Qed.
Theorem C40_SQ_unbiased : forall S lo0 hi0 ev Ei ki G F I, arrives (e_v ev) Ei ki -> e_v ev <> mkV 0 0 0 -> off_axis (1 / 10 ^ 10) (e_v ev) ->
  let lo := Rmax lo0 0 in let hi := Rmin hi0 (2 * ki) in lo <= hi -> (forall v' Q, transfers (e_v ev) v' Q 0 -> G v' = F Q) -> is_RInt (fun Q => S Q * F Q * Q) lo hi I ->
  meanN 2 (fun l => carried G (SQ_S S lo0 hi0 (stream l 0) (stream l 1) ev)) (e_p ev * (I / (2 * ki * ki))).
Proof.
  intros S lo0 hi0 ev Ei ki G F I AR N OFF lo hi H GF HI. apply arrives_iff in AR. destruct AR as [-> ->]. exact (sq_mean S lo0 hi0 ev G F I N OFF H GF HI).
Qed.
(** "A neutron that cannot be scattered is lost": false, it goes on with its full weight, even if S is zero everywhere. *)
Theorem C40_no_scatter_refuted : exists m ev u1 u2 u3, (forall Q E, m_sqe m Q E = 0) /\ 0 < e_p ev /\ SQE_S m u1 u2 u3 ev = Ok (as_is ev).
Proof.
  exists (mkSQE (fun _ _ => 0) 0 1 (v2E 1000 + 1) (v2E 1000 + 2)), (mkE (mkV 0 0 0) (mkV 0 0 1000) 0 0 0 1), 0, 0, 0. split; [reflexivity|]. split; [cbn; lra|].
  unfold SQE_S. cbn [e_v m_Emin]. change (vnorm (mkV 0 0 1000)) with (speed (mkV 0 0 1000)). rewrite (speed_eq (mkV 0 0 1000) 1000) by (unfold norm2, sdot; cbn; lra). cbv zeta. rewrite (proj2 (Rltb_t _ _)) by lra. reflexivity.
Qed.

(** Constant energy transfer: isotropic and exact; refused (weight -1) exactly when the neutron does not have the energy. *)
Theorem C40_constant_E : forall E ev u1 u2 Ei ki, arrives (e_v ev) Ei ki -> 0 <= u1 <= 1 ->
  (E <= Ei -> exists o vf, ConstantE_S E u1 u2 ev = Ok o /\ in_place ev o /\ k_p o = e_p ev /\ 0 <= vf /\ is_energy (Ei - E) vf /\ k_v o = Some (vscale vf (on_sphere (2 * u1 - 1) (2 * PI * u2)))) /\
  (Ei < E -> exists o, ConstantE_S E u1 u2 ev = Ok o /\ k_p o = -1).
Proof.
  intros E ev u1 u2 Ei ki AR U. apply arrives_iff in AR. destruct AR as [-> _]. change (vnorm (e_v ev)) with (speed (e_v ev)). split; intros H.
  - destruct (E2v_inv (v2E (speed (e_v ev)) - E) ltac:(lra)) as (vf & EV & VP & VE). rewrite (constantE_some E u1 u2 ev vf U EV). eexists _, vf. split; [reflexivity|]. split; [unfold in_place, with_pv; cbn; now repeat split|]. split; [reflexivity|]. split; [exact VP|]. split; [apply is_energy_iff; congruence|].
    cbn [k_v with_pv]. rewrite choose_on_sphere by exact U. do 3 f_equal; unfold random; ring.
  - unfold ConstantE_S. change (vnorm (e_v ev)) with (speed (e_v ev)). rewrite E2v_nan by lra. eexists. split; reflexivity.
Qed.
Theorem C40_constant_E_unbiased : forall E ev Ei ki vf G K I, arrives (e_v ev) Ei ki -> 0 <= vf -> is_energy (Ei - E) vf ->
  (forall c, -1 < c < 1 -> is_RInt (fun phi => G (vscale vf (on_sphere c phi))) 0 (2 * PI) (K c)) -> is_RInt K (-1) 1 I ->
  meanN 2 (fun l => carried G (ConstantE_S E (stream l 0) (stream l 1) ev)) (e_p ev * (I / (4 * PI))).
Proof.
  intros E ev Ei ki vf G K I AR VP VE HK HI. apply arrives_iff in AR. destruct AR as [-> _]. change (vnorm (e_v ev)) with (speed (e_v ev)) in *. rewrite is_energy_iff in VE.
  apply (meanN_01 2 (fun l => e_p ev * G (vscale vf (on_sphere (random (stream l 0) (-1) 1) (random (stream l 1) 0 (2 * PI)))))).
  - intros l L FA. assert (U : 0 < stream l 0 < 1) by (apply stream_in; [lia|exact FA]). rewrite (constantE_some E (stream l 0) (stream l 1) ev vf); [|lra|rewrite VE; now apply v2E_inv]. cbn [carried with_pv k_v k_p]. rewrite choose_on_sphere by lra. reflexivity.
  - apply (mean_to _ _ (e_p ev * I / (4 * PI))); [unfold Rdiv; ring|]. apply (sphere_mean (fun c phi => e_p ev * G (vscale vf (on_sphere c phi))) (fun c => e_p ev * K c) (e_p ev * I)).
    + intros c C. exact (@is_RInt_scal R_NormedModule _ 0 (2 * PI) (e_p ev) (K c) (HK c C)).
    + exact (@is_RInt_scal R_NormedModule _ (-1) 1 (e_p ev) I HI).
Qed.
(** Constant momentum and energy transfer: exact, with unchanged weight, exactly when kinematics allow it; if not, the velocity is nan and the neutron is
    invalidated before it leaves the kernel. *)
Theorem C40_constant_QE : forall Q E u sigma ev, e_v ev <> mkV 0 0 0 -> 0 <= Q ->
  (possible (e_v ev) Q E -> exists o v', ConstantQE_S Q E u ev = Ok o /\ in_place ev o /\ k_p o = e_p ev /\ k_v o = Some v' /\ transfers (e_v ev) v' Q E) /\
  (~ possible (e_v ev) Q E -> 0 <= e_p ev -> exists o, base_scatter sigma (ConstantQE_S Q E u) ev = Ok o /\ k_v o = None /\ k_p o = -1).
Proof.
  intros Q E u sigma ev N QP. split; intros H.
  - destruct (possible_wave _ _ _ N H) as (kf & W & K & T & _). destruct (constantQE_some Q E u ev kf N W K QP T) as (v' & R & TR). eexists _, v'. split; [exact R|]. split; [unfold in_place, with_pv; cbn; now repeat split|]. split; [reflexivity|]. split; [reflexivity|exact TR].
  - intros P. unfold base_scatter. rewrite constantQE_nan; [|exact QP|].
    + cbn [bind with_pv k_v k_p k_r k_s1 k_s2 k_t]. rewrite (proj2 (Rleb_true 0 (e_p ev)) P). cbn [k_p]. rewrite (proj2 (Rltb_f 0 (-1))) by lra. eexists. split; [reflexivity|]. split; reflexivity.
    + intros kf W K _ T. apply H. apply (possible_iff _ _ _ N). split; [exact QP|]. now exists kf.
Qed.
(** Constant vector momentum transfer: the wave vector changes by just that; the weight is multiplied by exp(-(E-E0)^2/(2 dE^2)), E the energy transfer. *)
Theorem C40_constant_vQE : forall Qv E0 dE ev, dE <> 0 -> exists o v' E, ConstantvQE_S Qv E0 dE ev = Ok o /\ in_place ev o /\ k_v o = Some v' /\
  transfers (e_v ev) v' (speed Qv) E /\ (is_wavenumber (vx Qv) (vx (e_v ev) - vx v') /\ is_wavenumber (vy Qv) (vy (e_v ev) - vy v') /\ is_wavenumber (vz Qv) (vz (e_v ev) - vz v')) /\ k_p o = e_p ev * exp (- ((E - E0) * (E - E0) / (2 * (dE * dE)))).
Proof.
  intros Qv E0 dE ev D. unfold ConstantvQE_S. rewrite divide_ok by exact D. cbn [bind]. set (v' := vscale k2v (vsub (vscale v2k (e_v ev)) Qv)). change (vnorm (e_v ev)) with (speed (e_v ev)). change (vnorm v') with (speed v'). pose proof k2v_v2k as KV. pose proof v2k_pos as VK.
  assert (X : forall q w, q = v2k * (w - k2v * (v2k * w - q))) by (intros q w; replace (v2k * (w - k2v * (v2k * w - q))) with (v2k * w - k2v * v2k * (v2k * w) + k2v * v2k * q) by ring; rewrite KV; ring).
  eexists _, v', (v2E (speed (e_v ev)) - v2E (speed v')). split; [reflexivity|]. split; [unfold in_place, with_pv; cbn; now repeat split|]. split; [reflexivity|]. split; [|split].
  - exists (v2E (speed (e_v ev))), (v2E (speed v')). split; [apply energy_of|]. split; [apply energy_of|]. split; [reflexivity|]. apply is_wavenumber_iff. rewrite <- speed_scale by lra. f_equal. unfold v', vscale, vsub; cbn [vx vy vz]. destruct Qv as [a b c]; cbn [vx vy vz]. f_equal; apply X.
  - repeat split; apply is_wavenumber_iff; unfold v', vscale, vsub; cbn [vx vy vz]; apply X.
  - cbn [k_p with_pv]. do 2 f_equal. field. exact D.
Qed.
(** S of the vector Q, elastic: the direction is uniform on the sphere, the weight is multiplied by S of the change of wave vector. *)
Theorem C40_SvQ : forall S ev u1 u2, 0 <= u1 <= 1 -> exists o v' Qv, SvQ_S S u1 u2 ev = Ok o /\ in_place ev o /\ k_v o = Some v' /\ v' = vscale (speed (e_v ev)) (on_sphere (2 * u1 - 1) (2 * PI * u2)) /\ speed v' = speed (e_v ev) /\
  (is_wavenumber (vx Qv) (vx (e_v ev) - vx v') /\ is_wavenumber (vy Qv) (vy (e_v ev) - vy v') /\ is_wavenumber (vz Qv) (vz (e_v ev) - vz v')) /\ k_p o = e_p ev * S Qv.
Proof.
  intros S ev u1 u2 U. rewrite (svq_value S u1 u2 ev U). eexists _, _, _. split; [reflexivity|]. split; [unfold in_place, with_pv; cbn; now repeat split|]. split; [reflexivity|]. split; [do 2 f_equal; unfold random; ring|]. split; [|split; [|reflexivity]].
  - rewrite speed_scale by apply speed_nonneg. rewrite (speed_eq (on_sphere _ _) 1), Rmult_1_r; [reflexivity|lra|]. rewrite on_sphere_unit by (unfold random; lra). ring.
  - repeat split; apply is_wavenumber_iff; reflexivity.
Qed.
(** Incoherent elastic scattering: exact in energy and angle, the mean is that of the isotropic distribution times the Debye-Waller factor. *)
Theorem C40_incoherent_elastic : forall dw ev u1 u2 Ei ki, arrives (e_v ev) Ei ki -> e_v ev <> mkV 0 0 0 -> off_axis (1 / 10 ^ 4) (e_v ev) -> 0 <= u1 <= 1 ->
  let Q := 2 * ki * sin (u1 * PI / 2) in exists o v', IncoherentElastic_S dw u1 u2 ev = Ok o /\ in_place ev o /\ k_v o = Some v' /\ transfers (e_v ev) v' Q 0 /\ k_p o = e_p ev * (sin (u1 * PI) * (PI / 2) * exp (- dw * Q * Q)).
Proof.
  intros dw ev u1 u2 Ei ki AR N OFF U Q. apply arrives_iff in AR. destruct AR as [-> ->]. change (vnorm (e_v ev)) with (speed (e_v ev)) in *. destruct (ie_exact dw u1 u2 ev N OFF U) as (v' & R & T).
  replace (random u1 0 PI) with (u1 * PI) in R, T by (unfold random; ring). fold Q in R, T. eexists _, v'. split; [exact R|]. split; [unfold in_place, with_pv; cbn; now repeat split|]. split; [reflexivity|]. split; [exact T|reflexivity].
Qed.
Theorem C40_incoherent_elastic_unbiased : forall dw ev Ei ki G F I, arrives (e_v ev) Ei ki -> e_v ev <> mkV 0 0 0 -> off_axis (1 / 10 ^ 4) (e_v ev) -> (forall v' Q, transfers (e_v ev) v' Q 0 -> G v' = F Q) ->
  is_RInt (fun theta => let Q := 2 * ki * sin (theta / 2) in exp (- dw * Q * Q) * F Q * (sin theta / 2)) 0 PI I ->
  meanN 2 (fun l => carried G (IncoherentElastic_S dw (stream l 0) (stream l 1) ev)) (e_p ev * I).
Proof.
  intros dw ev Ei ki G F I AR N OFF GF HI. apply arrives_iff in AR. destruct AR as [-> ->]. exact (ie_mean dw ev G F I N OFF GF HI).
Qed.

(** E(Q): the first Q of the sequence at which E(Q) is possible is taken, with exactly this transfer; the weight is divided by the number of tries.  After 100
    impossible ones the weight is zero. *)
Theorem C40_E_Q : forall m ev us u Ei ki, arrives (e_v ev) Ei ki -> e_v ev <> mkV 0 0 0 -> off_axis (1 / 10 ^ 4) (e_v ev) -> 0 <= q_Qmin m <= q_Qmax m -> (forall i, 0 <= us i <= 1) -> q_E m ki <> Ei ->
  let Q i := q_Qmin m + us i * (q_Qmax m - q_Qmin m) in
  (forall i, (i < 100)%nat -> possible (e_v ev) (Q i) (q_E m (Q i)) -> (forall j, (j < i)%nat -> ~ possible (e_v ev) (Q j) (q_E m (Q j))) ->
     exists o v', E_Q_S m us u ev = Ok o /\ in_place ev o /\ k_v o = Some v' /\ transfers (e_v ev) v' (Q i) (q_E m (Q i)) /\
       k_p o = e_p ev * (q_S m (Q i) * Q i * (q_Qmax m - q_Qmin m) / (2 * ki * ki)) / INR (S i)) /\
  ((forall j, (j < 100)%nat -> ~ possible (e_v ev) (Q j) (q_E m (Q j))) -> exists o, E_Q_S m us u ev = Ok o /\ k_p o = 0).
Proof.
  intros m ev us u Ei ki AR N OFF LH U NE Q. apply arrives_iff in AR. destruct AR as [-> ->]. change (vnorm (e_v ev)) with (speed (e_v ev)) in *.
  assert (QR : forall i, random (us i) (q_Qmin m) (q_Qmax m) = Q i) by (intros i; unfold random, Q; ring). assert (QP : forall i, 0 <= Q i) by (intros i; specialize (U i); unfold Q; nra).
  assert (NO : forall j, ~ possible (e_v ev) (Q j) (q_E m (Q j)) -> eq_try m (v2k * speed (e_v ev)) (v2E (speed (e_v ev))) us j = None).
  { intros j P. unfold eq_try. cbv zeta. rewrite QR. apply pass_none; [exact N|apply QP| |exact P]. intros [Z1 Z2]. rewrite Z1 in Z2. now apply NE. }
  rewrite E_Q_searched. split.
  - intros i L P B. destruct (try_yes _ _ _ N P) as (kf & W & K & T & _ & PS & _).
    rewrite <- (QR i) in PS at 1 2. change (eq_try m (v2k * speed (e_v ev)) (v2E (speed (e_v ev))) us (0 + i) = Some (mkPass (Q i) (kf * k2v) kf (Some ((v2k * speed (e_v ev) * (v2k * speed (e_v ev)) + kf * kf - Q i * Q i) / (2 * (v2k * speed (e_v ev)) * kf))))) in PS.
    rewrite (searched_hit _ 100 0 i _ L PS (fun l H => NO l (B l H))).
    destruct (eq_finish_ok m u ev (Q i) (q_E m (Q i)) kf (S (0 + i)) N OFF (QP i) W K T ltac:(lia)) as (v' & R & TR). eexists _, v'. split; [exact R|]. split; [unfold in_place, with_pv; cbn; now repeat split|]. split; [reflexivity|]. split; [exact TR|reflexivity].
  - intros B. rewrite searched_miss; [|intros l L; apply NO, B; exact L]. eexists. split; reflexivity.
Qed.
(** The mean over the random numbers for Q, if the kernel is asked for Q between Qmin and Qmax, of which the part [B] is out of reach: the integral over the
    Q in reach, times 1 + r/2 + r^2/3 + ..., r the fraction out of reach. *)
Theorem C40_E_Q_mean : forall m ev u Ei ki G F reach I B, arrives (e_v ev) Ei ki -> e_v ev <> mkV 0 0 0 -> off_axis (1 / 10 ^ 4) (e_v ev) -> 0 <= q_Qmin m < q_Qmax m -> q_E m ki <> Ei ->
  (forall v' Q, q_Qmin m < Q < q_Qmax m -> transfers (e_v ev) v' Q (q_E m Q) -> G v' = F Q) ->
  (forall Q, q_Qmin m < Q < q_Qmax m -> (reach Q = true <-> possible (e_v ev) Q (q_E m Q))) ->
  is_RInt (fun Q => if reach Q then q_S m Q * F Q * Q else 0) (q_Qmin m) (q_Qmax m) I -> is_RInt (fun Q => if reach Q then 0 else 1) (q_Qmin m) (q_Qmax m) B ->
  meanN 100 (fun l => carried G (E_Q_S m (stream l) u ev)) (e_p ev * (I / (2 * ki * ki)) * log_series (B / (q_Qmax m - q_Qmin m)) 100).
Proof.
  intros m ev u Ei ki G F reach I B AR N OFF LH NE GF RE HI HB. apply arrives_iff in AR. destruct AR as [-> ->]. exact (E_Q_mean m ev G F reach I B N (proj1 LH) (proj2 LH) GF RE HI HB u OFF NE).
Qed.
(** So it is right if all of the range is in reach, and too large by the factor 1 + r/2 at least if not. *)
Theorem C40_E_Q_unbiased : forall m ev u Ei ki G F I, arrives (e_v ev) Ei ki -> e_v ev <> mkV 0 0 0 -> off_axis (1 / 10 ^ 4) (e_v ev) -> 0 <= q_Qmin m < q_Qmax m -> q_E m ki <> Ei ->
  (forall v' Q, q_Qmin m < Q < q_Qmax m -> transfers (e_v ev) v' Q (q_E m Q) -> G v' = F Q) ->
  (forall Q, q_Qmin m < Q < q_Qmax m -> possible (e_v ev) Q (q_E m Q)) -> is_RInt (fun Q => q_S m Q * F Q * Q) (q_Qmin m) (q_Qmax m) I ->
  meanN 100 (fun l => carried G (E_Q_S m (stream l) u ev)) (e_p ev * (I / (2 * ki * ki))).
Proof.
  intros m ev u Ei ki G F I AR N OFF LH NE GF P HI. apply (mean_to _ _ (e_p ev * (I / (2 * ki * ki)) * log_series (0 / (q_Qmax m - q_Qmin m)) 100)); [replace (0 / (q_Qmax m - q_Qmin m)) with 0 by (unfold Rdiv; ring); rewrite (log_zero 99); ring|].
  apply (C40_E_Q_mean m ev u Ei ki G F (fun _ => true) I 0); try assumption.
  - intros Q QR. split; [intros _; now apply P|reflexivity].
  - pose proof (@is_RInt_const R_NormedModule (q_Qmin m) (q_Qmax m) 0) as D. change (is_RInt (fun _ => 0) (q_Qmin m) (q_Qmax m) ((q_Qmax m - q_Qmin m) * 0)) in D. now rewrite Rmult_0_r in D.
Qed.
Theorem C40_E_Q_unbiased_refuted : exists m ev u G F reach I B M, e_v ev <> mkV 0 0 0 /\ off_axis (1 / 10 ^ 4) (e_v ev) /\ q_E m (v2k * speed (e_v ev)) <> v2E (speed (e_v ev)) /\
  (forall v' Q, transfers (e_v ev) v' Q (q_E m Q) -> G v' = F Q) /\ (forall Q, q_Qmin m < Q < q_Qmax m -> (reach Q = true <-> possible (e_v ev) Q (q_E m Q))) /\
  is_RInt (fun Q => if reach Q then q_S m Q * F Q * Q else 0) (q_Qmin m) (q_Qmax m) I /\ is_RInt (fun Q => if reach Q then 0 else 1) (q_Qmin m) (q_Qmax m) B /\
  meanN 100 (fun l => carried G (E_Q_S m (stream l) u ev)) M /\ let ki := v2k * speed (e_v ev) in e_p ev * (I / (2 * ki * ki)) = 1 /\ 5 / 4 <= M.
Proof.
  set (ev := mkE (mkV 0 0 0) (mkV 0 0 1000) 0 0 0 1). set (v := e_v ev). assert (SP : speed v = 1000) by (apply speed_eq; unfold norm2, sdot, v; cbn; lra). assert (N : v <> mkV 0 0 0) by (intros Z; injection Z; intros; lra).
  pose proof (speed_v2k_pos v N) as KI. set (ki := v2k * speed v) in *.
  set (m := mkEQ (fun _ => 0) (fun _ => 1) 0 (4 * ki)). set (reach := fun Q => Rleb Q (2 * ki)).
  assert (OFF : off_axis (1 / 10 ^ 4) v) by (right; right; reflexivity).
  assert (NE : q_E m ki <> v2E (speed v)) by (change (0 <> v2E (speed v)); rewrite SP; unfold v2E; pose proof vsq2e_pos; lra).
  assert (WV : wave_at (v2E (speed v) - 0) ki) by (exists (speed v); split; [apply speed_nonneg|]; split; [apply is_energy_iff; ring|now apply is_wavenumber_iff]).
  assert (RE : forall Q, q_Qmin m < Q < q_Qmax m -> (reach Q = true <-> possible v Q (q_E m Q))).
  { intros Q [Q0 Q1]. cbn in Q0, Q1. cbn [q_E m]. rewrite (possible_iff v Q 0 N). unfold reach. rewrite Rleb_true. split.
    - intros H. split; [lra|]. exists ki. split; [exact WV|]. split; [exact KI|]. fold ki. unfold triangle. rewrite Rminus_eq_0, Rabs_R0. lra.
    - intros (_ & kf & W & _ & T). rewrite (wave_unique _ _ _ W WV) in T. fold ki in T. unfold triangle in T. lra. }
  assert (HI : is_RInt (fun Q => if reach Q then q_S m Q * 1 * Q else 0) (q_Qmin m) (q_Qmax m) (2 * ki * ki)).
  { cbn [q_Qmin q_Qmax m q_S]. replace (2 * ki * ki) with (2 * ki * ki + 0) by ring. apply (@is_RInt_Chasles R_NormedModule _ 0 (2 * ki) (4 * ki)).
    - apply (is_RInt_ext (fun Q => Q)).
      + intros x. rewrite Rmin_left, Rmax_right by lra. intros X. unfold reach. rewrite (proj2 (Rleb_true x (2 * ki))) by lra. change (x = 1 * 1 * x). ring.
      + assert (D : is_RInt (fun Q : R => Q) 0 (2 * ki) (minus ((2 * ki) * (2 * ki) / 2) (0 * 0 / 2))).
        { apply (@is_RInt_derive R_CompleteNormedModule (fun Q => Q * Q / 2)).
          - intros x _. auto_derive; [exact Logic.I|]. field.
          - intros x _. apply continuous_id. }
        replace (2 * ki * ki) with (minus ((2 * ki) * (2 * ki) / 2) (0 * 0 / 2)); [exact D|]. change ((2 * ki) * (2 * ki) / 2 - 0 * 0 / 2 = 2 * ki * ki). field.
    - apply (is_RInt_ext (fun Q => 0)).
      + intros x. rewrite Rmin_left, Rmax_right by lra. intros X. unfold reach. now rewrite (proj2 (Rleb_false x (2 * ki))) by lra.
      + pose proof (@is_RInt_const R_NormedModule (2 * ki) (4 * ki) 0) as D. change (is_RInt (fun _ => 0) (2 * ki) (4 * ki) ((4 * ki - 2 * ki) * 0)) in D. now rewrite Rmult_0_r in D. }
  assert (HB : is_RInt (fun Q => if reach Q then 0 else 1) (q_Qmin m) (q_Qmax m) (2 * ki)).
  { cbn [q_Qmin q_Qmax m]. replace (2 * ki) with (0 + 2 * ki) at 1 by ring. apply (@is_RInt_Chasles R_NormedModule _ 0 (2 * ki) (4 * ki)).
    - apply (is_RInt_ext (fun Q => 0)).
      + intros x. rewrite Rmin_left, Rmax_right by lra. intros X. unfold reach. now rewrite (proj2 (Rleb_true x (2 * ki))) by lra.
      + pose proof (@is_RInt_const R_NormedModule 0 (2 * ki) 0) as D. change (is_RInt (fun _ => 0) 0 (2 * ki) ((2 * ki - 0) * 0)) in D. now rewrite Rmult_0_r in D.
    - apply (is_RInt_ext (fun Q => 1)).
      + intros x. rewrite Rmin_left, Rmax_right by lra. intros X. unfold reach. now rewrite (proj2 (Rleb_false x (2 * ki))) by lra.
      + pose proof (@is_RInt_const R_NormedModule (2 * ki) (4 * ki) 1) as D. change (is_RInt (fun _ => 1) (2 * ki) (4 * ki) ((4 * ki - 2 * ki) * 1)) in D. now replace ((4 * ki - 2 * ki) * 1) with (2 * ki) in D by ring. }
  exists m, ev, 0, (fun _ => 1), (fun _ => 1), reach, (2 * ki * ki), (2 * ki), (1 * ((2 * ki * ki) / (2 * ki * ki)) * log_series (2 * ki / (4 * ki - 0)) 100).
  split; [exact N|]. split; [exact OFF|]. split; [exact NE|]. split; [reflexivity|]. split; [exact RE|]. split; [exact HI|]. split; [exact HB|]. split.
  - apply (C40_E_Q_mean m ev 0 (v2E (speed v)) ki (fun _ => 1) (fun _ => 1) reach); try assumption; [split; [apply energy_of|apply wavenumber_of]|cbn; lra|reflexivity].
  - fold v ki. cbn [e_p ev]. split; [field; lra|]. replace (2 * ki / (4 * ki - 0)) with (1 / 2) by (field; lra). replace (1 * (2 * ki * ki / (2 * ki * ki))) with 1 by (field; lra). pose proof (log_more (1 / 2) 98 ltac:(lra)). lra.
Qed.
(** "An E(Q) kernel with E = 0 scatters elastically": false near the z axis (within 1e-4), where its basis is not orthogonal. *)
Theorem C40_E_Q_near_axis_refuted : exists m ev us u o v', (forall Q, q_E m Q = 0) /\ e_v ev <> mkV 0 0 0 /\ E_Q_S m us u ev = Ok o /\ k_v o = Some v' /\ speed v' < speed (e_v ev).
Proof.
  set (ev := mkE (mkV 0 0 0) (mkV 3 0 40000) 0 0 0 1). set (v := e_v ev). assert (N : v <> mkV 0 0 0) by (intros Z; injection Z; intros; lra). pose proof (speed_v2k_pos v N) as KI. set (ki := v2k * speed v) in *. pose proof (speed_pos v N) as SP.
  assert (S2 : 0 < sqrt 2) by (apply sqrt_lt_R0; lra). assert (SS : sqrt 2 * sqrt 2 = 2) by (apply sqrt_sqrt; lra). set (Q := sqrt 2 * ki). set (m := mkEQ (fun _ => 0) (fun _ => 1) Q Q).
  assert (QQ : Q * Q = 2 * (ki * ki)) by (unfold Q; replace (sqrt 2 * ki * (sqrt 2 * ki)) with (sqrt 2 * sqrt 2 * (ki * ki)) by ring; rewrite SS; reflexivity).
  assert (WV : wave_at (v2E (speed v) - 0) ki) by (exists (speed v); split; [apply speed_nonneg|]; split; [apply is_energy_iff; ring|now apply is_wavenumber_iff]).
  assert (T : triangle ki ki Q). { unfold triangle. rewrite Rminus_eq_0, Rabs_R0. split; [unfold Q; nra|]. apply Rsqr_incr_0_var; [unfold Rsqr; nra|lra]. }
  pose proof (pass_ok v Q 0 ki N WV KI T) as PS. fold ki in PS. replace ((ki * ki + ki * ki - Q * Q) / (2 * ki * ki)) with 0 in PS by (rewrite QQ; field; lra).
  assert (SPD : 40000 < speed v). { apply Rsqr_incrst_0; [|lra|lra]. unfold Rsqr. rewrite speed_norm. unfold norm2, sdot, v; cbn. lra. }
  destruct (axes_fixed_near v (1 / 10 ^ 4) N ltac:(lra)) as (e1 & AX & [AL U] & _).
  { intros [H|[H|H]]; [change (vx v) with 3 in H; rewrite Rabs_pos_eq in H by lra; lra|change (vy v) with 0 in H; rewrite Rabs_R0 in H; lra|change (vx v) with 3 in H; lra]. }
  assert (EX : speed v * vx e1 = 3) by (change 3 with (vx v); rewrite AL at 2; reflexivity).
  destruct (turned_by_some (axes_fixed (1 / 10 ^ 4) v) 0 (random (1 / 4) 0 (PI * 2)) ltac:(lra)) as (sint & S0 & CS & TB). rewrite AX in TB at 2.
  destruct (turned (Some (e1, mkV 1 0 0, vcross e1 (mkV 1 0 0))) 0 sint (random (1 / 4) 0 (PI * 2))) as [d|] eqn:D; [|discriminate].
  destruct (turned_near _ _ _ _ _ U CS D) as [ND _]. replace (random (1 / 4) 0 (PI * 2)) with (PI / 2) in ND by (unfold random; field). rewrite sin_PI2 in ND.
  assert (KS : ki * k2v = speed v) by (unfold ki; rewrite <- (Rmult_1_r (speed v)) at 2; rewrite <- k2v_v2k; ring).
  assert (F : exists o, E_Q_S m (fun _ => 0) (1 / 4) ev = Ok o /\ k_v o = Some (vscale (speed v) d)).
  { rewrite E_Q_searched. fold v ki. cbn [searched]. unfold eq_try at 1. cbv zeta. cbn [q_Qmin q_Qmax q_E m]. replace (random 0 Q Q) with Q by (unfold random; ring). rewrite PS. unfold eq_finish. cbn [a_cost a_vf a_Q a_kf]. fold v. rewrite TB. change (vnorm v) with (speed v). fold ki. rewrite divide_ok by lra. cbn [bind]. rewrite divide_ok by nra. cbn [bind option_map]. eexists. split; [reflexivity|]. cbn [k_v with_pv]. now rewrite KS. }
  destruct F as (o & F1 & F2). exists m, ev, (fun _ => 0), (1 / 4), o, (vscale (speed v) d). split; [reflexivity|]. split; [exact N|]. split; [exact F1|]. split; [exact F2|].
  rewrite speed_scale by apply speed_nonneg. fold v. rewrite <- (Rmult_1_r (speed v)) at 2. apply Rmult_lt_compat_l; [exact SP|]. apply Rsqr_incrst_0; [|apply speed_nonneg|lra]. unfold Rsqr. rewrite speed_norm, ND.
  assert (0 < vx e1) by nra. assert (sint * sint = 1) as -> by lra. nra.
Qed.
(** Broadened E(Q), for every value of the random deviation: the first of 99 tries that is possible is taken, with its transfer; without one, the neutron goes on
    as it came.  The 100th try does not count, whether possible or not. *)
Theorem C40_broadened : forall m sg ev us ds u Ei ki, arrives (e_v ev) Ei ki -> e_v ev <> mkV 0 0 0 -> 0 <= q_Qmin m <= q_Qmax m -> (forall i, 0 <= us i <= 1) -> broadened_Emin m sg <= Ei ->
  let Q i := q_Qmin m + us i * (q_Qmax m - q_Qmin m) in let E i := q_E m (Q i) + ds i * sg (Q i) in
  (forall i, (i < 99)%nat -> possible (e_v ev) (Q i) (E i) -> (forall j, (j < i)%nat -> ~ possible (e_v ev) (Q j) (E j)) ->
     exists o v', Broadened_S m sg us ds u ev = Ok o /\ in_place ev o /\ k_v o = Some v' /\ transfers (e_v ev) v' (Q i) (E i) /\
       k_p o = e_p ev * (q_S m (Q i) * Q i * (q_Qmax m - q_Qmin m) / (2 * ki * ki))) /\
  ((forall j, (j < 99)%nat -> ~ possible (e_v ev) (Q j) (E j)) -> Broadened_S m sg us ds u ev = Ok (as_is ev)).
Proof.
  intros m sg ev us ds u Ei ki AR N LH U EM Q E. apply arrives_iff in AR. destruct AR as [-> ->]. change (vnorm (e_v ev)) with (speed (e_v ev)) in *.
  assert (QR : forall i, random (us i) (q_Qmin m) (q_Qmax m) = Q i) by (intros i; unfold random, Q; ring). assert (QP : forall i, 0 <= Q i) by (intros i; specialize (U i); unfold Q; nra).
  assert (NO : forall j, ~ possible (e_v ev) (Q j) (E j) -> br_try m sg (v2k * speed (e_v ev)) (v2E (speed (e_v ev))) us ds j = None).
  { intros j P. apply br_try_no; rewrite ?QR; [exact N|apply QP|exact P]. }
  rewrite Broadened_searched by exact EM. split.
  - intros i L P B. pose proof (br_try_yes m sg us ds (e_v ev) i) as Y. cbv zeta in Y. rewrite QR in Y. destruct (Y N P) as (kf & W & K & T & _ & PS).
    rewrite (searched_hit _ 100 0 i _ (Nat.lt_lt_succ_r _ _ L) PS (fun l H => NO l (B l H))). rewrite (proj2 (Nat.leb_gt 100 (S (0 + i)))) by lia.
    destruct (br_finish_ok m u ev (Q i) (E i) kf N (QP i) W K T) as (v' & R & TR). eexists _, v'. split; [exact R|]. split; [unfold in_place, with_pv; cbn; now repeat split|]. split; [reflexivity|]. split; [exact TR|reflexivity].
  - intros B. destruct (searched _ 100 0) as [[a c]|] eqn:S0; [|reflexivity]. destruct (searched_some _ _ _ _ _ S0) as (j & L & -> & F & _). destruct (Nat.leb 100 (S (0 + j))) eqn:LE; [reflexivity|]. apply Nat.leb_gt in LE. cbn [Nat.add] in *. rewrite (NO j (B j ltac:(lia))) in F. discriminate.
Qed.
(** The mean without broadening: the sum of the attempts, so the integral over the Q in reach divided by the fraction in reach, and the neutrons not scattered. *)
Theorem C40_broadened_mean : forall m sg ev u ds Ei ki G F reach I B, arrives (e_v ev) Ei ki -> e_v ev <> mkV 0 0 0 -> 0 <= q_Qmin m < q_Qmax m -> broadened_Emin m sg <= Ei -> (forall Q, sg Q = 0) ->
  (forall v' Q, q_Qmin m < Q < q_Qmax m -> transfers (e_v ev) v' Q (q_E m Q) -> G v' = F Q) ->
  (forall Q, q_Qmin m < Q < q_Qmax m -> (reach Q = true <-> possible (e_v ev) Q (q_E m Q))) ->
  is_RInt (fun Q => if reach Q then q_S m Q * F Q * Q else 0) (q_Qmin m) (q_Qmax m) I -> is_RInt (fun Q => if reach Q then 0 else 1) (q_Qmin m) (q_Qmax m) B ->
  let r := B / (q_Qmax m - q_Qmin m) in
  exists M, meanN 100 (fun l => carried G (Broadened_S m sg (stream l) ds u ev)) M /\ (r = 0 -> M = e_p ev * (I / (2 * ki * ki))) /\
    M * (1 - r) = e_p ev * (I / (2 * ki * ki)) * (1 - r ^ 99) + r ^ 99 * (e_p ev * G (e_v ev)) * (1 - r).
Proof.
  intros m sg ev u ds Ei ki G F reach I B AR N LH EM SG GF RE HI HB r. apply arrives_iff in AR. destruct AR as [-> ->].
  eexists. split; [exact (Broadened_mean m ev G F reach I B N (proj1 LH) (proj2 LH) GF RE HI HB sg u ds EM SG)|]. fold r. split.
  - intros ->. rewrite (geo_zero 98), (pow_i 99) by lia. change (vnorm (e_v ev)) with (speed (e_v ev)). ring.
  - change (vnorm (e_v ev)) with (speed (e_v ev)). rewrite Rmult_plus_distr_r, Rmult_assoc, geo_sum. ring.
Qed.

(** What every kernel does at the end: a valid neutron of positive weight is weighted with the scattering coefficient, others are passed on as they are. *)
Theorem C40_base : forall sigma S ev o, S ev = Ok o -> (forall v', k_v o = Some v' -> 0 < k_p o -> base_scatter sigma S ev = Ok (mkKE (k_r o) (k_v o) (k_s1 o) (k_s2 o) (k_t o) (k_p o * sigma o))) /\
  (forall v', k_v o = Some v' -> k_p o <= 0 -> base_scatter sigma S ev = Ok o).
Proof.
  intros sigma S ev o H. unfold base_scatter. rewrite H. cbn [bind]. split; intros v' V P; rewrite V.
  - rewrite (proj2 (Rltb_t 0 _)) by exact P. now rewrite V.
  - now rewrite (proj2 (Rltb_f 0 _)) by exact P.
Qed.
(** A neutron of 1000 m/s along z, which counts as off the axis: hypotheses met for an elastic and an inelastic kernel. *)
Example C40_example : let ev := mkE (mkV 1 2 3) (mkV 0 0 1000) 0 0 0 1 in let Ei := v2E 1000 in let ki := v2k * 1000 in
  e_v ev <> mkV 0 0 0 /\ off_axis (1 / 10 ^ 10) (e_v ev) /\ arrives (e_v ev) Ei ki /\
  (let m := mkSQE (fun _ _ => 1) 0 (3 * ki) 0 Ei in m_Emin m < Rmin Ei (m_Emax m) /\ (forall E kf, m_Emin m < E < Rmin Ei (m_Emax m) -> wave_at (Ei - E) kf -> Qlow (m_Qmin m) ki kf <= Qhigh (m_Qmax m) ki kf)) /\
  possible (e_v ev) ki 0 /\ ~ possible (e_v ev) (3 * ki) 0 /\ ~ possible (e_v ev) ki (Ei + 1).
Proof.
  intros ev Ei ki. assert (N : e_v ev <> mkV 0 0 0) by (intros Z; injection Z; intros; lra). assert (SP : speed (e_v ev) = 1000) by (apply speed_eq; unfold norm2, sdot; cbn; lra). pose proof (speed_v2k_pos _ N) as KI. rewrite SP in KI. fold ki in KI.
  assert (EP : 0 < Ei) by (unfold Ei, v2E; pose proof vsq2e_pos; nra). assert (AR : arrives (e_v ev) Ei ki) by (apply arrives_iff; change (vnorm (e_v ev)) with (speed (e_v ev)); now rewrite SP).
  assert (WV : wave_at (v2E (speed (e_v ev)) - 0) ki) by (exists 1000; split; [lra|]; split; [apply is_energy_iff; rewrite SP; unfold Ei; ring|now apply is_wavenumber_iff]).
  split; [exact N|]. split; [right; right; reflexivity|]. split; [exact AR|]. split; [|split; [|split]].
  - cbn [m_Emin m_Emax m_Qmin m_Qmax]. rewrite Rmin_left by lra. split; [exact EP|]. intros E kf ER W. unfold Qlow, Qhigh. pose proof (wave_pos _ _ W) as KP.
    assert (KL : kf <= ki). { destruct (E2v_wave _ _ W) as (vf & _ & VP & -> & VE). unfold ki. pose proof v2k_pos. apply Rmult_le_compat_l; [lra|]. unfold Ei, v2E in *. pose proof vsq2e_pos as VS. destruct (Rle_lt_dec vf 1000) as [|G]; [assumption|exfalso]. assert (1000 * 1000 < vf * vf) by nra. assert (1000 * 1000 * vsq2e < vf * vf * vsq2e) by (apply Rmult_lt_compat_r; assumption). lra. }
    rewrite (Rabs_pos_eq (ki - kf)) by lra. apply Rmax_lub; apply Rmin_glb; lra.
  - apply (possible_iff _ _ _ N). split; [lra|]. exists ki. split; [exact WV|]. split; [exact KI|]. rewrite SP. fold ki. unfold triangle. rewrite Rminus_eq_0, Rabs_R0. lra.
  - intros P. apply (possible_iff _ _ _ N) in P. destruct P as (_ & kf & W & _ & T). rewrite (wave_unique _ _ _ W WV), SP in T. fold ki in T. unfold triangle in T. lra.
  - intros P. apply (possible_iff _ _ _ N) in P. destruct P as (_ & kf & W & _). apply wave_at_iff in W. rewrite SP in W. fold Ei in W. lra.
Qed.

Print Assumptions C40_SQE.
Print Assumptions C40_SQE_focusing.
Print Assumptions C40_SQ.
Print Assumptions C40_near_axis.
Print Assumptions C40_SQE_unbiased.
Print Assumptions C40_SQE_focusing_unbiased.
Print Assumptions C40_SQ_unbiased.
Print Assumptions C40_no_scatter_refuted.
Print Assumptions C40_constant_E.
Print Assumptions C40_constant_E_unbiased.
Print Assumptions C40_constant_QE.
Print Assumptions C40_constant_vQE.
Print Assumptions C40_SvQ.
Print Assumptions C40_incoherent_elastic.
Print Assumptions C40_incoherent_elastic_unbiased.
Print Assumptions C40_E_Q.
Print Assumptions C40_E_Q_mean.
Print Assumptions C40_E_Q_unbiased.
Print Assumptions C40_E_Q_unbiased_refuted.
Print Assumptions C40_E_Q_near_axis_refuted.
Print Assumptions C40_broadened.
Print Assumptions C40_broadened_mean.
Print Assumptions C40_base.
