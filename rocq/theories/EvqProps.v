(** C73: a kernel with an excitation at every wave vector.  See EvqModel.v for the code modelled and EvqSpec.v for the vocabulary. *)
From Coq Require Import Reals Lra Lia.
From Coquelicot Require Import Coquelicot.
From Verif Require Import Base RotModel RotSpec ChanModel ShapeModel ScatModel ScatSpec UnitModel UnitSpec UnitProofs KinModel KinSpec RootModel RootSpec CohModel CohSpec CohProofs CohProofs4 EvqModel EvqSpec EvqProofs EvqProofs2 EvqProofs3 EvqProofs4 EvqProofs5.
Open Scope R_scope.

(** C73.  Whatever the energy and the strength are as functions of the wave vector, the direction is taken from the whole sphere, evenly; the steps
    of the wave number in which the balance of energies changes sign are the candidates.  Without one the neutron is as before.  Otherwise the
    wave number is in one of these steps, the weight gets the number of candidates and the rate of the energy over the slope of the balance; and
    if the balance is within the tolerance, the neutron is given this wave number and, further, the strength and the ratio of wave numbers. *)
Theorem C73_states : forall k u1 u2 u3 ev o, 0 <= q_Emax k -> e_v ev <> mkV 0 0 0 -> speed (e_v ev) <= 10 ^ 20 -> 0 <= u1 <= 1 -> evq_scatter k u1 u2 u3 ev = Ok o ->
  in_place ev o /\ exists d f c Ei kmin ki,
    d = on_sphere (2 * u1 - 1) (2 * PI * u2) /\ norm2 d = 1 /\ balance (q_E k) (e_v ev) d f /\ is_energy Ei (speed (e_v ev)) /\ slowest Ei (q_Emax k) kmin /\ is_wavenumber ki (speed (e_v ev)) /\
    (forall i, (i < 1000)%nat -> c i = true <-> changes_sign f (grid kmin ki 1000 i) (grid kmin ki 1000 (i + 1))) /\
    ((chosen c 1000 = 0%nat /\ k_v o = Some (e_v ev) /\ k_p o = e_p ev) \/
     exists i kf r, (i < 1000)%nat /\ c i = true /\ within (grid kmin ki 1000 i) (grid kmin ki 1000 (i + 1)) kf /\ energy_rate kf r /\
       let D := Rabs (four_point f kf (ki / 200)) in let w := e_p ev * INR (chosen c 1000) * (r / D) in D <> 0 /\
       ((q_Emax k / 100000 < Rabs (f kf) /\ k_v o = Some (e_v ev) /\ k_p o = w) \/
        (Rabs (f kf) <= q_Emax k / 100000 /\ exists v' q, k_v o = Some v' /\ along d kf v' /\ wave_vector q (vsub (e_v ev) v') /\ k_p o = w * (q_S k q * (kf / ki))))).
Proof. exact state. Qed.
Lemma flat_hyps : 0 < q_Emax flat_kernel /\ e_v neutron1 <> mkV 0 0 0 /\ speed (e_v neutron1) <= 10 ^ 20.
Proof. split; [cbn; apply v2E_pos; lra|]. split; [exact nz1|]. cbn [neutron1 e_v]. rewrite speed1. lra. Qed.
(** An excitation with three quarters of the energy of the neutron at all wave vectors: the neutron goes on at half its speed. *)
Example C73_states_example : 0 <= q_Emax flat_kernel /\ e_v neutron1 <> mkV 0 0 0 /\ speed (e_v neutron1) <= 10 ^ 20 /\ evq_scatter flat_kernel 1 0 (1 / 3) neutron1 = Ok (with_pv neutron1 1 (Some (mkV 0 0 500))).
Proof. destruct flat_hyps as (A & B & C). split; [lra|]. split; [exact B|]. split; [exact C|]. apply flat_twice. Qed.

(** C73.  A neutron that is given a new velocity loses the energy of the excitation at its wave vector transfer, within a hundred-thousandth of
    the limit; it gains no energy and loses no more than the limit. *)
Theorem C73_conserved : forall k u1 u2 u3 ev o v', 0 <= q_Emax k -> e_v ev <> mkV 0 0 0 -> speed (e_v ev) <= 10 ^ 20 -> 0 <= u1 <= 1 -> evq_scatter k u1 u2 u3 ev = Ok o -> k_v o = Some v' -> v' <> e_v ev ->
  exists x Ei Ef, left_over (q_E k) (e_v ev) v' x /\ Rabs x <= q_Emax k / 100000 /\ is_energy Ei (speed (e_v ev)) /\ is_energy Ef (speed v') /\ Ef <= Ei <= Ef + q_Emax k.
Proof. exact conserves. Qed.
Example C73_conserved_example : evq_scatter flat_kernel 1 0 0 neutron1 = Ok (with_pv neutron1 1 (Some (mkV 0 0 500))) /\ mkV 0 0 500 <> e_v neutron1.
Proof. split; [apply flat_twice|]. cbn. intros E. injection E as E. lra. Qed.

(** C73.  What a detector sees in the mean over the choice of the candidate is the sum over all candidates; their number drops out. *)
Theorem C73_mean : forall k u1 u2 ev G, 0 <= q_Emax k -> e_v ev <> mkV 0 0 0 -> speed (e_v ev) <= 10 ^ 20 -> 0 <= u1 <= 1 ->
  exists d f c r Ei kmin ki,
    d = on_sphere (2 * u1 - 1) (2 * PI * u2) /\ norm2 d = 1 /\ balance (q_E k) (e_v ev) d f /\ is_energy Ei (speed (e_v ev)) /\ slowest Ei (q_Emax k) kmin /\ is_wavenumber ki (speed (e_v ev)) /\
    (forall i, (i < 1000)%nat -> c i = true <-> changes_sign f (grid kmin ki 1000 i) (grid kmin ki 1000 (i + 1))) /\
    (forall i, (i < 1000)%nat -> c i = true -> within (grid kmin ki 1000 i) (grid kmin ki 1000 (i + 1)) (r i)) /\
    ((0 < chosen c 1000)%nat -> (forall i, (i < 1000)%nat -> c i = true -> four_point f (r i) (ki / 200) <> 0) ->
     exists T, (forall i, share (q_S k) G (e_v ev) d f (q_Emax k / 100000) ki (r i) (T i)) /\
       meanN 1 (fun l => carried G (evq_scatter k u1 u2 (stream l 0) ev)) (e_p ev * sum_chosen c T 1000)).
Proof. exact mean. Qed.
(** For the flat excitation there are candidates and the slopes are not zero. *)
Example C73_mean_example : forall d f c r Ei kmin ki, norm2 d = 1 -> balance (q_E flat_kernel) (e_v neutron1) d f -> is_energy Ei (speed (e_v neutron1)) -> slowest Ei (q_Emax flat_kernel) kmin -> is_wavenumber ki (speed (e_v neutron1)) ->
  (forall i, (i < 1000)%nat -> c i = true <-> changes_sign f (grid kmin ki 1000 i) (grid kmin ki 1000 (i + 1))) -> (forall i, (i < 1000)%nat -> c i = true -> within (grid kmin ki 1000 i) (grid kmin ki 1000 (i + 1)) (r i)) ->
  (0 < chosen c 1000)%nat /\ (forall i, (i < 1000)%nat -> c i = true -> four_point f (r i) (ki / 200) <> 0).
Proof. exact flat_inner. Qed.

(** C73.  The slope of the balance is right for polynomials up to the fourth degree, and for a smooth balance it is made of slopes nearby. *)
Theorem C73_slope : (forall a0 a1 a2 a3 a4 x d, d <> 0 -> four_point (fun x => a0 + a1 * x + a2 * x ^ 2 + a3 * x ^ 3 + a4 * x ^ 4) x d = a1 + 2 * a2 * x + 3 * a3 * x ^ 2 + 4 * a4 * x ^ 3) /\
  (forall (f f' : R -> R) x d, 0 < d -> (forall y, x - 2 * d <= y <= x + 2 * d -> derivable_pt_lim f y (f' y)) ->
    exists y z, x - d <= y <= x + d /\ x - 2 * d <= z <= x + 2 * d /\ four_point f x d = (4 * f' y - f' z) / 3).
Proof. split; [exact four_point_poly|exact four_point_slopes]. Qed.
Example C73_slope_example : df_dkf (fun x => x ^ 4) 2 (1 / 200) = Ok 32.
Proof. replace (1 / 200) with (1 / 200) by reflexivity. rewrite df_four by lra. destruct (Rle_dec 0 1); [|lra]. f_equal. unfold four_point. rewrite Rmult_1_r. match goal with |- Rabs ?a = _ => replace a with 32 by field end. apply Rabs_right. lra. Qed.
(** The number in the code is this slope. *)
Theorem C73_slope_used : forall f kf ki, 0 < ki -> df_dkf f kf (ki / 200) = Ok (Rabs (four_point f kf (ki / 200))).
Proof. intros f kf ki K. rewrite df_four by lra. destruct (Rle_dec 0 ki); [|lra]. now rewrite Rmult_1_r. Qed.
Example C73_slope_used_example : df_dkf (fun x => x) 5 (7 / 200) = Ok 1.
Proof. rewrite C73_slope_used by lra. f_equal. unfold four_point. match goal with |- Rabs ?a = _ => replace a with 1 by field end. apply Rabs_right. lra. Qed.

(** C73.  If the energy is the same at all wave vectors, the weight gets the strength and the ratio of the speeds, and no more - unless the wave
    number is one of the inner points of the grid, where it gets them twice. *)
Theorem C73_flat : forall k w u1 u2 u3 ev o v', q_E k = (fun _ => w) -> 0 < q_Emax k -> e_v ev <> mkV 0 0 0 -> speed (e_v ev) <= 10 ^ 20 -> 0 <= u1 <= 1 -> evq_scatter k u1 u2 u3 ev = Ok o -> k_v o = Some v' -> v' <> e_v ev ->
  exists n q Ei kmin ki, wave_vector q (vsub (e_v ev) v') /\ k_p o = e_p ev * INR n * (q_S k q * (speed v' / speed (e_v ev))) /\
    is_energy Ei (speed (e_v ev)) /\ slowest Ei (q_Emax k) kmin /\ is_wavenumber ki (speed (e_v ev)) /\
    (n = 1%nat \/ (n = 2%nat /\ exists i s, (0 < i < 1000)%nat /\ is_wavenumber (grid kmin ki 1000 i) s /\ is_energy (Ei - w) s)).
Proof. exact flat. Qed.
Example C73_flat_example : q_E flat_kernel = (fun _ => 3 / 4 * v2E 1000) /\ 0 < q_Emax flat_kernel /\ evq_scatter flat_kernel 1 0 0 neutron1 = Ok (with_pv neutron1 1 (Some (mkV 0 0 500))).
Proof. split; [reflexivity|]. split; [apply flat_hyps|apply flat_twice]. Qed.
(** So the weight is not always the strength times the ratio of the speeds. *)
Theorem C73_twice_refuted : ~ (forall k w u1 u2 u3 ev o v' q, q_E k = (fun _ => w) -> 0 < q_Emax k -> e_v ev <> mkV 0 0 0 -> speed (e_v ev) <= 10 ^ 20 -> 0 <= u1 <= 1 -> evq_scatter k u1 u2 u3 ev = Ok o -> k_v o = Some v' -> v' <> e_v ev ->
  wave_vector q (vsub (e_v ev) v') -> k_p o = e_p ev * (q_S k q * (speed v' / speed (e_v ev)))).
Proof.
  intros H. destruct flat_hyps as (A & B & C). destruct C73_conserved_example as [D E]. assert (U : 0 <= 1 <= 1) by lra. specialize (H flat_kernel _ 1 0 0 neutron1 _ (mkV 0 0 500) _ eq_refl A B C U D eq_refl E (proj2 (wave_vector_iff _ _) eq_refl)).
  cbn [with_pv k_p flat_kernel q_S neutron1 e_p e_v] in H. rewrite speed1, speed500 in H. lra.
Qed.

(** C73.  An excitation of negative energy, or of more than the energy of the neutron, leaves the neutron as it is: there is no gain of energy. *)
Theorem C73_out_of_reach : forall k u1 u2 u3 ev Ei, 0 <= q_Emax k -> e_v ev <> mkV 0 0 0 -> speed (e_v ev) <= 10 ^ 20 -> 0 <= u1 <= 1 -> is_energy Ei (speed (e_v ev)) -> ((forall q, q_E k q < 0) \/ (forall q, Ei < q_E k q)) ->
  exists o, evq_scatter k u1 u2 u3 ev = Ok o /\ in_place ev o /\ k_v o = Some (e_v ev) /\ k_p o = e_p ev.
Proof. intros k u1 u2 u3 ev Ei A B C D E F. exists (as_is ev). split; [exact (out_of_reach k u1 u2 u3 ev Ei A B C D E F)|]. repeat split. Qed.
Example C73_out_of_reach_example : exists k, 0 <= q_Emax k /\ (forall q, q_E k q < 0) /\ q_E k (mkV 1 0 0) <> q_E k (mkV 0 0 0).
Proof. exists (mkEvq (fun q => - (1 + vx q * vx q)) (fun _ => 1) 10 0 0). split; [cbn; lra|]. split; [intros q; cbn; nra|]. cbn. lra. Qed.

(** C73.  A neutron for which no velocity fits the excitation is not always left as it is: where the energy of the excitation jumps, its velocity is
    kept and its weight is changed. *)
Theorem C73_dropped_refuted : ~ (forall k u1 u2 u3 ev o, 0 <= q_Emax k -> e_v ev <> mkV 0 0 0 -> speed (e_v ev) <= 10 ^ 20 -> 0 <= u1 <= 1 -> (forall v' x, left_over (q_E k) (e_v ev) v' x -> q_Emax k / 100000 < Rabs x) ->
  evq_scatter k u1 u2 u3 ev = Ok o -> k_v o = Some (e_v ev) /\ k_p o = e_p ev).
Proof.
  intros H. destruct flat_hyps as (A & B & C). destruct (gap_drops 0) as (p & E & P). assert (U : 0 <= 1 <= 1) by lra. destruct (H gap_kernel 1 0 0 neutron1 _ (Rlt_le _ _ A) B C U gap_never E) as [_ F]. cbn [with_pv k_p neutron1 e_p] in F. lra.
Qed.
Example C73_dropped_example : exists p, evq_scatter gap_kernel 1 0 0 neutron1 = Ok (with_pv neutron1 p (Some (e_v neutron1))) /\ 0 < p < 1 / 10.
Proof. exact (gap_drops 0). Qed.

(** C73.  Absorption goes as the inverse of the speed and is the given coefficient at 2200 m/s; scattering is the given coefficient. *)
Theorem C73_coefficients : forall E S Emax a s ev, e_v ev <> mkV 0 0 0 -> exists mu, evq_absorption_coefficient (mkEvq E S Emax a s) ev = Ok mu /\ mu * speed (e_v ev) = a * 2200 /\ evq_scattering_coefficient (mkEvq E S Emax a s) ev = s.
Proof.
  intros E S Emax a s ev N. pose proof (speed_pos _ N) as P. exists (a * (2200 / speed (e_v ev))). split; [|split; [field; lra|reflexivity]]. unfold evq_absorption_coefficient, divide. change (vnorm (e_v ev)) with (speed (e_v ev)). destruct (Req_EM_T (speed (e_v ev)) 0); [lra|]. reflexivity.
Qed.
Example C73_coefficients_example : e_v neutron1 <> mkV 0 0 0 /\ speed (e_v neutron1) = 1000.
Proof. split; [exact nz1|exact speed1]. Qed.

Print Assumptions C73_states.
Print Assumptions C73_conserved.
Print Assumptions C73_mean.
Print Assumptions C73_slope.
Print Assumptions C73_slope_used.
Print Assumptions C73_flat.
Print Assumptions C73_twice_refuted.
Print Assumptions C73_out_of_reach.
Print Assumptions C73_dropped_refuted.
Print Assumptions C73_coefficients.
