(** Proofs for C40: means of the kernels. *)
From Coq Require Import Reals Lra Lia.
From Coquelicot Require Import Coquelicot.
From Verif Require Import Base RotModel RotSpec ChanModel ChanProofs ShapeModel ShapeSpec ShapeProofs ScatModel ScatSpec UnitModel UnitSpec UnitProofs KinModel KinSpec KinProofs KinProofs2 KinProofs3.
Open Scope R_scope.

Lemma int_ext01 (f g : R -> R) I : (forall u, 0 < u < 1 -> f u = g u) -> is_RInt f 0 1 I -> is_RInt g 0 1 I.
Proof. intros H. apply is_RInt_ext. intros x. rewrite Rmin_left, Rmax_right by lra. apply H. Qed.
Lemma random_open u a b : 0 < u < 1 -> a < b -> a < random u a b < b.
Proof. unfold random. intros. nra. Qed.

Lemma sqe_mean m Elo Ehi ev G F (J : R -> R) (I : R) : let v := e_v ev in let Ei := v2E (speed v) in let ki := v2k * speed v in
  v <> mkV 0 0 0 -> off_axis (1 / 10 ^ 10) v -> Elo < Ehi <= Ei -> (forall v' Q E, transfers v v' Q E -> G v' = F Q E) ->
  (forall E kf, Elo < E < Ehi -> wave_at (Ei - E) kf -> (Qlow (m_Qmin m) ki kf <= Qhigh (m_Qmax m) ki kf -> is_RInt (fun Q => m_sqe m Q E * F Q E * Q) (Qlow (m_Qmin m) ki kf) (Qhigh (m_Qmax m) ki kf) (J E)) /\
     (Qhigh (m_Qmax m) ki kf < Qlow (m_Qmin m) ki kf -> J E = 0 /\ G v = 0)) ->
  is_RInt J Elo Ehi I ->
  meanN 3 (fun l => carried G (sqe_body m Elo Ehi ki Ei (stream l 0) (stream l 1) (stream l 2) ev)) (e_p ev * (I / (2 * ki * ki))).
Proof.
  intros v Ei ki N OFF EL GF W HJ. pose proof (speed_v2k_pos v N) as KI. fold ki in KI.
  exists (fun u1 => e_p ev / (2 * ki * ki) * ((Ehi - Elo) * J (random u1 Elo Ehi))). split.
  - intros u1 U1. pose proof (random_open u1 Elo Ehi U1 (proj1 EL)) as ER. set (E := random u1 Elo Ehi) in *.
    assert (EP : 0 < Ei - E) by lra. destruct (E2v_inv (Ei - E) ltac:(lra)) as (vf & EV & VP & VE). assert (WV : wave_at (Ei - E) (v2k * vf)) by (exists vf; split; [exact VP|]; split; [apply is_energy_iff; congruence|now apply is_wavenumber_iff]).
    pose proof (wave_pos_lt _ _ EP WV) as KF. set (kf := v2k * vf) in *. destruct (W E kf ER WV) as [W1 W2]. set (lo := Qlow (m_Qmin m) ki kf) in *. set (hi := Qhigh (m_Qmax m) ki kf) in *.
    destruct (Rlt_le_dec hi lo) as [H|H].
    + destruct (W2 H) as [J0 G0]. exists (fun _ => 0). split; [|rewrite J0; replace (e_p ev / (2 * ki * ki) * ((Ehi - Elo) * 0)) with 0 by ring; apply RInt_const01].
      intros u2 U2. exists (fun _ => 0). split; [|apply RInt_const01]. intros u3 U3. cbn [meanN]. change (stream [u1; u2; u3] 0) with u1. change (stream [u1; u2; u3] 1) with u2. change (stream [u1; u2; u3] 2) with u3.
      rewrite (sqe_refuse m Elo Ehi u1 u2 u3 ev kf WV H : sqe_body m Elo Ehi ki Ei u1 u2 u3 ev = Ok (as_is ev)). cbn. fold v. rewrite G0. ring.
    + exists (fun u2 => e_p ev / (2 * ki * ki) * (Ehi - Elo) * ((hi - lo) * (m_sqe m (random u2 lo hi) E * F (random u2 lo hi) E * random u2 lo hi))). split.
      * intros u2 U2. set (Q := random u2 lo hi). exists (fun _ => e_p ev / (2 * ki * ki) * (Ehi - Elo) * ((hi - lo) * (m_sqe m Q E * F Q E * Q))). split; [|apply RInt_const01].
        intros u3 U3. cbn [meanN]. change (stream [u1; u2; u3] 0) with u1. change (stream [u1; u2; u3] 1) with u2. change (stream [u1; u2; u3] 2) with u3.
        destruct (sqe_exact m Elo Ehi u1 u2 u3 ev kf N OFF WV KF H ltac:(lra)) as (v' & R & T & _). fold v in R, T. fold ki in R, T. fold Ei in R. fold lo hi E in R, T. fold Q in R, T. rewrite R. cbn [carried k_v with_pv k_p]. rewrite (GF v' Q E T). field. lra.
      * rewrite <- Rmult_assoc. exact (scaled_int_k (fun Q => m_sqe m Q E * F Q E * Q) lo hi _ (J E) (W1 H)).
  - replace (e_p ev * (I / (2 * ki * ki))) with (e_p ev / (2 * ki * ki) * I) by (field; lra). apply scaled_int_k. exact HJ.
Qed.
Lemma sq_mean f lo0 hi0 ev G F (I : R) : let v := e_v ev in let ki := v2k * speed v in let lo := Rmax lo0 0 in let hi := Rmin hi0 (2 * ki) in
  v <> mkV 0 0 0 -> off_axis (1 / 10 ^ 10) v -> lo <= hi -> (forall v' Q, transfers v v' Q 0 -> G v' = F Q) ->
  is_RInt (fun Q => f Q * F Q * Q) lo hi I ->
  meanN 2 (fun l => carried G (SQ_S f lo0 hi0 (stream l 0) (stream l 1) ev)) (e_p ev * (I / (2 * ki * ki))).
Proof.
  intros v ki lo hi N OFF H GF HI. pose proof (speed_v2k_pos v N) as KI. fold ki in KI.
  exists (fun u1 => e_p ev / (2 * ki * ki) * ((hi - lo) * (f (random u1 lo hi) * F (random u1 lo hi) * random u1 lo hi))). split.
  - intros u1 U1. set (Q := random u1 lo hi). exists (fun _ => e_p ev / (2 * ki * ki) * ((hi - lo) * (f Q * F Q * Q))). split; [|apply RInt_const01]. intros u2 U2. cbn [meanN]. change (stream [u1; u2] 0) with u1. change (stream [u1; u2] 1) with u2.
    destruct (sq_exact f lo0 hi0 u1 u2 ev N OFF H ltac:(lra)) as (v' & R & T & _). rewrite R. cbn [carried k_v with_pv k_p]. fold v ki lo hi. fold v ki lo hi Q in T. fold Q. rewrite (GF v' Q T). field. lra.
  - replace (e_p ev * (I / (2 * ki * ki))) with (e_p ev / (2 * ki * ki) * I) by (field; lra). exact (scaled_int_k (fun Q => f Q * F Q * Q) lo hi _ I HI).
Qed.

(** loops *)
Lemma meanN_01 n : forall f g m, (forall l, List.length l = n -> Forall (fun u => 0 < u < 1) l -> f l = g l) -> meanN n f m -> meanN n g m.
Proof.
  induction n as [|n IH]; intros f g m H; cbn; [intros <-; symmetry; now apply H|]. intros (h & A & B). exists h. split; [|exact B]. intros u U. apply (IH (fun l => f (u :: l))); [|now apply A]. intros l L F. apply H; [cbn; now rewrite L|now constructor].
Qed.
Lemma stream_in l i : (i < List.length l)%nat -> Forall (fun u => 0 < u < 1) l -> 0 < stream l i < 1.
Proof. intros L F. rewrite Forall_forall in F. apply F. now apply nth_In. Qed.
Lemma search_value_lt {A} (f : R -> option A) (acc : R -> option R) (out : A -> nat -> R) (val : R -> nat -> R) fail us : forall n i,
  (forall j, (i <= j < i + n)%nat -> match f (us j) with None => acc (us j) = None | Some a => exists w, acc (us j) = Some w /\ forall c, (i <= c < i + n)%nat -> out a (S c) = val w (S c) end) ->
  match searched (fun i => f (us i)) n i with None => fail | Some (a, c) => out a c end = tried acc val fail n (S i) (fun j => us (i + j)%nat).
Proof.
  induction n as [|n IH]; intros i H; [reflexivity|]. cbn [searched tried]. rewrite Nat.add_0_r. pose proof (H i ltac:(lia)) as H0. destruct (f (us i)) as [a|].
  - destruct H0 as (w & -> & Hc). apply Hc. lia.
  - rewrite H0, IH.
    + apply tried_ext. intros j. f_equal. lia.
    + intros j L. specialize (H j ltac:(lia)). destruct (f (us j)) as [a|]; [|exact H]. destruct H as (w & Hw & Hc). exists w. split; [exact Hw|]. intros c L'. apply Hc. lia.
Qed.

Section Loops.
Variables (m : eqkernel) (ev : event) (G : vec3 -> R) (F : R -> R) (reach : R -> bool) (I B : R).
Let v := e_v ev.
Let ki := v2k * speed v.
Let Ei := v2E (speed v).
Let lo := q_Qmin m.
Let hi := q_Qmax m.
Hypothesis (N : v <> mkV 0 0 0) (L0 : 0 <= lo) (LH : lo < hi) (GF : forall v' Q, lo < Q < hi -> transfers v v' Q (q_E m Q) -> G v' = F Q)
  (RE : forall Q, lo < Q < hi -> (reach Q = true <-> possible v Q (q_E m Q)))
  (HI : is_RInt (fun Q => if reach Q then q_S m Q * F Q * Q else 0) lo hi I) (HB : is_RInt (fun Q => if reach Q then 0 else 1) lo hi B).
Let acc (u : R) : option R := let Q := random u lo hi in if reach Q then Some (e_p ev / (2 * ki * ki) * ((hi - lo) * (q_S m Q * F Q * Q))) else None.
Lemma acc_W : is_RInt (fun u => match acc u with Some w => w | None => 0 end) 0 1 (e_p ev / (2 * ki * ki) * I).
Proof.
  apply (int_ext01 (fun u => e_p ev / (2 * ki * ki) * ((hi - lo) * (if reach (random u lo hi) then q_S m (random u lo hi) * F (random u lo hi) * random u lo hi else 0)))).
  - intros u _. unfold acc. cbv zeta. destruct (reach _); ring.
  - exact (scaled_int_k (fun Q => if reach Q then q_S m Q * F Q * Q else 0) lo hi _ I HI).
Qed.
Lemma acc_r : is_RInt (fun u => match acc u with Some _ => 0 | None => 1 end) 0 1 (B / (hi - lo)).
Proof.
  apply (int_ext01 (fun u => / (hi - lo) * ((hi - lo) * (if reach (random u lo hi) then 0 else 1)))).
  - intros u _. unfold acc. cbv zeta. destruct (reach _); field; lra.
  - replace (B / (hi - lo)) with (/ (hi - lo) * B) by (field; lra). exact (scaled_int_k (fun Q => if reach Q then 0 else 1) lo hi _ B HB).
Qed.
Lemma E_Q_mean u : off_axis (1 / 10 ^ 4) v -> q_E m ki <> Ei ->
  meanN 100 (fun l => carried G (E_Q_S m (stream l) u ev)) (e_p ev * (I / (2 * ki * ki)) * log_series (B / (hi - lo)) 100).
Proof.
  intros OFF NE. pose proof (speed_v2k_pos v N) as KI. fold ki in KI.
  apply (meanN_01 100 (fun l => tried acc (fun w c => w * / INR c) 0 100 1 (stream l))).
  - intros l LEN FA. rewrite E_Q_searched. fold v ki Ei. symmetry.
    transitivity (match searched (fun i => eq_pass ki Ei (random (stream l i) lo hi) (q_E m (random (stream l i) lo hi))) 100 0 with None => 0 | Some (a, c) => carried G (eq_finish m u ev a c) end).
    + change (eq_try m ki Ei (stream l)) with (fun i => eq_pass ki Ei (random (stream l i) lo hi) (q_E m (random (stream l i) lo hi))). destruct (searched _ 100 0) as [[a c]|]; [reflexivity|]. cbn. ring.
    + rewrite (search_value_lt (fun x => eq_pass ki Ei (random x lo hi) (q_E m (random x lo hi))) acc (fun a c => carried G (eq_finish m u ev a c)) (fun w c => w * / INR c) 0 (stream l) 100 0); [reflexivity|].
      intros j Lj. assert (U : 0 < stream l j < 1) by (apply stream_in; [lia|exact FA]). pose proof (random_open _ lo hi U LH) as QR. unfold acc. cbv zeta. set (Q := random (stream l j) lo hi) in *. pose proof (RE Q QR) as RQ. destruct (reach Q).
      * destruct (try_yes v Q (q_E m Q) N (proj1 RQ eq_refl)) as (kf & W & K & T & QP & P & _). fold ki in P, T. fold Ei in P. rewrite P. eexists. split; [reflexivity|]. intros c _.
        destruct (eq_finish_ok m u ev Q (q_E m Q) kf (S c) N OFF QP W K T ltac:(lia)) as (v' & R & TR). fold v in R, TR. fold ki in R. rewrite R. cbn [carried k_v with_pv k_p]. fold hi lo. rewrite (GF v' Q QR TR). assert (0 < INR (S c)) by (apply lt_0_INR; lia). field. split; lra.
      * assert (PN : eq_pass ki Ei Q (q_E m Q) = None); [|now rewrite PN]. apply (pass_none v Q (q_E m Q) N ltac:(lra)).
        -- intros [Z1 Z2]. fold ki in Z1. rewrite Z1 in Z2. now apply NE.
        -- intros P. apply RQ in P. discriminate.
  - apply (mean_to _ _ (tries (e_p ev / (2 * ki * ki) * I) (B / (hi - lo)) (fun c => / INR c) 0 100 1)); [rewrite tries_log; field; lra|]. exact (tried_mean acc (fun c => / INR c) 0 _ _ acc_W acc_r 100 1).
Qed.
Lemma Broadened_mean sg u ds : broadened_Emin m sg <= Ei -> (forall Q, sg Q = 0) ->
  meanN 100 (fun l => carried G (Broadened_S m sg (stream l) ds u ev)) (e_p ev * (I / (2 * ki * ki)) * geometric (B / (hi - lo)) 99 + (B / (hi - lo)) ^ 99 * (e_p ev * G v)).
Proof.
  intros EM SG. pose proof (speed_v2k_pos v N) as KI. fold ki in KI.
  assert (X : forall us n i, searched (br_try m sg ki Ei us ds) n i = searched (fun i => (fun x => if Rleb (Ei - q_E m (random x lo hi)) 0 then None else eq_pass ki Ei (random x lo hi) (q_E m (random x lo hi))) (us i)) n i).
  { intros us. induction n as [|n IH]; intros i; [reflexivity|]. cbn [searched]. rewrite IH. unfold br_try at 1. cbv zeta. fold lo hi. rewrite SG, Rmult_0_r, Rplus_0_r. reflexivity. }
  apply (meanN_01 100 (fun l => tried acc (fun w c => w * 1) (e_p ev * G v) 99 1 (stream l))).
  - intros l LEN FA. rewrite Broadened_searched by exact EM. fold v ki Ei. rewrite X.
    set (f := fun x => if Rleb (Ei - q_E m (random x lo hi)) 0 then None else eq_pass ki Ei (random x lo hi) (q_E m (random x lo hi))).
    assert (Y : forall n i, (i + n = 100)%nat -> (0 < n)%nat -> carried G match searched (fun i => f (stream l i)) n i with None => Ok (as_is ev) | Some (a, c) => if Nat.leb 100 c then Ok (as_is ev) else br_finish m u ev a end =
       match searched (fun i => f (stream l i)) (n - 1) i with None => e_p ev * G v | Some (a, c) => carried G (br_finish m u ev a) end).
    { induction n as [|n IH]; intros i S0 P; [lia|]. destruct n as [|n].
      - cbn [searched Nat.sub]. destruct (f (stream l i)); [|reflexivity]. rewrite (proj2 (Nat.leb_le 100 (S i))) by lia. reflexivity.
      - replace (S (S n) - 1)%nat with (S n) by lia. cbn [searched] in *. destruct (f (stream l i)) as [a|].
        + rewrite (proj2 (Nat.leb_gt 100 (S i))) by lia. reflexivity.
        + rewrite IH by lia. replace (S n - 1)%nat with n by lia. reflexivity. }
    etransitivity; [|symmetry; exact (Y 100%nat 0%nat eq_refl ltac:(lia))]. change (100 - 1)%nat with 99%nat. symmetry.
    rewrite (search_value_lt f acc (fun a c => carried G (br_finish m u ev a)) (fun w c => w * 1) (e_p ev * G v) (stream l) 99 0); [reflexivity|].
    intros j Lj. assert (U : 0 < stream l j < 1) by (apply stream_in; [lia|exact FA]). pose proof (random_open _ lo hi U LH) as QR. unfold acc, f. cbv zeta. set (Q := random (stream l j) lo hi) in *. pose proof (RE Q QR) as RQ. destruct (reach Q).
    + destruct (try_yes v Q (q_E m Q) N (proj1 RQ eq_refl)) as (kf & W & K & T & QP & P & EP). fold ki in P, T. fold Ei in P. fold Ei in EP. rewrite (proj2 (Rleb_false _ 0)) by exact EP. rewrite P. eexists. split; [reflexivity|]. intros c _.
      destruct (br_finish_ok m u ev Q (q_E m Q) kf N QP W K T) as (v' & R & TR). fold v in R, TR. fold ki in R. rewrite R. cbn [carried k_v with_pv k_p]. fold hi lo. rewrite (GF v' Q QR TR). field. lra.
    + destruct (Rleb _ 0) eqn:LE; [reflexivity|]. apply Rleb_false in LE. assert (PN : eq_pass ki Ei Q (q_E m Q) = None); [|now rewrite PN]. apply (pass_none v Q (q_E m Q) N ltac:(lra)).
      * intros [_ Z2]. fold Ei in Z2. lra.
      * intros P. apply RQ in P. discriminate.
  - pose proof (tried_mean acc (fun _ => 1) (e_p ev * G v) _ _ acc_W acc_r 99 1) as M. rewrite tries_geo in M.
    apply (mean_to _ _ (e_p ev / (2 * ki * ki) * I * geometric (B / (hi - lo)) 99 + (B / (hi - lo)) ^ 99 * (e_p ev * G v))); [f_equal; field; lra|].
    assert (Z : forall n k fail c mm, meanN n (fun l => tried acc (fun w c => w * k c) fail n c (stream l)) mm -> meanN (S n) (fun l => tried acc (fun w c => w * k c) fail n c (stream l)) mm).
    { clear. intros n k fail. induction n as [|n IH]; intros c mm.
      - cbn. intros <-. exists (fun _ => fail). split; [reflexivity|apply RInt_const01].
      - intros (g & A & HB'). exists g. split; [|exact HB']. intros x X. specialize (A x X). cbn [tried] in *. destruct (acc x) as [w|] eqn:E.
        + eapply mean_ext with (f := fun _ => w * k c); [intros l; change (stream (x :: l) 0) with x; now rewrite E|]. apply (mean_to _ _ (w * k c)); [|apply mean_const].
          assert (UQ : forall n' a b, meanN n' (fun _ => a) b -> a = b). { clear. induction n' as [|n' IH]; intros a b; [exact (fun h => h)|]. intros (g & A & HH). assert (EE : forall u, 0 < u < 1 -> g u = a) by (intros u U; symmetry; exact (IH a (g u) (A u U))). pose proof (int_ext01 g (fun _ => a) b EE HH) as H1. pose proof (@is_RInt_unique R_CompleteNormedModule _ _ _ _ H1) as U1. pose proof (@is_RInt_unique R_CompleteNormedModule _ _ _ _ (RInt_const01 a)) as U2. congruence. }
          apply (UQ n). eapply mean_ext; [|exact A]. intros l. cbn. change (stream (x :: l) 0) with x. now rewrite E.
        + eapply mean_ext with (f := fun l => tried acc (fun w c => w * k c) fail n (S c) (stream l)); [intros l; change (stream (x :: l) 0) with x; rewrite E; apply tried_ext; reflexivity|]. apply IH. eapply mean_ext; [|exact A]. intros l. cbn. change (stream (x :: l) 0) with x. rewrite E. apply tried_ext. reflexivity. }
    exact (Z 99%nat (fun _ => 1) (e_p ev * G v) 1%nat _ M).
Qed.
End Loops.

(** the others *)
Lemma ie_exact dwc u1 u2 ev : let v := e_v ev in let ki := v2k * speed v in let theta := random u1 0 PI in let Q := 2 * ki * sin (theta / 2) in
  v <> mkV 0 0 0 -> off_axis (1 / 10 ^ 4) v -> 0 <= u1 <= 1 ->
  exists v', IncoherentElastic_S dwc u1 u2 ev = Ok (with_pv ev (e_p ev * (sin theta * (PI / 2) * exp (- dwc * Q * Q))) (Some v')) /\ transfers v v' Q 0.
Proof.
  intros v ki theta Q N OFF U. pose proof (speed_v2k_pos v N) as KI. fold ki in KI. pose proof PI_RGT_0 as PP. assert (TH : 0 <= theta <= PI) by (unfold theta, random; nra).
  destruct (axes_fixed_far v (1 / 10 ^ 4) N ltac:(lra) OFF) as (e1 & e2 & e3 & AX & O & AL).
  unfold IncoherentElastic_S. fold v. change (vnorm v) with (speed v). fold ki. fold theta. cbv zeta. rewrite AX. destruct (turned (Some (e1, e2, e3)) (cos theta) (sin theta) _) as [d|] eqn:D; [|discriminate].
  assert (CS : cos theta * cos theta + sin theta * sin theta = 1) by (pose proof (sin2_cos2 theta) as H; unfold Rsqr in H; lra). destruct (turned_unit _ _ _ _ _ O CS D) as [UN C]. cbn [fst] in C.
  exists (vscale (speed v) d). replace (ki * 2 * sin (theta / 2)) with Q by (unfold Q; ring). split; [reflexivity|]. replace 0 with (v2E (speed v) - v2E (speed v)) by ring.
  assert (QP : 0 <= Q). { assert (0 <= sin (theta / 2)) by (apply sin_ge_0; lra). unfold Q. nra. }
  apply (transfer_of v e1 d (speed v) (cos theta) Q N AL UN C (speed_nonneg v) QP). fold ki. replace (cos theta) with (cos (2 * (theta / 2))) by (f_equal; field). rewrite cos_2a_sin. unfold Q. ring.
Qed.
Lemma ie_mean dwc ev G F (I : R) : let v := e_v ev in let ki := v2k * speed v in
  v <> mkV 0 0 0 -> off_axis (1 / 10 ^ 4) v -> (forall v' Q, transfers v v' Q 0 -> G v' = F Q) ->
  is_RInt (fun theta => let Q := 2 * ki * sin (theta / 2) in exp (- dwc * Q * Q) * F Q * (sin theta / 2)) 0 PI I ->
  meanN 2 (fun l => carried G (IncoherentElastic_S dwc (stream l 0) (stream l 1) ev)) (e_p ev * I).
Proof.
  intros v ki N OFF GF HI. set (f := fun theta => let Q := 2 * ki * sin (theta / 2) in exp (- dwc * Q * Q) * F Q * (sin theta / 2)) in *.
  exists (fun u1 => e_p ev * ((PI - 0) * f (random u1 0 PI))). split; [|exact (scaled_int_k f 0 PI _ I HI)].
  intros u1 U1. exists (fun _ => e_p ev * ((PI - 0) * f (random u1 0 PI))). split; [|apply RInt_const01]. intros u2 U2. cbn [meanN]. change (stream [u1; u2] 0) with u1. change (stream [u1; u2] 1) with u2.
  destruct (ie_exact dwc u1 u2 ev N OFF ltac:(lra)) as (v' & R & T). fold v in R, T. fold ki in R, T. rewrite R. cbn [carried k_v with_pv k_p]. rewrite (GF v' _ T). unfold f. cbv zeta. field.
Qed.
Lemma sphere_mean (h : R -> R -> R) (K : R -> R) (I : R) : (forall c, -1 < c < 1 -> is_RInt (h c) 0 (2 * PI) (K c)) -> is_RInt K (-1) 1 I ->
  meanN 2 (fun l => h (random (stream l 0) (-1) 1) (random (stream l 1) 0 (2 * PI))) (I / (4 * PI)).
Proof.
  intros A B. pose proof PI_RGT_0 as PP. exists (fun u1 => / (4 * PI) * ((1 - -1) * K (random u1 (-1) 1))). split.
  - intros u1 U1. set (c := random u1 (-1) 1). assert (CR : -1 < c < 1) by (apply random_open; lra). exists (fun u2 => / (2 * PI) * ((2 * PI - 0) * h c (random u2 0 (2 * PI)))). split.
    + intros u2 _. cbn [meanN]. change (stream [u1; u2] 0) with u1. change (stream [u1; u2] 1) with u2. fold c. field. lra.
    + replace (/ (4 * PI) * ((1 - -1) * K c)) with (/ (2 * PI) * K c) by (field; lra). apply scaled_int_k. now apply A.
  - replace (I / (4 * PI)) with (/ (4 * PI) * I) by (field; lra). exact (scaled_int_k K (-1) 1 (/ (4 * PI)) I B).
Qed.
Lemma svq_value f u1 u2 ev : 0 <= u1 <= 1 -> let v' := vscale (speed (e_v ev)) (on_sphere (random u1 (-1) 1) (random u2 0 (2 * PI))) in
  SvQ_S f u1 u2 ev = Ok (with_pv ev (e_p ev * f (vscale v2k (vsub (e_v ev) v'))) (Some v')).
Proof.
  intros U v'. unfold SvQ_S. change (vnorm (e_v ev)) with (speed (e_v ev)). cbv zeta. set (c := random u1 (-1) 1). assert (C : -1 <= c <= 1) by (unfold c, random; lra). rewrite (proj2 (Rltb_f _ 0)) by nra.
  replace (mkV (speed (e_v ev) * sqrt (1 - c * c) * cos (random u2 0 (2 * PI))) (speed (e_v ev) * sqrt (1 - c * c) * sin (random u2 0 (2 * PI))) (speed (e_v ev) * c)) with v' by (unfold v', on_sphere, vscale; cbn [vx vy vz]; fold c; f_equal; ring).
  do 4 f_equal. unfold vscale, vsub; cbn [vx vy vz]. f_equal; ring.
Qed.
Lemma on_sphere_unit c phi : -1 <= c <= 1 -> norm2 (on_sphere c phi) = 1.
Proof.
  intros C. unfold norm2, sdot, on_sphere; cbn [vx vy vz]. pose proof (sin2_cos2 phi) as SC. unfold Rsqr in SC. assert (S : sqrt (1 - c * c) * sqrt (1 - c * c) = 1 - c * c) by (apply sqrt_sqrt; nra). set (q := sqrt _) in *. set (a := cos _) in *. set (b := sin _) in *.
  replace (q * a * (q * a) + q * b * (q * b) + c * c) with (q * q * (b * b + a * a) + c * c) by ring. rewrite S, SC. ring.
Qed.
Lemma choose_on_sphere u1 u2 : 0 <= u1 <= 1 -> choose_direction u1 u2 = on_sphere (random u1 (-1) 1) (random u2 0 (2 * PI)).
Proof. intros U. unfold choose_direction, on_sphere. cbv zeta. rewrite sin_acos by (unfold random; lra). reflexivity. Qed.
