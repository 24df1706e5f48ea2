(** Proofs for C40: reachable transfers, the loops, means. *)
From Coq Require Import Reals Lra Lia.
From Coquelicot Require Import Coquelicot.
From Verif Require Import Base RotModel RotSpec ChanModel ChanProofs ShapeModel ShapeSpec ShapeProofs ScatModel ScatSpec UnitModel UnitSpec UnitProofs KinModel KinSpec KinProofs KinProofs2.
Open Scope R_scope.

Lemma speed_nonneg v : 0 <= speed v. Proof. apply sqrt_pos. Qed.
Lemma cauchy a b : Rabs (sdot a b) <= speed a * speed b.
Proof.
  pose proof (speed_nonneg a). pose proof (speed_nonneg b). pose proof (speed_norm a) as A. pose proof (speed_norm b) as B. apply Rsqr_incr_0_var; [|nra]. unfold Rsqr.
  replace (Rabs (sdot a b) * Rabs (sdot a b)) with (sdot a b * sdot a b) by (rewrite <- Rabs_mult; symmetry; apply Rabs_pos_eq; apply (Rle_0_sqr (sdot a b))).
  replace (speed a * speed b * (speed a * speed b)) with (norm2 a * norm2 b) by (rewrite <- A, <- B; ring).
  assert (L : norm2 a * norm2 b - sdot a b * sdot a b = norm2 (vcross a b)) by (unfold norm2, sdot, vcross; cbn; ring). assert (0 <= norm2 (vcross a b)) by (rewrite <- (speed_norm (vcross a b)); pose proof (speed_nonneg (vcross a b)); nra). lra.
Qed.
Lemma speed_triangle a b : Rabs (speed a - speed b) <= speed (vsub a b) <= speed a + speed b.
Proof.
  pose proof (speed_nonneg a). pose proof (speed_nonneg b). pose proof (speed_nonneg (vsub a b)). pose proof (cauchy a b) as C. pose proof (speed_norm a) as A. pose proof (speed_norm b) as B. pose proof (speed_norm (vsub a b)) as D.
  assert (L : norm2 (vsub a b) = norm2 a + norm2 b - 2 * sdot a b) by (unfold norm2, sdot, vsub; cbn; ring).
  assert (C' : - (speed a * speed b) <= sdot a b <= speed a * speed b) by (unfold Rabs in C; destruct (Rcase_abs _); lra).
  split.
  - apply Rsqr_incr_0_var; [|assumption]. unfold Rsqr. replace (Rabs (speed a - speed b) * Rabs (speed a - speed b)) with ((speed a - speed b) * (speed a - speed b)) by (rewrite <- Rabs_mult; symmetry; apply Rabs_pos_eq; apply (Rle_0_sqr (speed a - speed b))). nra.
  - apply Rsqr_incr_0_var; [|lra]. unfold Rsqr. nra.
Qed.
Lemma speed_zero v : speed v = 0 -> v = mkV 0 0 0.
Proof.
  intros Z. pose proof (speed_norm v) as H. rewrite Z in H. destruct v as [a b c]. unfold norm2, sdot in H. cbn in H. f_equal; nra.
Qed.
Lemma possible_iff v Q E : v <> mkV 0 0 0 -> (possible v Q E <-> 0 <= Q /\ exists kf, wave_at (v2E (speed v) - E) kf /\ 0 < kf /\ triangle (v2k * speed v) kf Q).
Proof.
  intros N. pose proof v2k_pos as VK. split.
  - intros (v' & N' & Ei & Ef & A & B & -> & C). rewrite is_energy_iff in A, B. rewrite is_wavenumber_iff in C. subst. pose proof (speed_triangle v v') as [T1 T2]. pose proof (speed_nonneg (vsub v v')). split; [nra|].
    exists (v2k * speed v'). split; [|split; [now apply speed_v2k_pos|]].
    + exists (speed v'). split; [apply speed_nonneg|]. split; [apply is_energy_iff; ring|now apply is_wavenumber_iff].
    + unfold triangle. rewrite <- Rmult_minus_distr_l, Rabs_mult, (Rabs_pos_eq v2k) by lra. split; nra.
  - intros (QP & kf & W & K & T). destruct (axes_cross_ok v (1 / 10) N ltac:(lra)) as (e1 & e2 & e3 & AX & O & AL).
    destruct (directed _ e1 e2 e3 v kf Q 0 N AX O AL K QP T) as (d & _ & U & TR). exists (vscale (kf * k2v) d). pose proof k2v_pos as KV. split.
    + intros Z. assert (norm2 (vscale (kf * k2v) d) = kf * k2v * (kf * k2v) * norm2 d) as E1 by (unfold norm2, sdot, vscale; cbn; ring). rewrite Z, U in E1. unfold norm2, sdot in E1. cbn in E1. assert (0 < kf * k2v) by nra. nra.
    + destruct (E2v_wave _ _ W) as (vf & _ & _ & KF & VE). rewrite (energy_back kf _ vf KF VE) in TR. replace E with (v2E (speed v) - (v2E (speed v) - E)) by ring. exact TR.
Qed.
Lemma wave_unique E k k' : wave_at E k -> wave_at E k' -> k = k'.
Proof. intros A B. apply wave_at_iff in A. apply wave_at_iff in B. destruct A as [_ A], B as [_ B]. congruence. Qed.
Lemma pass_possible v Q E kf : v <> mkV 0 0 0 -> wave_at (v2E (speed v) - E) kf -> possible v Q E -> 0 < kf /\ triangle (v2k * speed v) kf Q.
Proof. intros N W P. apply (possible_iff v Q E N) in P. destruct P as (_ & k & W' & K & T). rewrite (wave_unique _ _ _ W W'). now split. Qed.
Lemma possible_wave v Q E : v <> mkV 0 0 0 -> possible v Q E -> exists kf, wave_at (v2E (speed v) - E) kf /\ 0 < kf /\ triangle (v2k * speed v) kf Q /\ 0 <= Q.
Proof. intros N P. apply (possible_iff v Q E N) in P. destruct P as (QP & k & W' & K & T). now exists k. Qed.
Lemma pass_none v Q E : let ki := v2k * speed v in v <> mkV 0 0 0 -> 0 <= Q -> ~ (Q = ki /\ E = v2E (speed v)) -> ~ possible v Q E -> eq_pass ki (v2E (speed v)) Q E = None.
Proof.
  intros ki N QP NE P. destruct (Req_dec E (v2E (speed v))) as [->|NE'].
  - unfold eq_pass. replace (v2E (speed v) - v2E (speed v)) with (v2E 0) by (unfold v2E; ring). rewrite v2E_inv by lra. cbv zeta. rewrite !Rmult_0_r. destruct (Req_EM_T 0 0) as [_|Z]; [|now elim Z]. destruct (Req_EM_T _ 0) as [Z|_]; [|reflexivity]. exfalso. apply NE. split; [|reflexivity]. pose proof (speed_v2k_pos v N) as KI. fold ki in KI. nra.
  - apply pass_bad; try assumption. intros kf W T. apply P. apply (possible_iff v Q E N). split; [exact QP|]. exists kf. split; [exact W|]. split; [|exact T].
    pose proof (wave_pos _ _ W) as KP. destruct (Req_dec kf 0) as [Z|]; [|lra]. exfalso. subst kf. destruct (E2v_wave _ _ W) as (vf & _ & VP & K0 & VE). pose proof v2k_pos. assert (vf = 0) by nra. subst vf. unfold v2E at 1 in VE. lra.
Qed.

(** the loops *)
Fixpoint searched {A} (f : nat -> option A) (n i : nat) : option (A * nat) :=
  match n with O => None | S n => match f i with Some a => Some (a, S i) | None => searched f n (S i) end end.
Lemma searched_some {A} (f : nat -> option A) n i a c : searched f n i = Some (a, c) -> exists j, (j < n)%nat /\ c = S (i + j) /\ f (i + j)%nat = Some a /\ forall l, (l < j)%nat -> f (i + l)%nat = None.
Proof.
  revert i. induction n as [|n IH]; intros i; [discriminate|]. cbn. destruct (f i) eqn:E.
  - intros H. injection H as <- <-. exists O. rewrite Nat.add_0_r. repeat split; [lia|exact E|lia].
  - intros H. destruct (IH _ H) as (j & L & -> & F & B). exists (S j). rewrite <- plus_n_Sm. repeat split; [lia|rewrite <- F; f_equal; lia|]. intros [|l] H1; [rewrite Nat.add_0_r; exact E|]. rewrite <- plus_n_Sm. replace (S (i + l)) with (S i + l)%nat by lia. apply B. lia.
Qed.
Lemma searched_none {A} (f : nat -> option A) n i : searched f n i = None -> forall l, (l < n)%nat -> f (i + l)%nat = None.
Proof.
  revert i. induction n as [|n IH]; intros i; [lia|]. cbn. destruct (f i) eqn:E; [discriminate|]. intros H [|l] L; [now rewrite Nat.add_0_r|]. rewrite <- plus_n_Sm. apply (IH (S i) H). lia.
Qed.
Lemma searched_hit {A} (f : nat -> option A) n i j a : (j < n)%nat -> f (i + j)%nat = Some a -> (forall l, (l < j)%nat -> f (i + l)%nat = None) -> searched f n i = Some (a, S (i + j)).
Proof.
  revert i j. induction n as [|n IH]; intros i j L F B; [lia|]. cbn. destruct j as [|j].
  - rewrite Nat.add_0_r in *. now rewrite F.
  - rewrite <- (Nat.add_0_r i) at 1. rewrite (B O) by lia. rewrite <- plus_n_Sm in *. replace (S (i + j)) with (S i + j)%nat in * by lia. apply IH; [lia|exact F|]. intros l H. replace (S i + l)%nat with (i + S l)%nat by lia. apply B. lia.
Qed.
Lemma searched_miss {A} (f : nat -> option A) n i : (forall l, (l < n)%nat -> f (i + l)%nat = None) -> searched f n i = None.
Proof.
  revert i. induction n as [|n IH]; intros i B; [reflexivity|]. cbn. rewrite <- (Nat.add_0_r i) at 1. rewrite (B O) by lia. apply IH. intros l H. replace (S i + l)%nat with (i + S l)%nat by lia. apply B. lia.
Qed.
Definition eq_try (m : eqkernel) ki Ei (us : nat -> R) (i : nat) : option pass := let Q := random (us i) (q_Qmin m) (q_Qmax m) in eq_pass ki Ei Q (q_E m Q).
Lemma eq_loop_searched m ki Ei us n i : eq_loop m ki Ei n (S i) (fun j => us (i + j)%nat) = searched (eq_try m ki Ei us) n i.
Proof.
  revert i. induction n as [|n IH]; intros i; [reflexivity|]. cbn [eq_loop searched]. unfold eq_try at 1. rewrite Nat.add_0_r. cbv zeta. destruct (eq_pass _ _ _ _); [reflexivity|]. rewrite <- IH. 
  assert (X : forall l us', (forall j, us' j = us (S i + j)%nat) -> eq_loop m ki Ei n l us' = eq_loop m ki Ei n l (fun j => us (S i + j)%nat)).
  { clear. revert i. induction n as [|n IH]; intros i l us' H; [reflexivity|]. cbn [eq_loop]. rewrite (H O). cbv zeta. destruct (eq_pass _ _ _ _); [reflexivity|]. rewrite (IH (S i) (S l) (fun j => us' (S j))); [|intros j; rewrite H; f_equal; lia]. symmetry. apply (IH (S i)). intros j. f_equal. lia. }
  apply X. intros j. f_equal. lia.
Qed.
Definition br_try (m : eqkernel) (sg : R -> R) ki Ei (us ds : nat -> R) (i : nat) : option pass :=
  let Q := random (us i) (q_Qmin m) (q_Qmax m) in let E := q_E m Q + ds i * sg Q in if Rleb (Ei - E) 0 then None else eq_pass ki Ei Q E.
Lemma br_loop_ext m sg ki Ei n : forall l us us' ds ds', (forall j, us j = us' j) -> (forall j, ds j = ds' j) -> broadened_loop m sg ki Ei n l us ds = broadened_loop m sg ki Ei n l us' ds'.
Proof.
  induction n as [|n IH]; intros l us us' ds ds' A B; [reflexivity|]. cbn [broadened_loop]. rewrite A, B. cbv zeta. destruct (if Rleb _ _ then _ else _); [reflexivity|]. now apply IH.
Qed.
Lemma br_loop_searched m sg ki Ei us ds n i : broadened_loop m sg ki Ei n (S i) (fun j => us (i + j)%nat) (fun j => ds (i + j)%nat) = searched (br_try m sg ki Ei us ds) n i.
Proof.
  revert i. induction n as [|n IH]; intros i; [reflexivity|]. cbn [broadened_loop searched]. unfold br_try at 1. rewrite Nat.add_0_r. cbv zeta. destruct (if Rleb _ _ then _ else _); [reflexivity|]. rewrite <- IH. apply br_loop_ext; intros j; f_equal; lia.
Qed.

(** weight and direction after a pass *)
Definition eq_finish (m : eqkernel) (u : R) (ev : event) (a : pass) (counter : nat) : result kevent :=
  let v := match a_cost a with
           | None => None
           | Some cost => option_map (vscale (a_vf a)) (turned_by (axes_fixed (1 / 10 ^ 4) (e_v ev)) cost (random u 0 (PI * 2)))
           end in
  let! f1 := divide (a_vf a) (vnorm (e_v ev)) in
  let! f2 := divide (a_Q a * (q_Qmax m - q_Qmin m) / INR counter) (a_kf a * (v2k * vnorm (e_v ev))) in
  Ok (with_pv ev (e_p ev * (q_S m (a_Q a) * f1) * (f2 / 2)) v).
Lemma E_Q_searched m us u ev : E_Q_S m us u ev = match searched (eq_try m (v2k * speed (e_v ev)) (v2E (speed (e_v ev))) us) 100 0 with
  | None => Ok (with_pv ev 0 (Some (e_v ev))) | Some (a, c) => eq_finish m u ev a c end.
Proof.
  unfold E_Q_S. change (vnorm (e_v ev)) with (speed (e_v ev)). cbv zeta. rewrite <- eq_loop_searched. reflexivity.
Qed.
Lemma eq_finish_ok m u ev Q E kf c : let v := e_v ev in let ki := v2k * speed v in v <> mkV 0 0 0 -> off_axis (1 / 10 ^ 4) v -> 0 <= Q -> wave_at (v2E (speed v) - E) kf -> 0 < kf -> triangle ki kf Q -> (0 < c)%nat ->
  exists v', eq_finish m u ev (mkPass Q (kf * k2v) kf (Some ((ki * ki + kf * kf - Q * Q) / (2 * ki * kf)))) c =
    Ok (with_pv ev (e_p ev * (q_S m Q * Q * (q_Qmax m - q_Qmin m) / (2 * ki * ki)) / INR c) (Some v')) /\ transfers v v' Q E.
Proof.
  intros v ki N OFF QP W K T C. pose proof (speed_v2k_pos v N) as KI. fold ki in KI. pose proof (speed_pos v N) as SP.
  destruct (axes_fixed_far v (1 / 10 ^ 4) N ltac:(lra) OFF) as (e1 & e2 & e3 & AX & O & AL).
  destruct (directed (axes_fixed (1 / 10 ^ 4) v) e1 e2 e3 v kf Q (random u 0 (PI * 2)) N AX O AL K QP T) as (d & D & _ & TR). fold ki in D. exists (vscale (kf * k2v) d). split.
  - unfold eq_finish. cbn [a_cost a_Q a_vf a_kf]. fold v. rewrite D. change (vnorm v) with (speed v). rewrite divide_ok by lra. cbn [bind]. fold ki. rewrite divide_ok by nra. cbn [bind option_map]. do 2 f_equal. unfold ki.
    assert (0 < INR c) by (apply lt_0_INR; lia). pose proof v2k_pos. unfold v2k in *. pose proof k2v_pos. field. repeat split; lra.
  - destruct (E2v_wave _ _ W) as (vf & _ & _ & KF & VE). rewrite (energy_back kf _ vf KF VE) in TR. replace E with (v2E (speed v) - (v2E (speed v) - E)) by ring. exact TR.
Qed.
Definition br_finish (m : eqkernel) (u : R) (ev : event) (a : pass) : result kevent :=
  let v := match a_cost a with
           | None => None
           | Some cost => option_map (vscale (a_vf a)) (turned_by (axes_cross (1 / 10) (e_v ev)) cost (random u 0 (PI * 2)))
           end in
  let! f1 := divide (a_vf a) (vnorm (e_v ev)) in
  let! f2 := divide (a_Q a * (q_Qmax m - q_Qmin m)) (a_kf a * (v2k * vnorm (e_v ev))) in
  Ok (with_pv ev (e_p ev * (q_S m (a_Q a) * f1) / (4 * PI) * (f2 * 2 * PI)) v).
Lemma Broadened_searched m sg us ds u ev : broadened_Emin m sg <= v2E (speed (e_v ev)) -> Broadened_S m sg us ds u ev =
  match searched (br_try m sg (v2k * speed (e_v ev)) (v2E (speed (e_v ev))) us ds) 100 0 with
  | None => Ok (as_is ev) | Some (a, c) => if Nat.leb 100 c then Ok (as_is ev) else br_finish m u ev a end.
Proof.
  intros H. unfold Broadened_S. change (vnorm (e_v ev)) with (speed (e_v ev)). cbv zeta. rewrite (proj2 (Rltb_f _ _)) by exact H. rewrite <- br_loop_searched. reflexivity.
Qed.
Lemma br_finish_ok m u ev Q E kf : let v := e_v ev in let ki := v2k * speed v in v <> mkV 0 0 0 -> 0 <= Q -> wave_at (v2E (speed v) - E) kf -> 0 < kf -> triangle ki kf Q ->
  exists v', br_finish m u ev (mkPass Q (kf * k2v) kf (Some ((ki * ki + kf * kf - Q * Q) / (2 * ki * kf)))) =
    Ok (with_pv ev (e_p ev * (q_S m Q * Q * (q_Qmax m - q_Qmin m) / (2 * ki * ki))) (Some v')) /\ transfers v v' Q E.
Proof.
  intros v ki N QP W K T. pose proof (speed_v2k_pos v N) as KI. fold ki in KI. pose proof (speed_pos v N) as SP.
  destruct (axes_cross_ok v (1 / 10) N ltac:(lra)) as (e1 & e2 & e3 & AX & O & AL).
  destruct (directed (axes_cross (1 / 10) v) e1 e2 e3 v kf Q (random u 0 (PI * 2)) N AX O AL K QP T) as (d & D & _ & TR). fold ki in D. exists (vscale (kf * k2v) d). split.
  - unfold br_finish. cbn [a_cost a_Q a_vf a_kf]. fold v. rewrite D. change (vnorm v) with (speed v). rewrite divide_ok by lra. cbn [bind]. fold ki. rewrite divide_ok by nra. cbn [bind option_map]. do 2 f_equal. unfold ki.
    pose proof PI_RGT_0. pose proof v2k_pos. unfold v2k in *. pose proof k2v_pos. field. repeat split; lra.
  - destruct (E2v_wave _ _ W) as (vf & _ & _ & KF & VE). rewrite (energy_back kf _ vf KF VE) in TR. replace E with (v2E (speed v) - (v2E (speed v) - E)) by ring. exact TR.
Qed.
(** a try succeeds exactly when the transfer is possible *)
Lemma try_yes v Q E : v <> mkV 0 0 0 -> possible v Q E -> exists kf, wave_at (v2E (speed v) - E) kf /\ 0 < kf /\ triangle (v2k * speed v) kf Q /\ 0 <= Q /\
  eq_pass (v2k * speed v) (v2E (speed v)) Q E = Some (mkPass Q (kf * k2v) kf (Some ((v2k * speed v * (v2k * speed v) + kf * kf - Q * Q) / (2 * (v2k * speed v) * kf)))) /\ 0 < v2E (speed v) - E.
Proof.
  intros N P. destruct (possible_wave v Q E N P) as (kf & W & K & T & QP). exists kf. repeat split; try assumption; try (apply T).
  - apply pass_ok; assumption.
  - destruct (E2v_wave _ _ W) as (vf & _ & VP & KF & VE). rewrite <- VE. unfold v2E. pose proof vsq2e_pos. assert (0 < vf) by (destruct (Req_dec vf 0) as [Z|]; [rewrite Z, Rmult_0_r in KF; lra|lra]). apply Rmult_lt_0_compat; [nra|assumption].
Qed.
Lemma br_try_yes m sg us ds v i : let Q := random (us i) (q_Qmin m) (q_Qmax m) in let E := q_E m Q + ds i * sg Q in v <> mkV 0 0 0 -> possible v Q E -> exists kf, wave_at (v2E (speed v) - E) kf /\ 0 < kf /\ triangle (v2k * speed v) kf Q /\ 0 <= Q /\
  br_try m sg (v2k * speed v) (v2E (speed v)) us ds i = Some (mkPass Q (kf * k2v) kf (Some ((v2k * speed v * (v2k * speed v) + kf * kf - Q * Q) / (2 * (v2k * speed v) * kf)))).
Proof.
  intros Q E N P. destruct (try_yes v Q E N P) as (kf & A & B & C & D & F & G). exists kf. repeat split; try assumption; try (apply C). unfold br_try. fold Q. cbv zeta. fold E. destruct (Rleb _ 0) eqn:L; [|exact F]. apply Rleb_true in L. lra.
Qed.
Lemma br_try_no m sg us ds v i : let Q := random (us i) (q_Qmin m) (q_Qmax m) in let E := q_E m Q + ds i * sg Q in v <> mkV 0 0 0 -> 0 <= Q -> ~ possible v Q E -> br_try m sg (v2k * speed v) (v2E (speed v)) us ds i = None.
Proof.
  intros Q E N QP P. unfold br_try. fold Q. cbv zeta. fold E. destruct (Rleb _ 0) eqn:L; [reflexivity|]. apply Rleb_false in L. apply pass_none; try assumption. intros [_ X]. lra.
Qed.

(** means *)
Lemma mean_ext n : forall f g m, (forall l, f l = g l) -> meanN n f m -> meanN n g m.
Proof.
  induction n as [|n IH]; intros f g m H; cbn; [now rewrite <- H|]. intros (h & A & B). exists h. split; [|exact B]. intros u U. apply (IH (fun l => f (u :: l))); [intros l; apply H|now apply A].
Qed.
Lemma RInt_const01 (k : R) : is_RInt (fun _ => k) 0 1 k.
Proof. pose proof (@is_RInt_const R_NormedModule 0 1 k) as H. change (is_RInt (fun _ => k) 0 1 ((1 - 0) * k)) in H. now replace ((1 - 0) * k) with k in H by ring. Qed.
Lemma mean_const n k : meanN n (fun _ => k) k.
Proof. induction n as [|n IH]; cbn; [reflexivity|]. exists (fun _ => k). split; [intros; exact IH|apply RInt_const01]. Qed.
Lemma mean_to n f m m' : m = m' -> meanN n f m -> meanN n f m'.
Proof. now intros ->. Qed.
Lemma scaled_int f lo hi (I : R) : is_RInt f lo hi I -> is_RInt (fun u => (hi - lo) * f (random u lo hi)) 0 1 I.
Proof.
  intros H. pose proof (@is_RInt_comp_lin R_NormedModule f (hi - lo) lo 0 1 I) as C. cbv beta in C.
  replace ((hi - lo) * 0 + lo) with lo in C by ring. replace ((hi - lo) * 1 + lo) with hi in C by ring. specialize (C H).
  apply (is_RInt_ext (fun y => scal (hi - lo) (f ((hi - lo) * y + lo)))); [|exact C]. intros x _. unfold random. change (scal (hi - lo) (f ((hi - lo) * x + lo))) with ((hi - lo) * f ((hi - lo) * x + lo)). do 2 f_equal. ring.
Qed.
Lemma scaled_int_k f lo hi k (I : R) : is_RInt f lo hi I -> is_RInt (fun u => k * ((hi - lo) * f (random u lo hi))) 0 1 (k * I).
Proof. intros H. exact (@is_RInt_scal R_NormedModule _ 0 1 k I (scaled_int f lo hi I H)). Qed.
(** a loop with tries: [val w c] is what a success of value [w] at the c-th try gives *)
Fixpoint tried (acc : R -> option R) (val : R -> nat -> R) (fail : R) (n c : nat) (us : nat -> R) : R :=
  match n with O => fail | S n => match acc (us O) with Some w => val w c | None => tried acc val fail n (S c) (fun i => us (S i)) end end.
Lemma tried_ext acc val fail n : forall c us us', (forall i, us i = us' i) -> tried acc val fail n c us = tried acc val fail n c us'.
Proof. induction n as [|n IH]; intros c us us' H; [reflexivity|]. cbn. rewrite H. destruct (acc _); [reflexivity|]. now apply IH. Qed.
Fixpoint tries (W r : R) (k : nat -> R) (fail : R) (n c : nat) : R := match n with O => fail | S n => W * k c + r * tries W r k fail n (S c) end.
Lemma tried_mean acc (k : nat -> R) fail W r :
  is_RInt (fun u => match acc u with Some w => w | None => 0 end) 0 1 W -> is_RInt (fun u => match acc u with Some _ => 0 | None => 1 end) 0 1 r ->
  forall n c, meanN n (fun l => tried acc (fun w c => w * k c) fail n c (stream l)) (tries W r k fail n c).
Proof.
  intros HW Hr. induction n as [|n IH]; intros c; [reflexivity|]. cbn [meanN tried tries].
  exists (fun u => match acc u with Some w => w * k c | None => tries W r k fail n (S c) end). split.
  - intros u _. change (stream (u :: nil) 0) with u. destruct (acc u) as [w|] eqn:E.
    + apply (mean_ext n (fun _ => w * k c)); [|apply mean_const]. intros l. change (stream (u :: l) 0) with u. now rewrite E.
    + apply (mean_ext n (fun l => tried acc (fun w c => w * k c) fail n (S c) (stream l))); [|apply IH]. intros l. change (stream (u :: l) 0) with u. rewrite E. apply tried_ext. reflexivity.
  - apply (is_RInt_ext (fun u => match acc u with Some w => w | None => 0 end * k c + match acc u with Some _ => 0 | None => 1 end * tries W r k fail n (S c))).
    + intros u _. destruct (acc u); [|]; change (@eq R) with (@eq R); cbv beta; lra.
    + assert (A : is_RInt (fun u => match acc u with Some w => w | None => 0 end * k c) 0 1 (W * k c)).
      { rewrite Rmult_comm. apply (is_RInt_ext (fun u => scal (k c) (match acc u with Some w => w | None => 0 end))); [intros u _; apply Rmult_comm|]. exact (@is_RInt_scal R_NormedModule _ 0 1 (k c) W HW). }
      assert (B : is_RInt (fun u => match acc u with Some _ => 0 | None => 1 end * tries W r k fail n (S c)) 0 1 (r * tries W r k fail n (S c))).
      { rewrite Rmult_comm. apply (is_RInt_ext (fun u => scal (tries W r k fail n (S c)) (match acc u with Some _ => 0 | None => 1 end))); [intros u _; apply Rmult_comm|]. exact (@is_RInt_scal R_NormedModule _ 0 1 (tries W r k fail n (S c)) r Hr). }
      exact (@is_RInt_plus R_NormedModule _ _ 0 1 _ _ A B).
Qed.
(** the sums that come out *)
Lemma tries_last W r k fail : forall n c, tries W r k fail (S n) c = tries W r k 0 n c + r ^ n * (W * k (c + n)%nat + r * fail).
Proof.
  induction n as [|n IH]; intros c; [cbn; rewrite Nat.add_0_r; ring|]. change (tries W r k fail (S (S n)) c) with (W * k c + r * tries W r k fail (S n) (S c)). rewrite IH. cbn [tries pow]. replace (S c + n)%nat with (c + S n)%nat by lia. ring.
Qed.
Lemma tries_log W r n : tries W r (fun c => / INR c) 0 n 1 = W * log_series r n.
Proof.
  induction n as [|n IH]; [cbn; ring|]. rewrite tries_last, IH. cbn [log_series]. change (1 + n)%nat with (S n). unfold Rdiv. ring.
Qed.
Lemma geo_shift r n : geometric r (S n) = 1 + r * geometric r n.
Proof. induction n as [|n IH]; [cbn; ring|]. cbn [geometric pow] in *. transitivity (1 + r * geometric r n + r * r ^ n); [rewrite <- IH|]; ring. Qed.
Lemma tries_geo W r fail : forall n c, tries W r (fun _ => 1) fail n c = W * geometric r n + r ^ n * fail.
Proof.
  induction n as [|n IH]; intros c; [cbn; ring|]. cbn [tries]. rewrite IH, geo_shift. cbn [pow]. ring.
Qed.
Lemma log_more r n : 0 <= r -> 1 + r / 2 <= log_series r (S (S n)).
Proof.
  intros P. induction n as [|n IH]; [cbn; lra|]. change (log_series r (S (S (S n)))) with (log_series r (S (S n)) + r ^ S (S n) / INR (S (S (S n)))).
  assert (0 <= r ^ S (S n) / INR (S (S (S n)))). { apply Rmult_le_pos; [now apply pow_le|]. left. apply Rinv_0_lt_compat, lt_0_INR. lia. } lra.
Qed.
Lemma log_zero n : log_series 0 (S n) = 1.
Proof. induction n as [|n IH]; [cbn; lra|]. change (log_series 0 (S (S n))) with (log_series 0 (S n) + 0 ^ S n / INR (S (S n))). rewrite IH. replace (0 ^ S n) with 0 by (cbn; ring). unfold Rdiv. ring. Qed.
Lemma geo_zero n : geometric 0 (S n) = 1.
Proof. induction n as [|n IH]; [cbn; lra|]. change (geometric 0 (S (S n))) with (geometric 0 (S n) + 0 ^ S n). rewrite IH. replace (0 ^ S n) with 0 by (cbn; ring). ring. Qed.
Lemma geo_sum r n : geometric r n * (1 - r) = 1 - r ^ n.
Proof. induction n as [|n IH]; [cbn; ring|]. cbn [geometric pow]. rewrite Rmult_plus_distr_r, IH. ring. Qed.
