(** Proofs for C73: the three outcomes and the mean. *)
From Coq Require Import Reals Lra Lia.
From Coquelicot Require Import Coquelicot.
From Verif Require Import Base RotModel RotSpec ChanModel ChanProofs ShapeModel ShapeSpec ShapeProofs ScatModel ScatSpec UnitModel UnitSpec UnitProofs KinModel KinSpec KinProofs KinProofs2 GridModel GridProofs PowdModel PowdSpec PowdProofs PowdProofs3 PhonModel PhonSpec PhonProofs3 RootModel RootSpec RootProofs RootProofs2 ConeModel ConeSpec ConeProofs CohModel CohSpec CohProofs CohProofs2 EvqModel EvqSpec EvqProofs.
Open Scope R_scope.

(** the weight and the velocity after a root is chosen *)
Definition after (k : evq) (ev : event) (d : vec3) (f : R -> R) (ki : R) (n : nat) (kf : R) : result kevent :=
  let D := Rabs (four_point f kf (ki / 200)) in
  if Reqb D 0 then Err ZeroDivisionError
  else
    let w := e_p ev * INR n * (2 * ksq2e * kf / D) in
    if Rltb (q_Emax k / 100000) (Rabs (f kf)) then Ok (with_pv ev w (Some (e_v ev)))
    else Ok (with_pv ev (w * (q_S k (vsub (vscale v2k (e_v ev)) (vscale kf d)) * (kf / ki))) (Some (vscale k2v (vscale kf d)))).
Lemma scatter_after k u1 u2 u3 ev : e_v ev <> mkV 0 0 0 ->
  let d := choose_direction u1 u2 in let f := E_vq_minus_deltaE (q_E k) d (v2E (vnorm (e_v ev))) (vscale v2k (e_v ev)) in
  let l := kf_list f (v2E (vnorm (e_v ev))) (q_Emax k) in
  evq_scatter k u1 u2 u3 ev = if Nat.ltb (List.length l) 1 then Ok (as_is ev) else after k ev d f (v2k * speed (e_v ev)) (List.length l) (nth (choose u3 (List.length l)) l 0).
Proof.
  intros N d f l. unfold evq_scatter. cbv zeta. fold d. fold f. fold l. destruct (Nat.ltb (List.length l) 1); [reflexivity|]. fold (choose u3 (List.length l)). set (kf := nth _ l 0). rewrite ki_of. pose proof (speed_pos _ N) as SP. pose proof v2k_pos as VP. set (ki := v2k * speed (e_v ev)). assert (K : 0 < ki) by (unfold ki; nra).
  rewrite df_four by lra. destruct (Rle_dec 0 ki) as [_|]; [|lra]. rewrite Rmult_1_r. cbn [bind]. unfold after, Reqb. unfold divide at 1. destruct (Req_EM_T (Rabs (four_point f kf (ki / 200))) 0); [reflexivity|]. cbn [bind].
  replace (q_Emax k * (1 / 100000)) with (q_Emax k / 100000) by field. change (v2E (vnorm (e_v ev)) - k2E kf - q_E k (vsub (vscale v2k (e_v ev)) (vscale kf d))) with (f kf). destruct (Rltb _ _); [reflexivity|]. unfold divide. destruct (Req_EM_T ki 0); [lra|]. reflexivity.
Qed.
Lemma dir_on u1 u2 : 0 <= u1 <= 1 -> choose_direction u1 u2 = on_sphere (2 * u1 - 1) (2 * PI * u2) /\ norm2 (choose_direction u1 u2) = 1.
Proof. intros U. destruct (choose_unit u1 u2 U) as [E N]. split; [exact E|exact N]. Qed.
Lemma in_place_pv ev w v : in_place ev (with_pv ev w v). Proof. repeat split. Qed.
Lemma wave_of_speed v : is_wavenumber (v2k * speed v) (speed v). Proof. now apply is_wavenumber_iff. Qed.

(** the same for any number of steps *)
Lemma state_n n k u1 u2 u3 ev o kmin : (0 < n)%nat -> e_v ev <> mkV 0 0 0 -> 0 <= u1 <= 1 -> let ki := v2k * speed (e_v ev) in let d := choose_direction u1 u2 in let f := E_vq_minus_deltaE (q_E k) d (v2E (vnorm (e_v ev))) (vscale v2k (e_v ev)) in
  0 <= kmin <= ki -> Rabs (ki - kmin) <= INR n * (2 ^ 59 * (1 / 1000)) -> kf_list f (v2E (vnorm (e_v ev))) (q_Emax k) = find_roots_evenly (ZRidd_solve (1 / 1000)) n kmin ki f ->
  evq_scatter k u1 u2 u3 ev = Ok o ->
  in_place ev o /\ exists c,
    (forall i, (i < n)%nat -> c i = true <-> changes_sign f (grid kmin ki n i) (grid kmin ki n (i + 1))) /\
    ((chosen c n = 0%nat /\ k_v o = Some (e_v ev) /\ k_p o = e_p ev) \/
     exists i kf r, (i < n)%nat /\ c i = true /\ within (grid kmin ki n i) (grid kmin ki n (i + 1)) kf /\ energy_rate kf r /\
       let D := Rabs (four_point f kf (ki / 200)) in let w := e_p ev * INR (chosen c n) * (r / D) in D <> 0 /\
       ((q_Emax k / 100000 < Rabs (f kf) /\ k_v o = Some (e_v ev) /\ k_p o = w) \/
        (Rabs (f kf) <= q_Emax k / 100000 /\ exists v' q, k_v o = Some v' /\ along d kf v' /\ wave_vector q (vsub (e_v ev) v') /\ k_p o = w * (q_S k q * (kf / ki))))).
Proof.
  intros NP N U ki d f KM WD KL H. rewrite scatter_after in H by exact N. cbv zeta in H. fold d in H. fold f in H. rewrite KL in H. fold ki in H.
  destruct (roots_map f (1 / 1000) n kmin ki ltac:(lra) NP ltac:(lra) ltac:(lra) WD) as (R1 & R2 & R3). cbv zeta in R1, R2, R3. rewrite R3 in H. clear R3 KL.
  set (c := fun i => is_found (ZRidd_solve (1 / 1000) (grid kmin ki n i) (grid kmin ki n (i + 1)) f)) in *. set (r := fun i => value (ZRidd_solve (1 / 1000) (grid kmin ki n i) (grid kmin ki n (i + 1)) f)) in *.
  set (l := map r (filter c (seq 0 n))) in H. assert (LL : List.length l = chosen c n) by (unfold l; rewrite map_length, chosen_filter; reflexivity).
  destruct (Nat.ltb_spec (List.length l) 1) as [L|L].
  - injection H as <-. split; [repeat split|]. exists c. split; [exact R1|]. left. split; [lia|]. split; reflexivity.
  - set (kf := nth (choose u3 (List.length l)) l 0) in *. assert (IN : In kf l) by (apply nth_In, choose_below; lia). unfold l in IN. apply in_map_iff in IN. destruct IN as (i & IE & IN). apply filter_In in IN. destruct IN as [I1 I2]. apply in_seq in I1.
    unfold after in H. cbv zeta in H. destruct (Reqb (Rabs (four_point f kf (ki / 200))) 0) eqn:RB; [discriminate|]. apply Reqb_f in RB. rewrite LL in H.
    assert (W : within (grid kmin ki n i) (grid kmin ki n (i + 1)) kf) by (rewrite <- IE; apply R2; [lia|exact I2]).
    destruct (Rltb _ _) eqn:RL; injection H as <-.
    + split; [apply in_place_pv|]. exists c. split; [exact R1|]. right. exists i, kf, (2 * ksq2e * kf). split; [lia|]. split; [exact I2|]. split; [exact W|]. split; [apply energy_rate_of|]. cbv zeta. split; [exact RB|]. left. apply Rltb_t in RL. split; [exact RL|]. split; reflexivity.
    + split; [apply in_place_pv|]. exists c. split; [exact R1|]. right. exists i, kf, (2 * ksq2e * kf). split; [lia|]. split; [exact I2|]. split; [exact W|]. split; [apply energy_rate_of|]. cbv zeta. split; [exact RB|]. right. apply Rltb_f in RL. split; [lra|].
      exists (vscale k2v (vscale kf d)), (vsub (vscale v2k (e_v ev)) (vscale kf d)). split; [reflexivity|]. split; [now apply along_iff|]. split; [apply wave_vector_iff; symmetry; apply transfer_of|]. reflexivity.
Qed.
Lemma state k u1 u2 u3 ev o : 0 <= q_Emax k -> e_v ev <> mkV 0 0 0 -> speed (e_v ev) <= 10 ^ 20 -> 0 <= u1 <= 1 -> evq_scatter k u1 u2 u3 ev = Ok o ->
  in_place ev o /\ exists d f c Ei kmin ki,
    d = on_sphere (2 * u1 - 1) (2 * PI * u2) /\ norm2 d = 1 /\ balance (q_E k) (e_v ev) d f /\ is_energy Ei (speed (e_v ev)) /\ slowest Ei (q_Emax k) kmin /\ is_wavenumber ki (speed (e_v ev)) /\
    (forall i, (i < 1000)%nat -> c i = true <-> changes_sign f (grid kmin ki 1000 i) (grid kmin ki 1000 (i + 1))) /\
    ((chosen c 1000 = 0%nat /\ k_v o = Some (e_v ev) /\ k_p o = e_p ev) \/
     exists i kf r, (i < 1000)%nat /\ c i = true /\ within (grid kmin ki 1000 i) (grid kmin ki 1000 (i + 1)) kf /\ energy_rate kf r /\
       let D := Rabs (four_point f kf (ki / 200)) in let w := e_p ev * INR (chosen c 1000) * (r / D) in D <> 0 /\
       ((q_Emax k / 100000 < Rabs (f kf) /\ k_v o = Some (e_v ev) /\ k_p o = w) \/
        (Rabs (f kf) <= q_Emax k / 100000 /\ exists v' q, k_v o = Some v' /\ along d kf v' /\ wave_vector q (vsub (e_v ev) v') /\ k_p o = w * (q_S k q * (kf / ki))))).
Proof.
  intros EM N SV U H. destruct (range_of (e_v ev) (q_Emax k) EM SV) as (kmin & SL & KM & _ & WD & KL).
  destruct (state_n 1000 k u1 u2 u3 ev o kmin (Nat.lt_0_succ 999) N U KM WD (KL _) H) as (Q1 & c & Q2 & Q3). split; [exact Q1|]. destruct (dir_on u1 u2 U) as [DE DN].
  eexists _, _, c, (v2E (speed (e_v ev))), kmin, (v2k * speed (e_v ev)). split; [exact DE|]. split; [exact DN|]. split; [apply balance_of; exact DN|]. split; [apply energy_of|]. split; [exact SL|]. split; [apply wave_of_speed|]. split; [exact Q2|]. exact Q3.
Qed.
