(** C75: sources. *)
From Coq Require Import Reals Lra Psatz.
From Verif Require Import Base RotModel RotSpec RotProofs ChanModel ChanProofs ShapeModel ShapeProofs ScatSpec UnitModel UnitSpec UnitProofs KinProofs CohProofs CohProofs4 GridProofs SrcModel SrcSpec SrcProofs.
Open Scope R_scope.

(** From a point, every neutron is the one given. *)
Theorem C75_point s n ux uy z : s_dx s = 0 -> s_dy s = 0 -> s_dE s = 0 -> exists out, source_process s n ux uy z = Ok out /\ List.length out = n /\ forall i, (i < n)%nat -> nth_error out i = Some (Some (s_neutron s)).
Proof.
  intros A B C. exists (repeat (Some (s_neutron s)) n). split; [now apply point|]. split; [apply repeat_length|]. intros i I. rewrite (nth_error_nth' _ (Some (s_neutron s))) by (rewrite repeat_length; exact I). now rewrite nth_repeat.
Qed.
Print Assumptions C75_point.
Definition one : event := RotModel.mkE (mkV 1 2 3) (mkV 0 0 500) 0 1 0 1.
Example C75_point_example : source_process (mkSrc one 0 0 0) 3 (fun _ => 0) (fun _ => 0) (fun _ => 0) = Ok [Some one; Some one; Some one].
Proof. destruct (C75_point (mkSrc one 0 0 0) 3 (fun _ => 0) (fun _ => 0) (fun _ => 0) eq_refl eq_refl eq_refl) as (out & E & L & H). rewrite E. f_equal. destruct out as [|a [|b [|c [|]]]]; try discriminate L. pose proof (H 0%nat ltac:(lia)) as A. pose proof (H 1%nat ltac:(lia)) as B. pose proof (H 2%nat ltac:(lia)) as C. cbn in A, B, C. congruence. Qed.

(** From an area, every neutron is the one given but for x and y, which are in the rectangle. *)
Theorem C75_area s n ux uy z : s_dE s = 0 -> (s_dx s <> 0 \/ s_dy s <> 0) -> randoms ux -> randoms uy ->
  exists out, source_process s n ux uy z = Ok out /\ List.length out = n /\
    forall i, (i < n)%nat -> exists ev, nth_error out i = Some (Some ev) /\ from_area (s_dx s) (s_dy s) (s_neutron s) ev /\
      vx (e_r ev) = vx (e_r (s_neutron s)) + (ux i - 1 / 2) * s_dx s /\ vy (e_r ev) = vy (e_r (s_neutron s)) + (uy i - 1 / 2) * s_dy s.
Proof.
  intros E D X Y. eexists. split; [now apply area|]. split; [now rewrite map_length, seq_length|]. intros i I. exists (displaced s (ux i) (uy i)). split; [now apply (nth_map_seq (fun i => Some (displaced s (ux i) (uy i))))|]. split; [apply displaced_from; [apply X|apply Y]|]. split; reflexivity.
Qed.
Print Assumptions C75_area.
Example C75_area_example : randoms (fun i => / (INR i + 2)) /\ from_area 4 0 one (displaced (mkSrc one 4 0 0) (3 / 4) (1 / 2)) /\ vx (e_r (displaced (mkSrc one 4 0 0) (3 / 4) (1 / 2))) = 2.
Proof.
  split; [intros i; pose proof (pos_INR i); assert (0 < / (INR i + 2)) by (apply Rinv_0_lt_compat; lra); split; [lra|]; apply Rmult_lt_reg_r with (INR i + 2); [lra|]; rewrite Rinv_l by lra; lra|].
  split; [apply (displaced_from (mkSrc one 4 0 0)); lra|]. unfold displaced, one. cbn. lra.
Qed.
(** They come evenly from the width. *)
Theorem C75_uniform s uy a : 0 < s_dx s -> let x0 := vx (e_r (s_neutron s)) in x0 - s_dx s / 2 <= a <= x0 + s_dx s / 2 ->
  mean1 (fun u => if Rleb (vx (e_r (displaced s u uy))) a then 1 else 0) ((a - (x0 - s_dx s / 2)) / s_dx s).
Proof. intros D x0 A. exact (even_x x0 (s_dx s) a D A). Qed.
Print Assumptions C75_uniform.
Example C75_uniform_example : mean1 (fun u => if Rleb (vx (e_r (displaced (mkSrc one 4 0 0) u 0))) 2 then 1 else 0) (3 / 4).
Proof. replace (3 / 4) with ((2 - (1 - 4 / 2)) / 4) by lra. apply (C75_uniform (mkSrc one 4 0 0) 0 2); cbn; lra. Qed.

(** With an energy width, the energy is the one sampled, and the direction is kept. *)
Theorem C75_spread s n ux uy z : 0 < s_dE s -> e_v (s_neutron s) <> mkV 0 0 0 -> randoms ux -> randoms uy ->
  exists out E0, source_process s n ux uy z = Ok out /\ List.length out = n /\ is_energy E0 (speed (e_v (s_neutron s))) /\
    forall i, (i < n)%nat ->
      (0 < E0 + s_dE s * z i -> exists mid ev, nth_error out i = Some (Some ev) /\ from_area (s_dx s) (s_dy s) (s_neutron s) mid /\ but_velocity mid ev /\ same_way (e_v (s_neutron s)) (e_v ev) /\ is_energy (E0 + s_dE s * z i) (speed (e_v ev))) /\
      (E0 + s_dE s * z i < 0 -> nth_error out i = Some None).
Proof.
  intros D N X Y. eexists. exists (v2E (speed (e_v (s_neutron s)))). split; [now apply wide|]. split; [now rewrite map_length, seq_length|]. split; [now apply is_energy_iff|]. intros i I.
  rewrite (nth_map_seq (fun i => spread s (z i) (displaced s (ux i) (uy i))) n i I). split; intros P.
  - destruct (spread_some s (z i) (displaced s (ux i) (uy i)) eq_refl N P) as (ev & E & B & W & EN). exists (displaced s (ux i) (uy i)), ev. rewrite E. split; [reflexivity|]. split; [apply displaced_from; [apply X|apply Y]|]. split; [exact B|]. split; [exact W|exact EN].
  - now rewrite (spread_none s (z i) (displaced s (ux i) (uy i)) N P).
Qed.
Print Assumptions C75_spread.
Example C75_spread_example : e_v one <> mkV 0 0 0 /\ 0 < v2E 500 /\ exists ev, nth_error (match source_process (mkSrc one 0 0 (v2E 500)) 2 (fun _ => 0) (fun _ => 0) (fun _ => 3) with Ok l => l | Err _ => [] end) 1 = Some (Some ev) /\ is_energy (4 * v2E 500) (speed (e_v ev)).
Proof.
  assert (N : e_v one <> mkV 0 0 0) by (intros H; injection H; lra). assert (S : speed (e_v one) = 500) by exact speed500. pose proof (energy_pos _ N) as P. rewrite S in P. split; [exact N|]. split; [exact P|].
  destruct (C75_spread (mkSrc one 0 0 (v2E 500)) 2 (fun _ => 0) (fun _ => 0) (fun _ => 3) P N ltac:(intros i; lra) ltac:(intros i; lra)) as (out & E0 & -> & _ & HE & H).
  apply is_energy_iff in HE. cbn [s_neutron s_dE] in *. rewrite S in HE. subst E0. destruct (H 1%nat ltac:(lia)) as [K _]. destruct (K ltac:(lra)) as (mid & ev & A & _ & _ & _ & B). exists ev. split; [exact A|]. now replace (4 * v2E 500) with (v2E 500 + v2E 500 * 3) by ring.
Qed.
(** Not every neutron has a velocity: for any width some samples are below zero, and then it is nan; from a neutron at rest it always is. *)
Theorem C75_nan_refuted s n : 0 < s_dE s -> (0 < n)%nat -> exists z, forall ux uy, exists out, source_process s n ux uy z = Ok out /\ forall i, (i < n)%nat -> nth_error out i = Some None.
Proof.
  intros D N. exists (fun _ => - (v2E (speed (e_v (s_neutron s))) + 1) / s_dE s). intros ux uy. eexists. split; [now apply wide|]. intros i I.
  rewrite nth_map_seq by exact I. f_equal.
  destruct (Req_EM_T (speed (e_v (s_neutron s))) 0) as [Z|Z].
  - apply spread_rest. pose proof (sqr_speed (e_v (s_neutron s))) as Q. rewrite Z in Q. destruct (e_v (s_neutron s)) as [a b c]. cbn in Q. f_equal; nra.
  - apply spread_none.
    + intros E. apply Z. rewrite E. unfold speed. replace (norm2 (mkV 0 0 0)) with 0 by (unfold norm2, sdot; cbn; ring). apply sqrt_0.
    + replace (s_dE s * (- (v2E (speed (e_v (s_neutron s))) + 1) / s_dE s)) with (- (v2E (speed (e_v (s_neutron s))) + 1)) by (field; lra). lra.
Qed.
Print Assumptions C75_nan_refuted.
(** Widths below zero are refused. *)
Theorem C75_width s n ux uy z : (s_dE s < 0 -> source_process s n ux uy z = Err ValueError) /\ (0 <= s_dE s -> exists out, source_process s n ux uy z = Ok out /\ List.length out = n).
Proof.
  split; [now apply negative|]. intros H. destruct (Req_dec (s_dE s) 0) as [E|E].
  - destruct (Req_dec (s_dx s) 0) as [X|X]; [destruct (Req_dec (s_dy s) 0) as [Y|Y]|].
    + eexists. split; [now apply point|apply repeat_length].
    + eexists. split; [apply area; [exact E|now right]|now rewrite map_length, seq_length].
    + eexists. split; [apply area; [exact E|now left]|now rewrite map_length, seq_length].
  - eexists. split; [apply wide; lra|now rewrite map_length, seq_length].
Qed.
Print Assumptions C75_width.
Example C75_width_example : source_process (mkSrc one 1 1 (-1)) 0 (fun _ => 0) (fun _ => 0) (fun _ => 0) = Err ValueError.
Proof. apply C75_width. cbn. lra. Qed.

(** The component for applications: with an energy the neutron has that energy and goes where the velocity points; with 0 for the energy the velocity is kept. *)
Theorem C75_pyre energy energy_width v r width height time probability : let V := [vx v; vy v; vz v] in let P := [vx r; vy r; vz r] in
  (energy_width < 0 -> pyre_source energy energy_width V P width height time probability = Err ValueError) /\
  (0 <= energy_width -> 0 < energy -> v <> mkV 0 0 0 -> exists s, pyre_source energy energy_width V P width height time probability = Ok (Some s) /\
     s_dx s = width /\ s_dy s = height /\ s_dE s = energy_width /\ e_r (s_neutron s) = r /\ e_t (s_neutron s) = time /\ e_p (s_neutron s) = probability /\ same_way v (e_v (s_neutron s)) /\ is_energy energy (speed (e_v (s_neutron s)))) /\
  (0 <= energy_width -> energy = 0 -> exists s, pyre_source energy energy_width V P width height time probability = Ok (Some s) /\ s_neutron s = RotModel.mkE r v 0 1 time probability /\ s_dx s = width /\ s_dy s = height /\ s_dE s = energy_width) /\
  (0 <= energy_width -> energy < 0 \/ (energy <> 0 /\ v = mkV 0 0 0) -> pyre_source energy energy_width V P width height time probability = Ok None).
Proof.
  cbv zeta. destruct v as [a b c], r as [x y w]. cbn [vx vy vz]. unfold pyre_source. cbn [three bind]. split; [|split; [|split]].
  - intros W. now rewrite (proj2 (Rltb_t _ _)) by lra.
  - intros W E N. rewrite (proj2 (Rltb_f _ _)) by lra. destruct (pyre_velocity_energy energy _ E N) as (u & -> & S & EN). cbn [option_map]. eexists. split; [reflexivity|]. cbn. repeat split; assumption.
  - intros W E. rewrite (proj2 (Rltb_f _ _)) by lra. unfold pyre_velocity. rewrite (proj2 (Reqb_t _ _)) by exact E. cbn [option_map]. eexists. split; [reflexivity|]. cbn. repeat split.
  - intros W E. rewrite (proj2 (Rltb_f _ _)) by lra. unfold pyre_velocity. rewrite (proj2 (Reqb_f energy 0)) by (destruct E as [E|[E _]]; lra). destruct E as [E|[_ E]].
    + rewrite py_e2v_E2v, E2v_nan by exact E. reflexivity.
    + rewrite E. destruct (py_e2v energy); [|reflexivity]. rewrite (proj2 (Reqb_t _ 0)); [reflexivity|]. rewrite vnorm_speed. unfold speed. replace (norm2 (mkV 0 0 0)) with 0 by (unfold norm2, sdot; cbn; ring). apply sqrt_0.
Qed.
Print Assumptions C75_pyre.
Example C75_pyre_example : exists s, pyre_source 60 0 [0; 0; 3000] [0; 0; 0] 0 0 0 1 = Ok (Some s) /\ is_energy 60 (speed (e_v (s_neutron s))).
Proof.
  destruct (C75_pyre 60 0 (mkV 0 0 3000) (mkV 0 0 0) 0 0 0 1) as (_ & H & _). destruct (H ltac:(lra) ltac:(lra) ltac:(intros E; injection E; lra)) as (s & A & _ & _ & _ & _ & _ & _ & _ & B). exists s. split; [exact A|exact B].
Qed.
Theorem C75_three energy energy_width V P width height time probability : List.length V <> 3%nat \/ (0 <= energy_width /\ List.length P <> 3%nat) -> pyre_source energy energy_width V P width height time probability = Err AssertionError.
Proof.
  assert (T : forall l, List.length l <> 3%nat -> three l = Err AssertionError) by (intros [|a [|b [|c [|d l]]]] H; try reflexivity; now contradiction H).
  intros [H|[W H]]; unfold pyre_source.
  - now rewrite (T _ H).
  - rewrite (T _ H). destruct (three V) as [v|e] eqn:E; cbn [bind]; [now rewrite (proj2 (Rltb_f _ _)) by lra|]. destruct V as [|a [|b [|c [|d l]]]]; cbn in E; congruence.
Qed.
Print Assumptions C75_three.
Example C75_three_example : pyre_source 1 1 [0; 0] [0; 0; 0] 0 0 0 1 = Err AssertionError. Proof. apply C75_three. left. discriminate. Qed.

(** Neutrons on a cone: what is allowed is accepted, and every neutron has the momentum and energy transfer. *)
Theorem C75_cone_accepts Q E Ei L1 : (allowed Q E Ei <-> exists s, new_cone_source Q E Ei L1 = Ok s) /\ (~ allowed Q E Ei -> new_cone_source Q E Ei L1 = Err AssertionError).
Proof. split; [apply cone_accepted|apply cone_refused]. Qed.
Print Assumptions C75_cone_accepts.
Lemma elastic_allowed v : 0 < v -> allowed (v2k * v) 0 (v2E v).
Proof. intros P. pose proof v2k_pos as K. exists v, v, (v2k * v), (v2k * v). rewrite Rminus_0_r, !is_energy_iff, !is_wavenumber_iff. repeat split; try lra; nra. Qed.
Example C75_cone_accepts_example : allowed (v2k * 1000) 0 (v2E 1000) /\ ~ allowed (v2k * 3000) 0 (v2E 1000).
Proof.
  split; [apply elastic_allowed; lra|]. intros (a & b & ki & kf & A0 & B0 & A & B & C & D & Q1 & _). pose proof v2k_pos as K. rewrite Rminus_0_r in B. apply is_energy_iff in A, B. apply is_wavenumber_iff in C, D.
  apply v2E_inj in A; [|lra|lra]. apply v2E_inj in B; [|lra|lra]. subst. lra.
Qed.
Theorem C75_cone Q E Ei L1 s n u : new_cone_source Q E Ei L1 = Ok s -> List.length (cone_process s n u) = n /\
  forall i, (i < n)%nat -> exists ev vi, nth_error (cone_process s n u) i = Some ev /\ transfers Q E Ei (e_v ev) /\ e_r ev = mkV 0 0 0 /\ e_p ev = 1 /\ 0 < vi /\ is_energy Ei vi /\ e_t ev * vi = L1 /\ e_s1 ev = 0 /\ e_s2 ev = 1.
Proof. intros N. split; [unfold cone_process; now rewrite map_length, seq_length|]. intros i I. exact (cone_each Q E Ei L1 s n u i N I). Qed.
Print Assumptions C75_cone.
(** Each velocity with that transfer comes out for some random number. *)
Theorem C75_cone_all Q E Ei L1 s v : new_cone_source Q E Ei L1 = Ok s -> transfers Q E Ei v -> exists x, 0 <= x < 1 /\ exists ev, cone_process s 1 (fun _ => x) = [ev] /\ e_v ev = v.
Proof. exact (cone_all Q E Ei L1 s v). Qed.
Print Assumptions C75_cone_all.
Example C75_cone_example : exists s ev, new_cone_source (v2k * 1000) 0 (v2E 1000) 10 = Ok s /\ nth_error (cone_process s 5 (fun i => INR i / 5)) 3 = Some ev /\ transfers (v2k * 1000) 0 (v2E 1000) (e_v ev).
Proof.
  destruct (proj1 (proj1 (C75_cone_accepts (v2k * 1000) 0 (v2E 1000) 10)) (elastic_allowed 1000 ltac:(lra))) as (s & N). destruct (C75_cone _ _ _ _ s 5 (fun i => INR i / 5) N) as [_ H]. destruct (H 3%nat ltac:(lia)) as (ev & vi & A & B & _). exists s, ev. split; [exact N|]. split; [exact A|exact B].
Qed.
