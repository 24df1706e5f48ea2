(** C61 and C62: what a composite of scatterers makes of a neutron. *)
From Coq Require Import Reals Lra Lia.
From Verif Require Import Base RotModel RotSpec RotProofs ChanModel ChanProofs ShapeModel ShapeSpec ShapeProofs ScatModel ScatSpec HitModel HitSpec HitProofs3 HitProofs4 CmpsModel CmpsSpec CmpsProofs CmpsProofs2 CmpsProofs3 CmpsProofs4.
Open Scope R_scope.

Lemma passes_moving : forall tol s ev a b, passes tol s ev a b -> is_moving ev = true /\ e_v ev <> mkV 0 0 0.
Proof.
  intros tol s ev a b (_ & _ & _ & _ & _ & _ & _ & M). split; [unfold is_moving; apply Rltb_t; exact M|].
  intros E. rewrite E in M. replace (vdot (mkV 0 0 0) (mkV 0 0 0)) with 0 in M by (unfold vdot; cbn; ring). rewrite sqrt_0 in M. lra.
Qed.

(** ** C61: several events *)

(** If no element creates weight, the composite creates none: whatever the elements do and however long the neutrons bounce between them, the
    weights of the events add up to at most the weight of the incoming one, and none is negative. *)
Theorem C61_no_gain : forall tol c n ev out, Forall frugal (c_elements c) -> 0 <= e_p ev -> scatterM tol c n ev = Ok out -> sound out /\ total out <= e_p ev.
Proof. intros tol c n ev out F. now apply scatterM_gain. Qed.
(** Homogeneous bodies that only absorb are such elements. *)
Theorem C61_absorbers : forall tol h u p m, absorber h -> frugal (homogeneous tol h u p m).
Proof. intros tol h u p m (MU & SI & NS). now apply absorber_frugal. Qed.

(** The weight of the incoming neutron is a factor of the weights of all outgoing ones, if no minimum weight is set. *)
Theorem C61_linear : forall tol k c n ev, 0 < k -> c_min c <= 0 -> Forall linearM (c_elements c) ->
  scatterM tol c n (times k ev) = over (map (times k)) (scatterM tol c n ev).
Proof. intros. now apply scatterM_times. Qed.

(** Where every element lets neutrons through as they are, one event comes out: the incoming neutron at some point of its line, with its weight,
    velocity and spin, at the time of that point. *)
Theorem C61_straight : forall tol c n ev out, Forall (fun e => orthogonal (el_orientation e)) (c_elements c) -> Forall transparentM (c_elements c) ->
  too_low (c_min c) ev = false -> is_moving ev = true -> scatterM tol c n ev = Ok out -> exists t, out = [later ev t].
Proof. intros tol c n ev out OR TR LOW MV. now apply scatterM_straight. Qed.

(** Every event that comes out has left the composite: it flies through the open body of the frame no more, if the crossings of its line with the
    frame are found and what is still to come of the frame on that line is not thin. *)
Theorem C61_leaves : forall tol c n ev out x, scatterM tol c n ev = Ok out -> In x out -> exact_line tol (c_frame c) (e_r x) (e_v x) ->
  thick_ahead tol (c_frame c) (e_r x) (e_v x) -> gone (c_frame c) x.
Proof. intros tol c n ev out x. apply scatterM_gone. Qed.
(** The crossings are found for spheres, cylinders and boxes, moved, turned or scaled, by rays that pass through the open body (of a box: not
    through an edge) or miss the body. *)
Theorem C61_plain_frames : forall tol s r v, plain s -> positive s -> v <> mkV 0 0 0 ->
  (forall t, ~ solid s (on_line r v t)) \/ (meets s r v /\ regular s r v) -> exact_line tol s r v.
Proof. exact plain_line. Qed.

(** A body that only absorbs, alone: one event comes out, on the line of the neutron at the exit or at most 1e-7 behind it, and its weight is
    that of the neutron times exp of minus the coefficients times the length of the path in the body.  (Unless that weight is below 1e-20.) *)
Theorem C61_absorber : forall tol h u low n ev a b, let path := (b - a) * sqrt (vdot (e_v ev) (e_v ev)) in let k := mu h (later ev a) + sigma h (later ev a) in
  0 < tol -> passes tol (h_shape h) ev a b -> absorber h -> k <> 0 -> (1 <= h_loops h)%Z -> h_min h <= e_p ev -> low <= e_p ev ->
  / 100000000000000000000 <= e_p ev * exp (- k * path) -> low <= e_p ev * exp (- k * path) ->
  exists d, b <= d <= b + 1 / 10000000 /\ exists x, scatterM tol (alone (homogeneous tol h u (mkV 0 0 0) I3) low) n ev = Ok [x] /\
    e_r x = on_line (e_r ev) (e_v ev) d /\ e_v x = e_v ev /\ e_s1 x = e_s1 ev /\ e_s2 x = e_s2 ev /\ e_t x = e_t ev + d /\ e_p x = e_p ev * exp (- k * path).
Proof.
  intros tol h u low n ev a b path k T PA (MU & SI & NS) KP LO HM LM Q LQ. destruct (passes_moving _ _ _ _ _ PA) as [MV V]. destruct PA as (PL & PO & RG & AP & EE & OUT & MID & _).
  destruct (body_any tol (h_shape h) T PL PO ev a b V EE RG MID OUT AP MV low LM (homogeneous tol h u (mkV 0 0 0) I3) eq_refl eq_refl eq_refl (exp (- k * path)) LQ n Scattering) as (d & D & X); [discriminate| |].
  { cbn [homogeneous el_interactM]. unshelve eapply (body_M tol (h_shape h) T PL PO ev a b V EE RG MID h eq_refl); try assumption. intros m e. rewrite NS, Rmult_0_l. lra. }
  exists d. split; [exact D|]. eexists. split; [exact X|]. repeat split.
Qed.

(** ** C62: one event *)

(** The weight of the incoming neutron is a factor of the weight of the outgoing one; only the mark -1 of an absorbed or lost neutron is not scaled.
    Failures do not depend on the weight. *)
Theorem C62_factor : forall tol k c fuel n ev, 0 < k -> Forall linear (c_elements c) ->
  match scatter fuel tol c n ev with
  | Ok x => scatter fuel tol c n (times k ev) = Ok (times k x) \/ (e_p x = -1 /\ scatter fuel tol c n (times k ev) = Ok x)
  | Err x => scatter fuel tol c n (times k ev) = Err x
  end.
Proof. intros tol k c fuel n ev K L. destruct (scatter fuel tol c n ev) eqn:E; [now apply scatter_times|now apply scatter_times_err]. Qed.
(** Where every element lets neutrons through as they are, the composite does. *)
Theorem C62_straight : forall tol c fuel n ev x, Forall (fun e => orthogonal (el_orientation e)) (c_elements c) -> Forall transparent (c_elements c) ->
  is_moving ev = true -> scatter fuel tol c n ev = Ok x -> exists t, x = later ev t.
Proof. intros tol c fuel n ev x OR TR. now apply scatter_straight. Qed.
(** A neutron that does not move is lost. *)
Theorem C62_not_moving : forall tol c fuel n ev, sqrt (vdot (e_v ev) (e_v ev)) <= 1 / 1000000 -> scatter (S fuel) tol c n ev = Ok (set_p ev (-1)).
Proof. intros tol c fuel n ev H. cbn [scatter]. unfold is_moving. rewrite (proj2 (Rltb_f _ _)) by (change (vnorm (e_v ev)) with (sqrt (vdot (e_v ev) (e_v ev))); lra). reflexivity. Qed.
(** Through one body: what the element makes of the neutron up to its exit is what comes out. *)
Theorem C62_one_body : forall tol e c fuel n ev a b k, 0 < tol -> passes tol (el_shape e) ev a b -> el_position e = mkV 0 0 0 -> el_orientation e = I3 ->
  c_frame c = el_shape e -> c_elements c = [e] -> el_interact e n ev = Ok (NoInteraction, scale_p (later ev b) k) -> scatter (S (S fuel)) tol c n ev = Ok (scale_p (later ev b) k).
Proof.
  intros tol e c fuel n ev a b k T PA EP EO FR EC EI. destruct (passes_moving _ _ _ _ _ PA) as [MV V]. destruct PA as (PL & PO & RG & AP & EE & OUT & MID & _).
  exact (body_scatter tol (el_shape e) T PL PO ev a b V EE RG MID OUT AP MV e eq_refl EP EO k n fuel c FR EC EI).
Qed.
(** Likewise, what the body absorbs comes out as it went in, but with weight -1. *)
Theorem C62_absorbed : forall tol e c fuel n ev a b x, 0 < tol -> passes tol (el_shape e) ev a b -> el_position e = mkV 0 0 0 -> el_orientation e = I3 ->
  c_frame c = el_shape e -> c_elements c = [e] -> el_interact e n ev = Ok (Absorption, x) -> scatter (S (S fuel)) tol c n ev = Ok (set_p ev (-1)).
Proof.
  intros tol e c fuel n ev a b x T PA EP EO FR EC EI. destruct (passes_moving _ _ _ _ _ PA) as [MV V]. destruct PA as (PL & PO & RG & AP & EE & OUT & MID & _).
  exact (body_scatter_absorbed tol (el_shape e) T PL PO ev a b V EE RG MID OUT AP MV e eq_refl EP EO n fuel c x FR EC EI).
Qed.

(** A composite as an element of a composite: its methods return nothing, so that the values that the outer one uses are undefined. *)
Theorem C61_nested_refuted : forall tol inner loops iloops low n ev a b, 0 < tol -> passes tol (c_frame inner) ev a b -> low <= e_p ev ->
  let c := mkCo (c_frame inner) [nested inner (mkV 0 0 0) I3] (S loops) (S iloops) low in
  scatterM tol c n ev = Err UndefinedBehaviour /\ forall fuel, scatter (S (S fuel)) tol c n ev = Err UndefinedBehaviour.
Proof.
  intros tol inner loops iloops low n ev a b T PA LM c. destruct (passes_moving _ _ _ _ _ PA) as [MV V]. destruct PA as (PL & PO & RG & AP & EE & OUT & MID & _). split.
  - apply (body_err tol (c_frame inner) T PL PO ev a b V EE RG MID OUT AP MV low LM (nested inner (mkV 0 0 0) I3)); reflexivity.
  - intros fuel. apply (body_scatter_err tol (c_frame inner) T PL PO ev a b V EE RG MID OUT AP MV (nested inner (mkV 0 0 0) I3)); reflexivity.
Qed.

(** A minimum weight breaks proportionality: an event below it is dropped. *)
Theorem C61_linear_refuted : exists tol k c n ev, 0 < k /\ Forall linearM (c_elements c) /\ scatterM tol c n (times k ev) <> over (map (times k)) (scatterM tol c n ev).
Proof.
  exists (1 / 100), (1 / 2), (mkCo (Sphere 1) [] 1 1 1), 0%nat, (RotModel.mkE (mkV 0 0 10) (mkV 1 0 0) 0 0 0 1). split; [lra|]. split; [constructor|].
  assert (M : intersect (1 / 100) (Sphere 1) (mkV 0 0 10) (mkV 1 0 0) = []) by (apply plain_missed; [exact I|cbn; lra|intros t S1; unfold solid in S1; cbn in S1; nra]).
  assert (MV : is_moving (RotModel.mkE (mkV 0 0 10) (mkV 1 0 0) 0 0 0 1) = true)
    by (unfold is_moving, vnorm, vdot; cbn [e_v vx vy vz]; replace (1 * 1 + 0 * 0 + 0 * 0) with 1 by ring; rewrite sqrt_1; apply Rltb_t; lra).
  unfold scatterM. cbn [c_loops outer_loop outer_round]. unfold too_low. cbn [c_min times e_p e_r e_v e_s1 e_s2 e_t]. unfold Rleb.
  destruct (Rle_dec 0 (1 / 2 * 1)) as [_|N]; [|exfalso; lra]. destruct (Rle_dec 0 1) as [_|N]; [|exfalso; lra]. rl. cbn [andb]. rewrite MV. cbn [negb].
  assert (EX : is_exiting (1 / 100) (RotModel.mkE (mkV 0 0 10) (mkV 1 0 0) 0 0 0 1) (Sphere 1) = true).
  { unfold is_exiting, locate_ev, forward_tofs, forward_intersect. cbn [e_r e_v]. rewrite M. cbn [locate]. unfold locate_sphere. cbn [vx vy vz]. rl. reflexivity. }
  cbn [c_frame]. rewrite EX. cbn. discriminate.
Qed.

(** ** Examples: a ball of radius 1 at the origin, a neutron coming along the axis *)
Definition here : event := RotModel.mkE (mkV 0 0 (-10)) (mkV 0 0 1) 0 0 0 1.
Definition black : hscatterer := mkH (Sphere 1) (mkK (fun _ => 1) (fun _ => 0) (fun _ x => set_p x 0) (fun _ x => x)) None (mkW 0 1 1) 1 1 0.
Definition black_ball : element := homogeneous (1 / 100) black (fun _ _ => 1 / 2) (mkV 0 0 0) I3.
Definition window : element := mkEl (Sphere 1) (mkV 0 0 0) I3
  (fun _ ev => let! x := propagate_to_next_exiting_surface (1 / 100) ev (Sphere 1) in Ok (NoInteraction, [x]))
  (fun _ ev => let! x := propagate_to_next_exiting_surface (1 / 100) ev (Sphere 1) in Ok (NoInteraction, x)) (fun _ _ => 1).
Lemma axis_at : forall z, locate (1 / 100) (Sphere 1) (mkV 0 0 z) = if Rltb (1 / 100) (z * z - 1) then Outside else if Rltb (1 / 100) (1 - z * z) then Inside else Onborder.
Proof. intros z. cbn [locate]. unfold locate_sphere. cbn [vx vy vz]. replace (0 * 0 + 0 * 0 + z * z) with (z * z) by ring. replace (1 * 1) with 1 by ring. reflexivity. Qed.
Lemma here_at : forall t, on_line (e_r here) (e_v here) t = mkV 0 0 (t - 10).
Proof. intros t. apply vec_eq; cbn; ring. Qed.
Lemma here_passes : passes (1 / 100) (Sphere 1) here 9 11.
Proof.
  split; [exact I|]. split; [cbn; lra|]. split; [exact I|]. split; [lra|]. split; [|split; [|split]].
  - split; [lra|]. split; intros t; rewrite here_at; [unfold core|unfold solid]; cbn; split; intros; nra.
  - unfold here. cbn [e_r]. rewrite axis_at. rl. reflexivity.
  - rewrite here_at, axis_at. rl. reflexivity.
  - replace (vdot (e_v here) (e_v here)) with 1 by (unfold vdot; cbn; ring). rewrite sqrt_1. lra.
Qed.
Lemma black_absorber : absorber black.
Proof. split; [|split]; intros; unfold mu, sigma; cbn; lra. Qed.
Lemma exp_2 : / 100000000000000000000 <= exp (-2).
Proof. replace (-2) with (- (2)) by ring. rewrite exp_Ropp. apply Rinv_le_contravar; [apply exp_pos|]. replace 2 with (1 + 1) by ring. rewrite exp_plus. pose proof exp_le_3. pose proof (exp_pos 1). nra. Qed.
Lemma here_speed : sqrt (vdot (e_v here) (e_v here)) = 1.
Proof. replace (vdot (e_v here) (e_v here)) with 1 by (unfold vdot; cbn; ring). apply sqrt_1. Qed.

Example C61_absorber_example : exists d, 11 <= d <= 11 + 1 / 10000000 /\ exists x, scatterM (1 / 100) (alone black_ball 0) 0 here = Ok [x] /\ e_r x = mkV 0 0 (d - 10) /\ e_t x = d /\ e_p x = exp (-2).
Proof.
  pose proof exp_2 as E2. assert (K : forall x, mu black x + sigma black x = 1) by (intros; unfold mu, sigma; cbn; ring).
  destruct (C61_absorber (1 / 100) black (fun _ _ => 1 / 2) 0 0 here 9 11) as (d & D & x & X & R1 & _ & _ & _ & T1 & P1); rewrite ?K, ?here_speed; try replace (- (1) * ((11 - 9) * 1)) with (-2) by ring.
  all: try lra. { exact here_passes. } { exact black_absorber. } { cbn. lia. } { cbn. lra. } { cbn [here e_p]. lra. } { cbn [here e_p]. lra. } { cbn [here e_p]. lra. }
  exists d. split; [exact D|]. exists x. split; [exact X|]. rewrite here_at in R1. rewrite K, here_speed in P1. replace (- (1) * ((11 - 9) * 1)) with (-2) in P1 by ring. cbn [here e_p e_t] in *. rewrite T1, P1. repeat split; [exact R1|ring|ring].
Qed.
Example C61_no_gain_example : Forall frugal (c_elements (alone black_ball 0)) /\ exists out, scatterM (1 / 100) (alone black_ball 0) 0 here = Ok out /\ 0 < total out < 1.
Proof.
  split; [constructor; [apply C61_absorbers; exact black_absorber|constructor]|]. destruct C61_absorber_example as (d & _ & x & X & _ & _ & P). exists [x]. split; [exact X|]. cbn [total]. rewrite P.
  pose proof (exp_pos (-2)). pose proof (exp_increasing (-2) 0 ltac:(lra)). rewrite exp_0 in *. lra.
Qed.

(** a window: everything is let through *)
Lemma window_linear : linearM window /\ linear window.
Proof.
  split; (split; [|reflexivity]); intros k n ev K; cbn [window el_interactM el_interact]; rewrite times_exit; destruct (propagate_to_next_exiting_surface _ _ _); reflexivity.
Qed.
Lemma window_transparent : transparentM window /\ transparent window.
Proof.
  split; (split; [|reflexivity]); intros n ev i l H; cbn [window el_interactM el_interact] in H; destruct (propagate_to_next_exiting_surface _ _ _) as [x|] eqn:E; cbn [bind] in H; try discriminate H;
    injection H as <- <-; (split; [discriminate|]); destruct (exit_later _ _ _ _ E) as (t & ->); now exists t.
Qed.
Lemma window_out : exists d, 11 <= d <= 11 + 1 / 10000000 /\ scatterM (1 / 100) (alone window 0) 0 here = Ok [later here d].
Proof.
  destruct (passes_moving _ _ _ _ _ here_passes) as [MV V]. destruct here_passes as (PL & PO & RG & AP & EE & OUT & MID & _).
  destruct (body_any (1 / 100) (Sphere 1) ltac:(lra) PL PO here 9 11 V EE RG MID OUT AP MV 0 ltac:(cbn; lra) window eq_refl eq_refl eq_refl 1 ltac:(cbn; lra) 0 NoInteraction) as (d & D & X); [discriminate| |].
  { cbn [window el_interactM]. rewrite (body_exit (1 / 100) (Sphere 1) ltac:(lra) PL PO here 9 11 V EE RG MID). rewrite scale_1. reflexivity. }
  exists d. split; [exact D|]. rewrite scale_1 in X. exact X.
Qed.
Example C61_linear_example : linearM window /\ exists d, scatterM (1 / 100) (alone window 0) 0 here = Ok [later here d] /\ scatterM (1 / 100) (alone window 0) 0 (times 3 here) = Ok [times 3 (later here d)].
Proof.
  split; [apply window_linear|]. destruct window_out as (d & _ & X). exists d. split; [exact X|].
  rewrite (C61_linear (1 / 100) 3 (alone window 0) 0 here); [rewrite X; reflexivity|lra|cbn; lra|constructor; [apply window_linear|constructor]].
Qed.
Example C61_straight_example : Forall (fun e => orthogonal (el_orientation e)) (c_elements (alone window 0)) /\ Forall transparentM (c_elements (alone window 0)) /\
  too_low 0 here = false /\ is_moving here = true /\ exists d, 11 <= d /\ scatterM (1 / 100) (alone window 0) 0 here = Ok [later here d].
Proof.
  split; [constructor; [exact orth_I3|constructor]|]. split; [constructor; [apply window_transparent|constructor]|]. split; [apply low_false; cbn; lra|].
  split; [exact (proj1 (passes_moving _ _ _ _ _ here_passes))|]. destruct window_out as (d & D & X). exists d. split; [lra|exact X].
Qed.
Example C61_leaves_example : exists d x, 11 <= d /\ scatterM (1 / 100) (alone window 0) 0 here = Ok [x] /\ e_r x = mkV 0 0 (d - 10) /\
  exact_line (1 / 100) (Sphere 1) (e_r x) (e_v x) /\ thick_ahead (1 / 100) (Sphere 1) (e_r x) (e_v x) /\ gone (Sphere 1) x.
Proof.
  destruct window_out as (d & D & X). exists d, (later here d). split; [lra|]. split; [exact X|]. assert (RX : e_r (later here d) = mkV 0 0 (d - 10)) by apply here_at. split; [exact RX|].
  assert (AT : forall t, on_line (e_r (later here d)) (e_v (later here d)) t = mkV 0 0 (d + t - 10)) by (intros t; rewrite RX; apply vec_eq; cbn; ring).
  assert (EX : exact_line (1 / 100) (Sphere 1) (e_r (later here d)) (e_v (later here d))).
  { apply C61_plain_frames; [exact I|cbn; lra|intros E; injection E; lra|]. right. split; [|exact I]. exists (10 - d). rewrite AT. unfold core. cbn. nra. }
  assert (TH : thick_ahead (1 / 100) (Sphere 1) (e_r (later here d)) (e_v (later here d))).
  { intros ivs a b (P1 & _ & P3 & _) IN B. exfalso. pose proof (P1 _ _ IN). pose proof (Rmax_l a 0). pose proof (Rmax_r a 0).
    assert (Rmax a 0 < b) by (apply Rmax_lub_lt; assumption). assert (C : core (Sphere 1) (on_line (e_r (later here d)) (e_v (later here d)) ((Rmax a 0 + b) / 2))) by (apply P3; exists a, b; split; [exact IN|lra]).
    rewrite AT in C. unfold core in C. cbn in C. nra. }
  split; [exact EX|]. split; [exact TH|]. apply (C61_leaves (1 / 100) (alone window 0) 0 here [later here d]); [exact X|now left|exact EX|exact TH].
Qed.
Example C61_plain_frames_example : exact_line (1 / 100) (Sphere 1) (mkV 0 0 (-10)) (mkV 0 0 1) /\ exact_line (1 / 100) (Sphere 1) (mkV 0 0 (-10)) (mkV 1 0 0).
Proof.
  split; apply C61_plain_frames; try exact I; try (cbn; lra); try (intros E; injection E; lra).
  - right. split; [|exact I]. exists 10. unfold core. cbn. nra.
  - left. intros t. unfold solid. cbn. nra.
Qed.
Example C61_absorbers_example : absorber black /\ frugal black_ball /\ el_attenuation black_ball (later here 9) (mkV 0 0 1) <= 1.
Proof. split; [exact black_absorber|]. assert (F : frugal black_ball) by (apply C61_absorbers; exact black_absorber). split; [exact F|]. apply (proj2 F). Qed.
Example C61_nested_example : passes (1 / 100) (c_frame (alone window 0)) here 9 11 /\ scatterM (1 / 100) (alone window 0) 0 here <> Err UndefinedBehaviour /\
  scatterM (1 / 100) (mkCo (Sphere 1) [nested (alone window 0) (mkV 0 0 0) I3] 5 2 0) 0 here = Err UndefinedBehaviour.
Proof.
  split; [exact here_passes|]. split; [destruct window_out as (d & _ & ->); discriminate|].
  apply (C61_nested_refuted (1 / 100) (alone window 0) 4 1 0 0 here 9 11); [lra|exact here_passes|cbn; lra].
Qed.

(** one event *)
Lemma window_one : el_interact window 0 here = Ok (NoInteraction, scale_p (later here 11) 1).
Proof.
  destruct (passes_moving _ _ _ _ _ here_passes) as [MV V]. destruct here_passes as (PL & PO & RG & AP & EE & OUT & MID & _).
  cbn [window el_interact]. rewrite scale_1. pose proof (body_exit (1 / 100) (Sphere 1) ltac:(lra) PL PO here 9 11 V EE RG MID) as X.
  assert (Y : propagate_to_next_exiting_surface (1 / 100) here (Sphere 1) = Ok (later here 11)).
  { rewrite <- X. unfold propagate_to_next_exiting_surface. unfold locate_ev at 1. rewrite OUT. cbn [loc_eqb].
    rewrite (body_to (1 / 100) (Sphere 1) PL PO here 9 11 V EE RG OUT AP). rewrite (body_here (1 / 100) (Sphere 1) ltac:(lra) PL PO here 9 11 V EE RG). reflexivity. }
  rewrite Y. reflexivity.
Qed.
Example C62_one_body_example : passes (1 / 100) (el_shape window) here 9 11 /\ scatter 2 (1 / 100) (alone window 0) 0 here = Ok (later here 11).
Proof.
  split; [exact here_passes|]. rewrite <- (scale_1 (later here 11)). apply (C62_one_body (1 / 100) window (alone window 0) 0 0 here 9 11 1); try reflexivity; [lra|exact here_passes|exact window_one].
Qed.
Example C62_factor_example : linear window /\ scatter 2 (1 / 100) (alone window 0) 0 (times 3 here) = Ok (times 3 (later here 11)).
Proof.
  split; [apply window_linear|]. pose proof (C62_factor (1 / 100) 3 (alone window 0) 2 0 here ltac:(lra) ltac:(constructor; [apply window_linear|constructor])) as F.
  rewrite (proj2 C62_one_body_example) in F. destruct F as [F|[F _]]; [exact F|cbn in F; lra].
Qed.
Example C62_straight_example : transparent window /\ orthogonal (el_orientation window) /\ is_moving here = true /\ scatter 2 (1 / 100) (alone window 0) 0 here = Ok (later here 11).
Proof. split; [apply window_transparent|]. split; [exact orth_I3|]. split; [exact (proj1 (passes_moving _ _ _ _ _ here_passes))|]. apply C62_one_body_example. Qed.
Example C62_not_moving_example : scatter 1 (1 / 100) (alone window 0) 0 (RotModel.mkE (mkV 0 0 0) (mkV 0 0 0) 0 0 0 1) = Ok (RotModel.mkE (mkV 0 0 0) (mkV 0 0 0) 0 0 0 (-1)).
Proof. apply C62_not_moving. cbn [e_v]. replace (vdot (mkV 0 0 0) (mkV 0 0 0)) with 0 by (unfold vdot; cbn; ring). rewrite sqrt_0. lra. Qed.
Definition eater : element := mkEl (Sphere 1) (mkV 0 0 0) I3 (fun _ _ => Ok (Absorption, [])) (fun _ ev => Ok (Absorption, ev)) (fun _ _ => 0).
Example C62_absorbed_example : exists x, scatter 2 (1 / 100) (alone eater 0) 0 here = Ok x /\ e_p x = -1 /\ e_r x = mkV 0 0 (-10).
Proof.
  eexists. split; [apply (C62_absorbed (1 / 100) eater (alone eater 0) 0 0 here 9 11 here); try reflexivity; [lra|exact here_passes]|]. split; reflexivity.
Qed.


Print Assumptions C61_no_gain.
Print Assumptions C61_absorbers.
Print Assumptions C61_linear.
Print Assumptions C61_straight.
Print Assumptions C61_leaves.
Print Assumptions C61_plain_frames.
Print Assumptions C61_absorber.
Print Assumptions C62_factor.
Print Assumptions C62_straight.
Print Assumptions C62_not_moving.
Print Assumptions C62_one_body.
Print Assumptions C62_absorbed.
Print Assumptions C61_nested_refuted.
Print Assumptions C61_linear_refuted.
