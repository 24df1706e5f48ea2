(** C37 and C38: interaction with and attenuation in scatterers. *)
From Coq Require Import Reals Lra.
From Coquelicot Require Import Coquelicot.
From Verif Require Import Base RotModel RotSpec ShapeProofs ChanModel ShapeModel ShapeSpec ShapeProofs2 ScatModel ScatSpec ScatProofs ScatProofs2 ScatProofs3 ScatProofs4.
Open Scope R_scope.

(** ** C37: forced choice of the interaction *)

(** Whatever the Monte Carlo weights, the mean transmitted weight is the incoming weight times exp(-(mu+sigma) L). *)
Theorem C37_transmitted : forall tol h ev ev0 tof n ev1, enters tol h ev ev0 tof -> proper_w (h_weights h) -> 0 < w_transmission (h_weights h) ->
  propagate_to_next_exiting_surface tol ev0 (h_shape h) = Ok ev1 ->
  mean2 (fun u1 u2 => transmitted (interact_path1 tol h ev u1 u2 n)) (e_p ev0 * exp (- (absorption_of h ev0 + scattering_of h ev0) * (tof * len (e_v ev0)))).
Proof. intros tol h ev ev0 tof n ev1 EN NW P X. now apply (mean_transmitted tol h ev ev0 tof n EN NW ev1). Qed.

(** Absorption: place and time are distributed along the path with the density mu exp(-(mu+sigma) x). *)
Theorem C37_absorbed : forall tol h ev ev0 tof n, enters tol h ev ev0 tof -> proper_w (h_weights h) -> 0 < w_absorption (h_weights h) ->
  forall (G : vec3 -> R -> R) I,
  is_RInt (fun x => G (on_line (e_r ev0) (e_v ev0) (x / len (e_v ev0))) (e_t ev0 + x / len (e_v ev0)) * exp (- (absorption_of h ev0 + scattering_of h ev0) * x)) 0 (tof * len (e_v ev0)) I ->
  mean2 (fun u1 u2 => absorbed G (interact_path1 tol h ev u1 u2 n)) (e_p ev0 * (absorption_of h ev0 * I)).
Proof. intros tol h ev ev0 tof n EN NW P G I IG. now apply (mean_absorbed tol h ev ev0 tof n EN NW G I IG). Qed.

(** Scattering: the kernel is handed events distributed along the path with the density exp(-(mu+sigma) x), which it multiplies by its
    own cross section. *)
Theorem C37_handed_to_kernel : forall tol h ev ev0 tof n, enters tol h ev ev0 tof -> proper_w (h_weights h) -> 0 < w_scattering (h_weights h) ->
  (forall u1 u2, 0 < u1 < 1 -> 0 < u2 < 1 -> exists o, interact_path1 tol h ev u1 u2 n = Ok o) ->
  forall (G : vec3 -> R -> R) I,
  is_RInt (fun x => G (on_line (e_r ev0) (e_v ev0) (x / len (e_v ev0))) (e_t ev0 + x / len (e_v ev0)) * exp (- (absorption_of h ev0 + scattering_of h ev0) * x)) 0 (tof * len (e_v ev0)) I ->
  mean2 (fun u1 u2 => handed G (interact_path1 tol h ev u1 u2 n)) (e_p ev0 * I).
Proof. intros tol h ev ev0 tof n EN NW P OKS G I IG. now apply (mean_handed tol h ev ev0 tof n EN NW G I IG). Qed.

(** Nothing is lost: transmitted, absorbed and sigma times what is handed to the kernel add up to the incoming weight. *)
Theorem C37_balance : forall tol h ev ev0 tof n, enters tol h ev ev0 tof -> proper_w (h_weights h) ->
  0 < w_transmission (h_weights h) -> 0 < w_absorption (h_weights h) -> 0 < w_scattering (h_weights h) -> absorption_of h ev0 + scattering_of h ev0 <> 0 ->
  (exists ev1, propagate_to_next_exiting_surface tol ev0 (h_shape h) = Ok ev1) ->
  (forall u1 u2, 0 < u1 < 1 -> 0 < u2 < 1 -> exists o, interact_path1 tol h ev u1 u2 n = Ok o) ->
  exists T A S, mean2 (fun u1 u2 => transmitted (interact_path1 tol h ev u1 u2 n)) T /\
    mean2 (fun u1 u2 => absorbed (fun _ _ => 1) (interact_path1 tol h ev u1 u2 n)) A /\
    mean2 (fun u1 u2 => handed (fun _ _ => 1) (interact_path1 tol h ev u1 u2 n)) S /\
    T + A + scattering_of h ev0 * S = e_p ev0.
Proof. exact balance. Qed.

(** What leaves after a scattering has, for every observable, the same mean for all Monte Carlo weights: that of a scatterer which scatters
    every neutron. *)
Theorem C37_scattered : forall tol h ev ev0 tof n (Q : event -> R), enters tol h ev ev0 tof -> blind h ->
  (forall a b, same_but_weight a b -> Q a = Q b) -> proper_w (h_weights h) -> 0 < w_scattering (h_weights h) -> forall m,
  mean2 (fun u1 u2 => scattered Q (interact_path1 tol h ev u1 u2 n)) m <->
  mean1 (fun u2 => scattered Q (interact_path1 tol (reweigh h (mkW 0 1 0)) ev (1 / 2) u2 n)) m.
Proof. intros tol h ev ev0 tof n Q EN BL QB NW P m. exact (mean_scattered tol h ev ev0 tof n Q EN BL QB NW P m). Qed.
Theorem C37_scattered_any_weights : forall tol h w w' ev ev0 tof n Q m, enters tol h ev ev0 tof -> blind h -> (forall a b, same_but_weight a b -> Q a = Q b) ->
  proper_w w -> 0 < w_scattering w -> proper_w w' -> 0 < w_scattering w' ->
  mean2 (fun u1 u2 => scattered Q (interact_path1 tol (reweigh h w) ev u1 u2 n)) m <->
  mean2 (fun u1 u2 => scattered Q (interact_path1 tol (reweigh h w') ev u1 u2 n)) m.
Proof. exact mean_any_weights. Qed.

(** The means determine a single number. *)
Theorem C37_mean_unique : forall f m1 m2, mean2 f m1 -> mean2 f m2 -> m1 = m2.
Proof. exact mean2_unique. Qed.

(** Doing all three at once carries the same weights on average. *)
Theorem C37_all_at_once : forall tol h ev ev0 tof n u om, enters tol h ev ev0 tof -> interactM1 tol h ev u n = Ok om ->
  proper_w (h_weights h) -> 0 < w_transmission (h_weights h) -> 0 < w_absorption (h_weights h) ->
  (exists ev1, propagate_to_next_exiting_surface tol ev0 (h_shape h) = Ok ev1) ->
  mean2 (fun u1 u2 => transmitted (interact_path1 tol h ev u1 u2 n)) (e_p (m_transmitted om)) /\
  mean2 (fun u1 u2 => absorbed (fun _ _ => 1) (interact_path1 tol h ev u1 u2 n)) (e_p (m_absorbed om)).
Proof. exact many_same. Qed.
Theorem C37_all_at_once_handed : forall tol h ev ev0 tof n, enters tol h ev ev0 tof -> forall (G : vec3 -> R -> R) I,
  is_RInt (fun x => G (on_line (e_r ev0) (e_v ev0) (x / len (e_v ev0))) (e_t ev0 + x / len (e_v ev0)) * exp (- (absorption_of h ev0 + scattering_of h ev0) * x)) 0 (tof * len (e_v ev0)) I ->
  (forall u, 0 < u < 1 -> exists om, interactM1 tol h ev u n = Ok om) ->
  mean1 (fun u => match interactM1 tol h ev u n with Ok om => e_p (m_handed om) * G (e_r (m_handed om)) (e_t (m_handed om)) | Err _ => 0 end) (e_p ev0 * I).
Proof. intros tol h ev ev0 tof n EN G I IG OKS. exact (many_handed tol h ev ev0 tof n EN G I IG OKS). Qed.

(** "A kind of interaction with weight zero never happens": false for the random number 1, for which the weight of scattering is divided by. *)
Theorem C37_zero_weight_never_chosen_refuted : exists tol h ev, proper_w (h_weights h) /\ w_scattering (h_weights h) = 0 /\
  forall u2 n, interact_path1 tol h ev 1 u2 n = Err ZeroDivisionError.
Proof.
  exists (1 / 100), (pearl (mkW 1 0 1)), in_pearl. split; [unfold proper_w, total_w; cbn; lra|]. split; [reflexivity|]. intros. apply end_of_dice. lra.
Qed.
(** "Doing all three at once is the same as choosing one": false for the time (and the place) of absorption. *)
Theorem C37_all_at_once_same_refuted : exists tol h ev n A, proper_w (h_weights h) /\
  mean2 (fun u1 u2 => absorbed (fun _ t => t) (interact_path1 tol h ev u1 u2 n)) A /\ 0 < A /\
  forall u om, interactM1 tol h ev u n = Ok om -> e_p (m_absorbed om) * e_t (m_absorbed om) = 0.
Proof.
  exists (1 / 100), (pearl (mkW 1 1 1)), in_pearl, 0%nat, ((1 - 3 * exp (- 2)) / 4). split; [unfold proper_w, total_w; cbn; lra|].
  split; [apply late_mean; [lra|unfold proper_w, total_w; cbn; lra|cbn; lra]|]. split; [pose proof exp_small; lra|].
  intros u om H. rewrite (early (1 / 100) (mkW 1 1 1) u 0%nat om ltac:(lra) H). ring.
Qed.

(** A unit sphere with mu = sigma = 1, weights 1, 2, 3, a neutron in the middle. *)
Example C37_example : let h := pearl (mkW 1 2 3) in let tol := 1 / 100 in
  enters tol h in_pearl in_pearl 1 /\ proper_w (h_weights h) /\ blind h /\ absorption_of h in_pearl + scattering_of h in_pearl = 2 /\
  (exists ev1, propagate_to_next_exiting_surface tol in_pearl (h_shape h) = Ok ev1) /\
  (forall u1 u2 n, 0 < u1 < 1 -> 0 < u2 < 1 -> exists o, interact_path1 tol h in_pearl u1 u2 n = Ok o) /\
  (forall u n, exists om, interactM1 tol h in_pearl u n = Ok om) /\
  mean2 (fun u1 u2 => absorbed (fun _ _ => 1) (interact_path1 tol h in_pearl u1 u2 0)) ((1 - exp (- 2)) / 2).
Proof.
  cbv zeta. assert (NW : proper_w (mkW 1 2 3)) by (unfold proper_w, total_w; cbn; lra).
  split; [apply pearl_enters; lra|]. split; [exact NW|]. split; [apply pearl_blind|]. split; [unfold absorption_of, scattering_of; cbn; ring|].
  split; [apply (pearl_exit (1 / 100) 0 0 0 0 1); lra|]. split; [intros; apply pearl_runs; [lra|exact NW|assumption|assumption]|].
  split; [intros; apply pearlM_runs; lra|].
  replace ((1 - exp (- 2)) / 2) with (e_p in_pearl * (mu (pearl (mkW 1 2 3)) in_pearl * (1 * ((1 - exp (- 2)) / 2)))) by (unfold mu; cbn; field).
  apply C37_absorbed with (ev0 := in_pearl) (tof := 1); [apply pearl_enters; lra|exact NW|cbn; lra|]. apply (pearl_integral _ 1). reflexivity.
Qed.

(** ** C38: attenuation along a straight path *)

(** Flying straight for the time T takes the neutron through the shape for the total time d, in any number of pieces; the attenuation is
    exp(-(mu+sigma) |v| d). *)
Theorem C38_attenuation : forall tol h ev T, 0 <= T -> e_v ev <> mkV 0 0 0 -> surveyed tol (h_shape h) (e_r ev) (e_v ev) T ->
  exists d, time_inside (h_shape h) (e_r ev) (e_v ev) T d /\
    calculate_attenuation tol h ev (on_line (e_r ev) (e_v ev) T) = exp (- ((absorption_of h ev + scattering_of h ev) * (len (e_v ev) * d))).
Proof.
  intros tol h ev T HT V SV. pose proof (attenuation_right tol h ev (on_line (e_r ev) (e_v ev) T)) as K. cbv zeta in K. rewrite time_line in K by assumption. exact (K SV).
Qed.
(** The end point counts only by its distance. *)
Theorem C38_end_point : forall tol h ev stop, surveyed tol (h_shape h) (e_r ev) (e_v ev) (len (vsub stop (e_r ev)) / len (e_v ev)) ->
  exists d, time_inside (h_shape h) (e_r ev) (e_v ev) (len (vsub stop (e_r ev)) / len (e_v ev)) d /\
    calculate_attenuation tol h ev stop = exp (- ((absorption_of h ev + scattering_of h ev) * (len (e_v ev) * d))).
Proof. exact attenuation_right. Qed.
(** Rays that are regular for all parts of a shape are surveyed, unless a piece is thinner than the tolerance. *)
Theorem C38_regular_rays : forall tol s r v T, 0 < tol -> positive s -> members s -> v <> mkV 0 0 0 -> regular s r v -> clear tol s r v T -> surveyed tol s r v T.
Proof.
  intros tol s r v T Ht PO ME V RG CL. unfold surveyed. split; [exact Ht|]. split; [exact PO|]. split; [exact ME|]. split; [exact V|]. split; [exact CL|].
  intros t _ B. now apply intersect_complete.
Qed.
(** The time inside is one number. *)
Theorem C38_time_unique : forall s r v T d1 d2, time_inside s r v T d1 -> time_inside s r v T d2 -> d1 = d2.
Proof. intros s r v T d1 d2 A B. unfold time_inside in *. apply (@is_RInt_unique R_CompleteNormedModule) in A, B. congruence. Qed.

(** A composite: the sum over the elements at their places, when all of them lie away from the two end points that the code confuses. *)
Theorem C38_composite : forall tol (es : list (hscatterer * vec3 * mat3)) ev T, 0 <= T -> e_v ev <> mkV 0 0 0 ->
  let stop := on_line (e_r ev) (e_v ev) T in
  Forall (fun '(h, p, m) => orthogonal m /\
    surveyed tol (h_shape h) (dot_mv (transpose m) (vsub (e_r ev) p)) (dot_mv (transpose m) (e_v ev)) (flight ev stop p m) /\
    (forall t, Rmin T (flight ev stop p m) < t < Rmax T (flight ev stop p m) -> ~ core (placed (h_shape h) p m) (on_line (e_r ev) (e_v ev) t))) es ->
  exists ds, List.length ds = List.length es /\
    Forall (fun '((h, p, m), d) => time_inside (placed (h_shape h) p m) (e_r ev) (e_v ev) T d) (combine es ds) /\
    composite_attenuation tol (map (fun '(h, p, m) => (Homog h, p, m)) es) ev stop =
      exp (- sum2 (fun '(h, p, m) d => (absorption_of h (global2local ev p m) + scattering_of h (global2local ev p m)) * (len (e_v ev) * d)) es ds).
Proof. exact composite_right. Qed.
(** What a composite computes in general. *)
Theorem C38_composite_as_computed : forall tol (es : list (hscatterer * vec3 * mat3)) ev stop,
  Forall (fun '(h, p, m) => orthogonal m /\
    surveyed tol (h_shape h) (dot_mv (transpose m) (vsub (e_r ev) p)) (dot_mv (transpose m) (e_v ev)) (flight ev stop p m)) es ->
  exists ds, List.length ds = List.length es /\
    Forall (fun '((h, p, m), d) => time_inside (placed (h_shape h) p m) (e_r ev) (e_v ev) (flight ev stop p m) d) (combine es ds) /\
    composite_attenuation tol (map (fun '(h, p, m) => (Homog h, p, m)) es) ev stop =
      exp (- sum2 (fun '(h, p, m) d => (absorption_of h (global2local ev p m) + scattering_of h (global2local ev p m)) * (len (e_v ev) * d)) es ds).
Proof. exact composite_as_computed. Qed.

(** "In a composite the attenuation is that of the path through the elements": false for displaced elements, and for composites in composites. *)
Theorem C38_composite_displaced_refuted : exists tol h p m ev T d, 0 <= T /\ orthogonal m /\
  time_inside (placed (h_shape h) p m) (e_r ev) (e_v ev) T d /\
  composite_attenuation tol [(Homog h, p, m)] ev (on_line (e_r ev) (e_v ev) T) <>
    exp (- ((absorption_of h (global2local ev p m) + scattering_of h (global2local ev p m)) * (len (e_v ev) * d))).
Proof.
  destruct (shifted_wrong (1 / 100) ltac:(lra)) as (A & B & C). exists (1 / 100), pellet, shifted_at, I3m, shifted_start, 9, 2.
  split; [lra|]. split; [exact I3m_orth|]. split; [exact B|]. rewrite <- A, C. change (e_v shifted_start) with one. rewrite len_one. intros H. apply exp_inv in H.
  unfold absorption_of, scattering_of in H; cbn in H. lra.
Qed.
Theorem C38_nested_refuted : exists tol h p m ev T d, 0 <= T /\ orthogonal m /\ 0 < d /\
  time_inside (placed (placed (h_shape h) p m) p m) (e_r ev) (e_v ev) T d /\ 0 < absorption_of h ev /\ 0 <= scattering_of h ev /\
  composite_attenuation tol [(Comp (h_shape h) [(Homog h, p, m)], p, m)] ev (on_line (e_r ev) (e_v ev) T) = 1.
Proof.
  exists (1 / 100), pellet, (mkV 0 0 0), I3m, shifted_start, 20, 2. split; [lra|]. split; [exact I3m_orth|]. split; [lra|]. split; [|split; [unfold absorption_of; cbn; lra|split; [unfold scattering_of; cbn; lra|apply nested_none]]].
  assert (Z : forall a, dot_mv (transpose I3m) (vsub a (mkV 0 0 0)) = a) by (intros [a b c]; rewrite I3m_id; apply vec_eq; cbn; ring).
  apply time_placed; [exact I3m_orth|]. rewrite Z. apply time_placed; [exact I3m_orth|]. rewrite Z, !I3m_id. apply (pellet_time (-11) 10 12 20 2); lra.
Qed.

(** From the front of a unit sphere to its middle. *)
Example C38_example : surveyed (1 / 100) (h_shape pellet) (mkV 0 0 (-1)) one 1.
Proof. apply pellet_surveyed; lra. Qed.
(** The same sphere at the place where the code is right: the composite's own origin. *)
Example C38_example_composite : let ev := mkE (mkV 0 0 (-1)) one 0 0 0 1 in let stop := on_line (e_r ev) (e_v ev) 1 in
  Forall (fun '(h, p, m) => orthogonal m /\
    surveyed (1 / 100) (h_shape h) (dot_mv (transpose m) (vsub (e_r ev) p)) (dot_mv (transpose m) (e_v ev)) (flight ev stop p m) /\
    (forall t, Rmin 1 (flight ev stop p m) < t < Rmax 1 (flight ev stop p m) -> ~ core (placed (h_shape h) p m) (on_line (e_r ev) (e_v ev) t)))
  [(pellet, mkV 0 0 0, I3m)].
Proof.
  cbv zeta. constructor; [|constructor]. split; [exact I3m_orth|]. cbn [e_r e_v].
  assert (Z : forall a, dot_mv (transpose I3m) (vsub a (mkV 0 0 0)) = a) by (intros [a b c]; rewrite I3m_id; apply vec_eq; cbn; ring).
  assert (FL : flight (mkE (mkV 0 0 (-1)) one 0 0 0 1) (on_line (mkV 0 0 (-1)) one 1) (mkV 0 0 0) I3m = 1).
  { unfold flight. cbn [e_r e_v]. rewrite Z. apply time_line; [lra|exact one_nz]. }
  rewrite FL, Z, I3m_id. split; [apply pellet_surveyed; lra|]. intros t Ht. rewrite Rmin_left, Rmax_left in Ht by lra. lra.
Qed.

Print Assumptions C37_transmitted.
Print Assumptions C37_absorbed.
Print Assumptions C37_handed_to_kernel.
Print Assumptions C37_balance.
Print Assumptions C37_scattered.
Print Assumptions C37_scattered_any_weights.
Print Assumptions C37_mean_unique.
Print Assumptions C37_all_at_once.
Print Assumptions C37_all_at_once_handed.
Print Assumptions C37_zero_weight_never_chosen_refuted.
Print Assumptions C37_all_at_once_same_refuted.
Print Assumptions C38_attenuation.
Print Assumptions C38_end_point.
Print Assumptions C38_regular_rays.
Print Assumptions C38_time_unique.
Print Assumptions C38_composite.
Print Assumptions C38_composite_as_computed.
Print Assumptions C38_composite_displaced_refuted.
Print Assumptions C38_nested_refuted.
