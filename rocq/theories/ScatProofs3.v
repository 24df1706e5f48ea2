(** Proofs for C37: expectations of the forced choice. *)
From Coq Require Import Reals Lra Psatz.
From Coquelicot Require Import Coquelicot.
From Verif Require Import Base RotModel RotSpec ChanModel ChanProofs ShapeModel ShapeSpec ShapeProofs ShapeProofs2 ScatModel ScatSpec ScatProofs ScatProofs2.
Open Scope R_scope.

(** ** means of functions that are constant on pieces of the first random number *)
Lemma const_int (a b c : R) (g : R -> R) : a <= b -> (forall x, a < x < b -> g x = c) -> is_RInt g a b ((b - a) * c).
Proof.
  intros H E. apply is_RInt_ext with (f := fun _ => c).
  - intros x Hx. rewrite Rmin_left, Rmax_right in Hx by exact H. symmetry. now apply E.
  - apply (is_RInt_const a b c).
Qed.
Lemma piece_mean (f : R -> R -> R) (a b k I : R) (F : R -> R) : 0 <= a <= b -> b <= 1 ->
  (forall u1 u2, 0 < u1 < a -> 0 < u2 < 1 -> f u1 u2 = 0) ->
  (forall u1 u2, a < u1 < b -> 0 < u2 < 1 -> f u1 u2 = k * F u2) ->
  (forall u1 u2, b < u1 < 1 -> 0 < u2 < 1 -> f u1 u2 = 0) ->
  is_RInt F 0 1 I ->
  (forall u, (forall u2, 0 < u2 < 1 -> f u u2 = 0) \/ (forall u2, 0 < u2 < 1 -> f u u2 = k * F u2) \/ ~ 0 < u < 1) ->
  mean2 f ((b - a) * (k * I)).
Proof.
  intros A B Z1 M Z2 IF ALL.
  assert (IK : is_RInt (fun u => k * F u) 0 1 (k * I)) by exact (@is_RInt_scal R_NormedModule F 0 1 k I IF).
  assert (I0 : is_RInt (fun _ : R => 0) 0 1 0). { pose proof (const_int 0 1 0 (fun _ => 0) ltac:(lra) ltac:(auto)) as K. rewrite Rmult_0_r in K. exact K. }
  exists (fun u => RInt (f u) 0 1). split.
  - intros u Hu. destruct (ALL u) as [E|[E|E]]; [| |contradiction].
    + apply (@RInt_correct R_CompleteNormedModule). exists 0. apply is_RInt_ext with (2 := I0). intros x Hx. rewrite Rmin_left, Rmax_right in Hx by lra. symmetry. now apply E.
    + apply (@RInt_correct R_CompleteNormedModule). exists (k * I). apply is_RInt_ext with (2 := IK). intros x Hx. rewrite Rmin_left, Rmax_right in Hx by lra. symmetry. now apply E.
  - assert (V0 : forall u, (forall u2, 0 < u2 < 1 -> f u u2 = 0) -> RInt (f u) 0 1 = 0).
    { intros u E. apply (@is_RInt_unique R_CompleteNormedModule). apply is_RInt_ext with (2 := I0). intros x Hx. rewrite Rmin_left, Rmax_right in Hx by lra. symmetry. now apply E. }
    assert (VK : forall u, (forall u2, 0 < u2 < 1 -> f u u2 = k * F u2) -> RInt (f u) 0 1 = k * I).
    { intros u E. apply (@is_RInt_unique R_CompleteNormedModule). apply is_RInt_ext with (2 := IK). intros x Hx. rewrite Rmin_left, Rmax_right in Hx by lra. symmetry. now apply E. }
    pose proof (const_int 0 a 0 (fun u => RInt (f u) 0 1) ltac:(lra) ltac:(intros; apply V0; intros; now apply Z1)) as P1.
    pose proof (const_int a b (k * I) (fun u => RInt (f u) 0 1) ltac:(lra) ltac:(intros; apply VK; intros; now apply M)) as P2.
    pose proof (const_int b 1 0 (fun u => RInt (f u) 0 1) ltac:(lra) ltac:(intros; apply V0; intros; now apply Z2)) as P3.
    rewrite Rmult_0_r in P1, P3.
    replace ((b - a) * (k * I)) with (plus 0 (plus ((b - a) * (k * I)) 0)) by (unfold plus; cbn; ring).
    apply (@is_RInt_Chasles R_NormedModule _ 0 a 1 _ _ P1). exact (@is_RInt_Chasles R_NormedModule _ a b 1 _ _ P2 P3).
Qed.

Lemma mean2_unique f m1 m2 : mean2 f m1 -> mean2 f m2 -> m1 = m2.
Proof.
  intros (g1 & A1 & B1) (g2 & A2 & B2). apply (@is_RInt_unique R_CompleteNormedModule) in B2. rewrite <- B2.
  symmetry. apply (@is_RInt_unique R_CompleteNormedModule). apply is_RInt_ext with (2 := B1). intros x Hx. rewrite Rmin_left, Rmax_right in Hx by lra.
  specialize (A1 x Hx). specialize (A2 x Hx). apply (@is_RInt_unique R_CompleteNormedModule) in A1, A2. congruence.
Qed.
Lemma mean1_unique f m1 m2 : mean1 f m1 -> mean1 f m2 -> m1 = m2.
Proof. intros A B. apply (@is_RInt_unique R_CompleteNormedModule) in A, B. congruence. Qed.
Lemma last_piece (f : R -> R -> R) (a k m : R) (F : R -> R) : 0 <= a < 1 -> k * (1 - a) = 1 ->
  (forall u1 u2, 0 < u1 < a -> 0 < u2 < 1 -> f u1 u2 = 0) ->
  (forall u1 u2, a <= u1 < 1 -> 0 < u2 < 1 -> f u1 u2 = k * F u2) ->
  mean2 f m <-> is_RInt F 0 1 m.
Proof.
  intros A K Z M. assert (K0 : k <> 0) by (intros ->; lra).
  assert (ALL : forall u, (forall u2, 0 < u2 < 1 -> f u u2 = 0) \/ (forall u2, 0 < u2 < 1 -> f u u2 = k * F u2) \/ ~ 0 < u < 1).
  { intros u. destruct (Rlt_dec 0 u) as [P|P]; [|right; right; lra]. destruct (Rlt_dec u 1) as [Q|Q]; [|right; right; lra].
    destruct (Rlt_dec u a) as [X|X]; [left; intros; apply Z; [lra|assumption]|right; left; intros; apply M; [lra|assumption]]. }
  assert (FW : forall I, is_RInt F 0 1 I -> mean2 f I).
  { intros I HI. replace I with ((1 - a) * (k * I)) by (transitivity (k * (1 - a) * I); [ring|rewrite K; ring]).
    apply (piece_mean f a 1 k I F); [lra|lra|exact Z|intros; apply M; [lra|assumption]|intros; lra|exact HI|exact ALL]. }
  split; [|apply FW]. intros H. pose proof H as (g & G1 & _). specialize (G1 ((a + 1) / 2) ltac:(lra)).
  assert (IF : is_RInt F 0 1 (/ k * g ((a + 1) / 2))).
  { apply is_RInt_ext with (f := fun u => / k * f ((a + 1) / 2) u).
    - intros x Hx. rewrite Rmin_left, Rmax_right in Hx by lra. rewrite (M ((a + 1) / 2) x) by lra. change (/ k * (k * F x) = F x). field. exact K0.
    - exact (@is_RInt_scal R_NormedModule (f ((a + 1) / 2)) 0 1 (/ k) _ G1). }
  rewrite (mean2_unique f m _ H (FW _ IF)). exact IF.
Qed.
Lemma scaled_int (f : R -> R) (L I : R) : is_RInt f 0 L I -> is_RInt (fun u => L * f (u * L)) 0 1 I.
Proof.
  intros H. apply is_RInt_ext with (f := fun u => scal L (f (L * u + 0))).
  - intros x _. unfold scal; cbn. unfold mult; cbn. f_equal. f_equal. ring.
  - apply (@is_RInt_comp_lin R_NormedModule f L 0 0 1). rewrite Rmult_0_r, Rplus_0_l, Rmult_1_r, Rplus_0_r. exact H.
Qed.
Lemma exp_int t L : t <> 0 -> is_RInt (fun x => exp (- t * x)) 0 L ((1 - exp (- t * L)) / t).
Proof.
  intros T0. replace ((1 - exp (- t * L)) / t) with (minus (- exp (- t * L) / t) (- exp (- t * 0) / t)).
  2:{ unfold minus, plus, opp; cbn. rewrite Rmult_0_r, exp_0. field. exact T0. }
  apply (@is_RInt_derive R_CompleteNormedModule (fun x => - exp (- t * x) / t)).
  - intros x _. auto_derive; [exact I|]. field. exact T0.
  - intros x _. apply (@ex_derive_continuous R_AbsRing R_NormedModule (fun x => exp (- t * x))). auto_derive. exact I.
Qed.

(** ** one interaction *)
Lemma div_ok a b : b <> 0 -> divide a b = Ok (a / b).
Proof. intros H. unfold divide. destruct (Req_EM_T b 0); [contradiction|reflexivity]. Qed.
Section one_interaction.
Variables (tol : R) (h : hscatterer) (ev ev0 : event) (tof : R) (n : nat).
Hypothesis EN : enters tol h ev ev0 tof.
Let w := h_weights h.
Let W := total_w w.
Let t := mu h ev0 + sigma h ev0.
Let L := tof * len (e_v ev0).
Hypothesis PW : 0 < W.

Lemma path_transmission u1 u2 : u1 * W < w_transmission w -> w_transmission w <> 0 ->
  interact_path1 tol h ev u1 u2 n =
    (let! ev1 := propagate_to_next_exiting_surface tol ev0 (h_shape h) in
     Ok (mkO NoInteraction NoCall (scale_p ev1 (exp (- t * L) * (W / w_transmission w))))).
Proof.
  destruct EN as (E0 & E1 & V). intros C NZ. unfold interact_path1. rewrite E0. cbn [bind]. rewrite E1. cbn [bind]. unfold random. rewrite Rminus_0_r, Rplus_0_r.
  fold w. change (w_transmission w + w_absorption w + w_scattering w) with W. replace (Rltb (u1 * W) (w_transmission w)) with true by (symmetry; now apply Rltb_t).
  destruct (propagate_to_next_exiting_surface tol ev0 (h_shape h)) as [ev1|]; cbn [bind]; [|reflexivity]. rewrite div_ok by exact NZ. reflexivity.
Qed.
Definition to_absorb (u2 : R) : event := propagate (scale_p ev0 (mu h ev0 * L * exp (- t * (u2 * L)) * (W / w_absorption w))) (u2 * L / len (e_v ev0)).
Lemma path_absorption u1 u2 : w_transmission w <= u1 * W < w_transmission w + w_absorption w ->
  interact_path1 tol h ev u1 u2 n = Ok (mkO Absorption (CallAbsorb (to_absorb u2)) (set_p (k_absorb (h_kernel h) n (to_absorb u2)) (-1))).
Proof.
  destruct EN as (E0 & E1 & V). intros C. unfold interact_path1. rewrite E0. cbn [bind]. rewrite E1. cbn [bind]. unfold random. rewrite !Rminus_0_r, !Rplus_0_r.
  fold w. change (w_transmission w + w_absorption w + w_scattering w) with W.
  replace (Rltb (u1 * W) (w_transmission w)) with false by (symmetry; apply Rltb_f; lra).
  replace (Rltb (u1 * W) (w_transmission w + w_absorption w)) with true by (symmetry; apply Rltb_t; lra).
  rewrite div_ok by lra. cbn [bind]. rewrite div_ok by (pose proof (vnorm_pos _ V); lra). cbn [bind]. reflexivity.
Qed.
Definition to_scatter (k u2 : R) : event := propagate (scale_p ev0 (L * exp (- t * (u2 * L)) * k)) (u2 * L / len (e_v ev0)).
Definition after_scatter (e : event) : result (interaction * event) :=
  let ev3 := scale_p (k_scatter (h_kernel h) n e) (h_packing h) in
  if Rleb (e_p ev3) 0 then Ok (Absorption, ev3)
  else let! ev4 := propagate_to_next_exiting_surface tol ev3 (h_shape h) in
       Ok (Scattering, scale_p ev4 (calculate_attenuation tol h ev3 (e_r ev4))).
Lemma path_scattering u1 u2 : w_transmission w + w_absorption w <= u1 * W -> 0 <= w_absorption w -> w_scattering w <> 0 ->
  interact_path1 tol h ev u1 u2 n =
    (let! p := after_scatter (to_scatter (W / w_scattering w) u2) in Ok (mkO (fst p) (CallScatter (to_scatter (W / w_scattering w) u2)) (snd p))).
Proof.
  destruct EN as (E0 & E1 & V). intros C A NZ. unfold interact_path1. rewrite E0. cbn [bind]. rewrite E1. cbn [bind]. unfold random. rewrite !Rminus_0_r, !Rplus_0_r.
  fold w. change (w_transmission w + w_absorption w + w_scattering w) with W.
  replace (Rltb (u1 * W) (w_transmission w)) with false by (symmetry; apply Rltb_f; lra).
  replace (Rltb (u1 * W) (w_transmission w + w_absorption w)) with false by (symmetry; apply Rltb_f; lra).
  rewrite div_ok by exact NZ. cbn [bind]. rewrite div_ok by (pose proof (vnorm_pos _ V); lra). cbn [bind]. unfold after_scatter.
  change (vnorm (e_v ev0)) with (len (e_v ev0)). fold L. fold t. fold (to_scatter (W / w_scattering w) u2).
  destruct (Rleb _ 0); [reflexivity|]. destruct (propagate_to_next_exiting_surface _ _ _); reflexivity.
Qed.
End one_interaction.

Lemma scaled_piece a W : 0 < W -> forall u, u * W < a <-> u < a / W.
Proof.
  intros HW u. split; intros H.
  - apply Rmult_lt_reg_r with W; [exact HW|]. unfold Rdiv. rewrite Rmult_assoc, Rinv_l by lra. lra.
  - apply Rmult_lt_compat_r with (r := W) in H; [|exact HW]. unfold Rdiv in H. rewrite Rmult_assoc, Rinv_l in H by lra. lra.
Qed.
Lemma scaled_piece2 a W : 0 < W -> forall u, a <= u * W <-> a / W <= u.
Proof. intros HW u. pose proof (scaled_piece a W HW u). lra. Qed.
Lemma exit_keeps tol e s e' : propagate_to_next_exiting_surface tol e s = Ok e' -> e_p e' = e_p e.
Proof.
  unfold propagate_to_next_exiting_surface, propagate_to_next_incident_surface. intros H.
  repeat match type of H with
  | context [match ?x with _ => _ end] => destruct x; cbn [bind loc_eqb negb] in H; try discriminate
  | context [if ?x then _ else _] => destruct x; cbn [bind loc_eqb negb] in H; try discriminate
  | bind ?x _ = _ => let E := fresh in destruct x eqn:E; cbn [bind] in H; try discriminate
  end; try (injection H as <-; reflexivity).
Qed.
