(** Proofs for C57: focusing, and cases. *)
From Coq Require Import Reals Lra Lia.
From Coquelicot Require Import Coquelicot.
From Verif Require Import Base RotModel RotSpec ChanModel ChanProofs ShapeModel ShapeSpec ShapeProofs ScatModel ScatSpec UnitModel UnitSpec UnitProofs KinModel KinSpec KinProofs KinProofs2 KinProofs3 KinProofs4 GridProofs PowdModel PowdSpec PowdProofs PowdProofs2 PowdProofs3 PowdProofs4.
Open Scope R_scope.

(** neutrons along z with wave number [kk] *)
Definition zbeam (kk : R) : event := RotModel.mkE (mkV 0 0 0) (mkV 0 0 (kk * k2v)) 0 0 0 1.
Lemma zbeam_speed kk : 0 < kk -> speed (e_v (zbeam kk)) = kk * k2v.
Proof. intros K. pose proof k2v_pos. apply speed_eq; [nra|]. unfold norm2, sdot. cbn. ring. Qed.
Lemma zbeam_ok kk : 0 < kk -> e_v (zbeam kk) <> mkV 0 0 0 /\ is_wavenumber kk (speed (e_v (zbeam kk))).
Proof.
  intros K. pose proof k2v_pos. split.
  - intros Z. cbn in Z. injection Z; intros. nra.
  - rewrite zbeam_speed by exact K. apply is_wavenumber_iff. pose proof k2v_v2k. nra.
Qed.
Definition ez3 := mkV 0 0 1. Definition ex3 := mkV 1 0 0. Definition ey3 := mkV 0 1 0.
Lemma normalize_axis s e : 0 < s -> norm2 e = 1 -> normalize (vscale s e) = Some e /\ along (vscale s e) e.
Proof.
  intros S U. assert (SP : speed (vscale s e) = s) by (apply speed_eq; [lra|rewrite scale_n2, U; ring]). split; [|split; [now rewrite SP|exact U]].
  unfold normalize. change (vnorm (vscale s e)) with (speed (vscale s e)). rewrite SP. destruct (Req_EM_T s 0); [lra|]. f_equal. destruct e as [a b c]. unfold vscale; cbn. f_equal; field; lra.
Qed.
Lemma zbeam_frame kk : 0 < kk -> orthonormal (ez3, ex3, ey3) /\ along (e_v (zbeam kk)) ez3 /\ along (second_axis (e_v (zbeam kk))) ey3 /\ normalize (e_v (zbeam kk)) = Some ez3 /\ normalize (second_axis (e_v (zbeam kk))) = Some ey3.
Proof.
  intros K. pose proof k2v_pos as KV. assert (P : 0 < kk * k2v) by nra. assert (E1 : e_v (zbeam kk) = vscale (kk * k2v) ez3) by (unfold ez3, vscale; cbn; f_equal; ring).
  assert (E3 : second_axis (e_v (zbeam kk)) = vscale (kk * k2v) ey3).
  { unfold second_axis. cbn [e_v zbeam]. unfold vdot; cbn [vx vy vz]. replace (1 * 0 + 0 * 0 + 0 * (kk * k2v)) with 0 by ring. replace (0 * 0 + 0 * 0 + 1 * (kk * k2v)) with (kk * k2v) by ring. rewrite Rabs_R0, (Rabs_pos_eq (kk * k2v)) by lra. rewrite (proj2 (Rltb_t _ _) P). unfold ey3, vcross, vscale; cbn. f_equal; ring. }
  destruct (normalize_axis (kk * k2v) ez3 P) as [A B]; [unfold norm2, sdot; cbn; ring|]. destruct (normalize_axis (kk * k2v) ey3 P) as [C D]; [unfold norm2, sdot; cbn; ring|]. rewrite E3, E1. split.
  - unfold orthonormal, norm2, sdot, vcross; cbn. repeat split; try ring. unfold ey3. f_equal; ring.
  - repeat split; try assumption; try apply B; apply D.
Qed.
(** one sharp peak *)
Definition one_peak (q : R) : powder_data := mkPD [mkPeak q 1 1 0 0] 1 1.
Lemma one_peak_ok q d : 0 < q -> new_powder (one_peak q) d = Ok (Some (kernel_of (one_peak q) d)).
Proof.
  intros Q. apply new_ok; [|split; [cbn; lra|intros p [<-|[]]; cbn; lra]]. apply ordered_cons. split; [intros x []|]. intros i j L. cbn in L. lia.
Qed.
Lemma one_reached q kk : q <= 2 * kk -> reached kk (mkPeak q 1 1 0 0) = true.
Proof. intros H. unfold reached; cbn. destruct (Rle_dec _ _); [reflexivity|lra]. Qed.
Lemma one_number q kk : q <= 2 * kk -> number_reached kk (pd_peaks (one_peak q)) = 1%nat.
Proof. intros H. unfold number_reached. cbn. now rewrite one_reached. Qed.
Lemma one_scatter q kk d up uw ua a d' : 0 < q <= 2 * kk -> azimuth d (asin (q / (2 * kk))) ua = (Some a, d') ->
  powder_scatter (kernel_of (one_peak q) d) up uw ua (zbeam kk) =
  Ok (kernel_of (one_peak q) d', with_pv (zbeam kk) (cone_coefficient kk 1 (mkPeak q 1 1 0 0)) (Some (on_cone ez3 ex3 ey3 (kk * k2v) (2 * asin (q / (2 * kk))) (if near (2 * asin (q / (2 * kk))) then 0 else a)))).
Proof.
  intros Q A. assert (K : 0 < kk) by lra. destruct (zbeam_ok kk K) as [N W]. assert (OP : opening kk (mkPeak q 1 1 0 0) uw = q / (2 * kk)) by (unfold opening; cbn; destruct (Req_EM_T 0 0) as [_|Z]; [reflexivity|now elim Z]).
  assert (X : -1 <= opening kk (mkPeak q 1 1 0 0) uw <= 1) by (rewrite OP; apply opening_bound; [exact K|rewrite Rabs_pos_eq; lra]). rewrite <- OP in A |- *.
  pose proof (scatter_cone (one_peak q) d _ (zbeam kk) kk (one_peak_ok q d (proj1 Q)) N W _ [] ez3 ex3 ey3 eq_refl (one_reached q kk (proj2 Q)) (zbeam_frame kk K) up uw ua) as H. cbv zeta in H. rewrite (one_number q kk (proj2 Q)) in H.
  change (nth (choose up 1) (pd_peaks (one_peak q)) dflt) with (mkPeak q 1 1 0 0) in H. rewrite (H X a d' A). rewrite zbeam_speed by exact K. do 3 f_equal. cbn. ring.
Qed.
Lemma one_coefficient_pos q kk : 0 < q -> 0 < kk -> 0 < cone_coefficient kk 1 (mkPeak q 1 1 0 0).
Proof.
  intros Q K. unfold cone_coefficient, cone_xs, damping. cbn [pk_q pk_F_squared pk_multiplicity pk_DebyeWaller]. destruct (Req_EM_T 0 0) as [_|Z]; [|now elim Z]. pose proof PI_RGT_0.
  assert (0 < (2 * PI / kk) ^ 3) by (apply pow_lt; apply Rdiv_lt_0_compat; lra). assert (0 < q / (2 * kk)) by (apply Rdiv_lt_0_compat; lra).
  apply Rdiv_lt_0_compat; [|lra]. apply Rmult_lt_0_compat; [lra|]. rewrite Rmult_1_l. apply Rdiv_lt_0_compat; lra.
Qed.
(** 90 degrees: q = 2 k sin(pi/4) *)
Definition q90 : R := 2 * sin (PI / 4).
Lemma sin4 : 0 < sin (PI / 4) <= 1 /\ sin (PI / 4) * sin (PI / 4) = 1 / 2.
Proof.
  pose proof PI_RGT_0. assert (0 < sin (PI / 4)) by (apply sin_gt_0; lra). pose proof (SIN_bound (PI / 4)). split; [lra|]. pose proof (sin2_cos2 (PI / 4)) as S. rewrite <- (sin_cos_PI4) in S. unfold Rsqr in S. lra.
Qed.
Lemma q90_theta : asin (q90 / (2 * 1)) = PI / 4.
Proof. unfold q90. replace (2 * sin (PI / 4) / (2 * 1)) with (sin (PI / 4)) by field. apply asin_sin. pose proof PI_RGT_0. lra. Qed.
Lemma q90_near : near (2 * asin (q90 / (2 * 1))) = false.
Proof. rewrite q90_theta. unfold near. replace (2 * (PI / 4)) with (PI / 2) by field. rewrite cos_PI2, Rabs_R0. apply Rltb_f. lra. Qed.
Lemma asin_half : asin (1 / 2) = PI / 6.
Proof. rewrite <- sin_PI6. apply asin_sin. pose proof PI_RGT_0. lra. Qed.
Lemma azimuth_60 u : azimuth 60 (PI / 4) u = (Some (if Rltb (PI / 3) (2 * u * (PI / 3)) then PI + (2 * u * (PI / 3) - PI / 2) else 2 * u * (PI / 3) - PI / 6), 60).
Proof.
  unfold azimuth. cbv zeta. rewrite (proj2 (Reqb_f 60 0)) by lra. replace (60 * (PI / 180) / 2) with (PI / 6) by field. replace (2 * (PI / 4)) with (PI / 2) by field. rewrite sin_PI6, sin_PI2. rewrite (proj2 (Reqb_f 1 0)) by lra. replace (1 / 2 / 1) with (1 / 2) by field.
  rewrite !(proj2 (Rltb_f _ _)) by lra. cbn [orb]. rewrite asin_half. replace (2 * (PI / 6)) with (PI / 3) by field. pose proof PI_RGT_0. rewrite (Rabs_pos_eq (PI / 3)) by lra. unfold random. replace (2 * (u * (1 - 0) + 0)) with (2 * u) by ring. destruct (Rltb _ _); do 3 f_equal; field.
Qed.
(** wave number 100: a small cone *)
Lemma azimuth_small u : azimuth 60 (asin (q90 / (2 * 100))) u = (Some (PI * (2 * u - 1)), 0).
Proof.
  destruct sin4 as [S4 _]. unfold azimuth. cbv zeta. rewrite (proj2 (Reqb_f 60 0)) by lra. replace (60 * (PI / 180) / 2) with (PI / 6) by field. rewrite sin_PI6. set (x := q90 / (2 * 100)). assert (X : 0 < x <= 1 / 100) by (unfold x, q90; lra).
  assert (XB : -1 <= x <= 1) by lra. rewrite sin_2a, sin_asin by exact XB. assert (C : 0 < cos (asin x) <= 1) by (split; [apply cos_gt_0; pose proof (asin_bound_lt x ltac:(lra)); lra|apply COS_bound]).
  assert (P : 0 < 2 * x * cos (asin x) < 1 / 2) by nra. rewrite (proj2 (Reqb_f _ 0)) by lra. rewrite (proj2 (Rltb_t 1 _)).
  - rewrite Bool.orb_true_r. unfold random. do 3 f_equal. ring.
  - apply (Rmult_lt_reg_r (2 * x * cos (asin x))); [lra|]. replace (1 / 2 / (2 * x * cos (asin x)) * (2 * x * cos (asin x))) with (1 / 2) by (field; split; lra). lra.
Qed.
Lemma q90_range kk : 1 <= kk -> 0 < q90 <= 2 * kk.
Proof. destruct sin4 as [S4 _]. unfold q90. lra. Qed.

Lemma focus_after data d k up uw ua ev k' o : new_powder data d = Ok (Some k) -> 0 <= d < 360 -> e_v ev <> mkV 0 0 0 -> powder_scatter k up uw ua ev = Ok (k', o) ->
  new_powder data d = Ok (Some k') \/ new_powder data 0 = Ok (Some k').
Proof.
  intros Mk D N H. assert (W : is_wavenumber (v2k * speed (e_v ev)) (speed (e_v ev))) by now apply is_wavenumber_iff. set (kk := v2k * speed (e_v ev)) in *. pose proof (new_inv _ _ _ Mk) as (O & U & K).
  destruct (pd_peaks data) as [|p0 l'] eqn:L; [rewrite (scatter_none data d k ev Mk up uw ua L) in H; discriminate|].
  destruct (reached kk p0) eqn:R0; [|rewrite (scatter_low data d k ev kk Mk W up uw ua p0 l' L R0) in H; left; congruence]. rewrite <- L in O.
  rewrite (scatter_general data d k ev kk Mk N W up uw ua p0 l' L R0) in H. cbv zeta in H. destruct (std_asin _); [|left; congruence]. destruct (azimuth_some d r ua D) as (a & d' & A & E). rewrite A in H.
  assert (k' = kernel_of data d') by (destruct (match rotate _ _ _ _ with Some _ => _ | None => _ end); congruence). subst k'. destruct E as [-> | ->]; [left|right]; now apply new_ok.
Qed.
(** detector within 30 degrees of the plane *)
Definition in_plane (v : vec3) : R := if Rle_dec (Rabs (vy v)) (1 / 2 * speed v) then 1 else 0.
Lemma in_plane_cone s phi : 0 < s -> in_plane (on_cone ez3 ex3 ey3 s (PI / 2) phi) = if Rle_dec (Rabs (sin phi)) (1 / 2) then 1 else 0.
Proof.
  intros S. unfold in_plane. destruct (cone_norm ez3 ex3 ey3 s (PI / 2) phi) as [NC _]; [unfold orthonormal, norm2, sdot, vcross; cbn; repeat split; try ring; unfold ey3; f_equal; ring|].
  rewrite (speed_eq _ s ltac:(lra) NC). replace (vy (on_cone ez3 ex3 ey3 s (PI / 2) phi)) with (s * sin phi) by (unfold on_cone, vscale, vadd; cbn; rewrite sin_PI2; ring). rewrite Rabs_mult, (Rabs_pos_eq s) by lra. destruct (Rle_dec _ _), (Rle_dec _ _); try reflexivity; nra.
Qed.
Lemma sin_small phi : - (PI / 6) <= phi <= PI / 6 -> Rabs (sin phi) <= 1 / 2.
Proof.
  intros H. pose proof PI_RGT_0. apply Rabs_le. rewrite <- sin_PI6. split.
  - rewrite <- sin_neg. apply sin_incr_1; lra.
  - apply sin_incr_1; lra.
Qed.
Lemma sin_big phi : PI / 6 < phi < 5 * PI / 6 -> 1 / 2 < sin phi.
Proof.
  intros H. pose proof PI_RGT_0. rewrite <- sin_PI6. destruct (Rle_dec phi (PI / 2)); [apply sin_increasing_1; lra|]. replace (sin phi) with (sin (PI - phi)) by now rewrite sin_PI_x. apply sin_increasing_1; lra.
Qed.
Lemma focused_in u : 0 < u < 1 -> Rabs (sin (if Rltb (PI / 3) (2 * u * (PI / 3)) then PI + (2 * u * (PI / 3) - PI / 2) else 2 * u * (PI / 3) - PI / 6)) <= 1 / 2.
Proof.
  intros U. pose proof PI_RGT_0. destruct (Rltb _ _) eqn:B.
  - apply Rltb_t in B. rewrite Rplus_comm, neg_sin, Rabs_Ropp. apply sin_small. nra.
  - apply Rltb_f in B. apply sin_small. nra.
Qed.
Lemma window_int : is_RInt (fun u => if Rle_dec (Rabs (sin (PI * (2 * u - 1)))) (1 / 2) then 1 else 0) 0 1 (1 / 3).
Proof.
  pose proof PI_RGT_0 as PP. set (f := fun u => if Rle_dec (Rabs (sin (PI * (2 * u - 1)))) (1 / 2) then 1 else 0).
  assert (ONE : forall a b, a < b -> (forall u, a < u < b -> Rabs (sin (PI * (2 * u - 1))) <= 1 / 2) -> is_RInt f a b (b - a)).
  { intros a b L H. apply (@is_RInt_ext R_NormedModule (fun _ => 1)); [intros u; rewrite Rmin_left, Rmax_right by lra; intros U; unfold f; destruct (Rle_dec _ _) as [|Z]; [reflexivity|elim Z; now apply H]|]. replace (b - a) with (scal (b - a) 1) by (unfold scal; cbn; unfold mult; cbn; ring). apply @is_RInt_const. }
  assert (ZERO : forall a b, a < b -> (forall u, a < u < b -> 1 / 2 < Rabs (sin (PI * (2 * u - 1)))) -> is_RInt f a b 0).
  { intros a b L H. apply (@is_RInt_ext R_NormedModule (fun _ => 0)); [intros u; rewrite Rmin_left, Rmax_right by lra; intros U; unfold f; destruct (Rle_dec _ _) as [Z|]; [specialize (H u U); lra|reflexivity]|]. pose proof (@is_RInt_const R_NormedModule a b 0) as C. change (scal (b - a) (0 : R_NormedModule)) with ((b - a) * 0) in C. rewrite Rmult_0_r in C. exact C. }
  replace (1 / 3) with (plus (plus (plus (plus (1 / 12 - 0) 0) (7 / 12 - 5 / 12)) 0) (1 - 11 / 12)) by (unfold plus; cbn; field).
  apply (@is_RInt_Chasles R_NormedModule) with (11 / 12); [apply (@is_RInt_Chasles R_NormedModule) with (7 / 12); [apply (@is_RInt_Chasles R_NormedModule) with (5 / 12); [apply (@is_RInt_Chasles R_NormedModule) with (1 / 12)|]|]|].
  - apply ONE; [lra|]. intros u U. replace (PI * (2 * u - 1)) with (- (PI - 2 * PI * u)) by ring. rewrite sin_neg, Rabs_Ropp, sin_PI_x. apply sin_small. nra.
  - apply ZERO; [lra|]. intros u U. replace (PI * (2 * u - 1)) with (- (PI * (1 - 2 * u))) by ring. rewrite sin_neg, Rabs_Ropp. pose proof (sin_big (PI * (1 - 2 * u)) ltac:(nra)). rewrite Rabs_pos_eq; lra.
  - apply ONE; [lra|]. intros u U. apply sin_small. nra.
  - apply ZERO; [lra|]. intros u U. pose proof (sin_big (PI * (2 * u - 1)) ltac:(nra)). rewrite Rabs_pos_eq; lra.
  - apply ONE; [lra|]. intros u U. replace (PI * (2 * u - 1)) with (PI - (PI * (2 - 2 * u))) by ring. rewrite sin_PI_x. apply sin_small. nra.
Qed.
Lemma window_open : let k := kernel_of (one_peak q90) 0 in let c := cone_coefficient 1 1 (mkPeak q90 1 1 0 0) in
  meanN 2 (fun l => carried in_plane (outgoing (powder_scatter k (stream l 0) 0 (stream l 1) (zbeam 1)))) (c * (1 / 3)).
Proof.
  intros k c. exists (fun _ => c * (1 / 3)). split; [|apply RInt_const01]. intros u1 U1. exists (fun u => c * (if Rle_dec (Rabs (sin (PI * (2 * u - 1)))) (1 / 2) then 1 else 0)). split.
  - intros u2 U2. cbn [meanN]. change (stream [u1; u2] 0) with u1. change (stream [u1; u2] 1) with u2. unfold k. rewrite (one_scatter q90 1 0 u1 0 u2 _ _ (q90_range 1 ltac:(lra)) (azimuth_zero _ _)). cbn [outgoing carried k_v k_p with_pv]. rewrite q90_near, q90_theta. replace (2 * (PI / 4)) with (PI / 2) by field. pose proof k2v_pos. rewrite in_plane_cone by lra. reflexivity.
  - exact (@is_RInt_scal R_NormedModule _ 0 1 c _ window_int).
Qed.
Lemma window_focused : let k := kernel_of (one_peak q90) 60 in let c := cone_coefficient 1 1 (mkPeak q90 1 1 0 0) in
  meanN 2 (fun l => carried in_plane (outgoing (powder_scatter k (stream l 0) 0 (stream l 1) (zbeam 1)))) c.
Proof.
  intros k c. exists (fun _ => c). split; [|apply RInt_const01]. intros u1 U1. exists (fun u => c). split; [|apply RInt_const01].
  intros u2 U2. cbn [meanN]. change (stream [u1; u2] 0) with u1. change (stream [u1; u2] 1) with u2. unfold k. assert (A := azimuth_60 u2). rewrite <- q90_theta in A at 1. rewrite (one_scatter q90 1 60 u1 0 u2 _ _ (q90_range 1 ltac:(lra)) A). cbn [outgoing carried k_v k_p with_pv]. rewrite q90_near, q90_theta. replace (2 * (PI / 4)) with (PI / 2) by field. pose proof k2v_pos. rewrite in_plane_cone by lra.
  pose proof (focused_in u2 U2) as F. destruct (Rle_dec _ _) as [_|Z]; [unfold c; ring|contradiction].
Qed.
Lemma focus_memory : let k := kernel_of (one_peak q90) 60 in exists k' o,
  powder_scatter k 0 0 0 (zbeam 100) = Ok (k', o) /\ outgoing (powder_scatter k 0 0 0 (zbeam 1)) <> outgoing (powder_scatter k' 0 0 0 (zbeam 1)).
Proof.
  intros k. do 2 eexists. split; [apply (one_scatter q90 100 60 0 0 0 _ _ (q90_range 100 ltac:(lra)) (azimuth_small 0))|].
  unfold k. assert (A := azimuth_60 0). rewrite <- q90_theta in A at 1. rewrite (one_scatter q90 1 60 0 0 0 _ _ (q90_range 1 ltac:(lra)) A). rewrite (one_scatter q90 1 0 0 0 0 _ _ (q90_range 1 ltac:(lra)) (azimuth_zero _ _)). cbn [outgoing]. rewrite q90_near, q90_theta.
  replace (2 * (PI / 4)) with (PI / 2) by field. pose proof PI_RGT_0. rewrite (proj2 (Rltb_f _ _)) by lra. pose proof k2v_pos. intros Z. assert (Z1 : option_map vx (k_v (with_pv (zbeam 1) (cone_coefficient 1 1 (mkPeak q90 1 1 0 0)) (Some (on_cone ez3 ex3 ey3 (1 * k2v) (PI / 2) (2 * 0 * (PI / 3) - PI / 6))))) = option_map vx (k_v (with_pv (zbeam 1) (cone_coefficient 1 1 (mkPeak q90 1 1 0 0)) (Some (on_cone ez3 ex3 ey3 (1 * k2v) (PI / 2) (PI * (2 * 0 - 1))))))) by congruence.
  cbn [option_map k_v with_pv] in Z1. unfold on_cone, ez3, ex3, ey3, vscale, vadd in Z1; cbn [vx vy vz] in Z1. rewrite sin_PI2, cos_PI2 in Z1. replace (2 * 0 * (PI / 3) - PI / 6) with (- (PI / 6)) in Z1 by ring. replace (PI * (2 * 0 - 1)) with (- PI) in Z1 by ring. rewrite !cos_neg, cos_PI in Z1.
  assert (0 < cos (PI / 6)) by (apply cos_gt_0; lra). injection Z1. intros. nra.
Qed.
Lemma forward_stuck : exists v', v' <> e_v (zbeam 1) /\ forall up uw ua, outgoing (powder_scatter (kernel_of (one_peak (1 / 10 ^ 4)) 0) up uw ua (zbeam 1)) = Ok (with_pv (zbeam 1) (cone_coefficient 1 1 (mkPeak (1 / 10 ^ 4) 1 1 0 0)) (Some v')).
Proof.
  set (q := 1 / 10 ^ 4). assert (Q : 0 < q <= 2 * 1) by (unfold q; lra). set (x := q / (2 * 1)). assert (X : -1 <= x <= 1) by (unfold x, q; lra). exists (on_cone ez3 ex3 ey3 (1 * k2v) (2 * asin x) 0). pose proof k2v_pos as KV. split.
  - intros Z. destruct (zbeam_frame 1 ltac:(lra)) as (O & A & _). destruct (cone_transfer (e_v (zbeam 1)) ez3 ex3 ey3 x 0 A O X) as [_ T]. rewrite zbeam_speed in T by lra. rewrite Z in T. replace (vsub (e_v (zbeam 1)) (e_v (zbeam 1))) with (mkV 0 0 0) in T by (cbn; unfold vsub; cbn; f_equal; ring). rewrite (speed_eq (mkV 0 0 0) 0 ltac:(lra) ltac:(unfold norm2, sdot; cbn; ring)) in T. rewrite Rabs_pos_eq in T by (unfold x, q; lra). unfold x, q in T. lra.
  - intros up uw ua. rewrite (one_scatter q 1 0 up uw ua _ _ Q (azimuth_zero _ _)). fold x. cbn [outgoing]. assert (NR : near (2 * asin x) = true). { unfold near. apply Rltb_t. rewrite cos_2a_sin, sin_asin by exact X. unfold x, q. rewrite Rabs_pos_eq; lra. } rewrite NR. reflexivity.
Qed.
