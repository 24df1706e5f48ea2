(** Proofs for C38, second part: the homogeneous scatterer and composites. *)
From Coq Require Import Reals Lra Psatz Sorted.
From Coquelicot Require Import Coquelicot.
From Verif Require Import Base RotModel RotSpec ChanModel ChanProofs ShapeModel ShapeSpec ShapeProofs ShapeProofs2 ScatModel ScatSpec ScatProofs.
Open Scope R_scope.

Lemma len_pos v : v <> mkV 0 0 0 -> 0 < len v.
Proof. apply vnorm_pos. Qed.
Lemma len_ge0 v : 0 <= len v.
Proof. apply sqrt_pos. Qed.
Lemma time_ge0 a v : v <> mkV 0 0 0 -> 0 <= len a / len v.
Proof. intros V. apply Rmult_le_pos; [apply len_ge0|]. left. apply Rinv_0_lt_compat, len_pos, V. Qed.
Lemma attenuation_right tol h ev stop : let r := e_r ev in let v := e_v ev in let T := len (vsub stop r) / len v in
  surveyed tol (h_shape h) r v T ->
  exists d, time_inside (h_shape h) r v T d /\ calculate_attenuation tol h ev stop = exp (- ((mu h ev + sigma h ev) * (len v * d))).
Proof.
  cbv zeta. intros (Ht & PO & ME & V & CL & SEEN).
  destruct (length_right tol (h_shape h) (e_r ev) (e_v ev) (len (vsub stop (e_r ev)) / len (e_v ev)) Ht (positive_wf _ PO) ME V (time_ge0 _ _ V) CL SEEN) as (d & I & E).
  exists d. split; [exact I|]. unfold calculate_attenuation. change (vnorm (vsub stop (e_r ev)) / vnorm (e_v ev)) with (len (vsub stop (e_r ev)) / len (e_v ev)).
  rewrite E. f_equal. ring.
Qed.
Lemma len_line r v T : 0 <= T -> len (vsub (on_line r v T) r) = T * len v.
Proof.
  intros H. unfold len, norm2, sdot, vsub, on_line; cbn.
  replace (_ + _) with (T * T * (vx v * vx v + vy v * vy v + vz v * vz v)) by ring.
  rewrite sqrt_mult_alt by nra. rewrite sqrt_square by exact H. reflexivity.
Qed.
Lemma time_line r v T : 0 <= T -> v <> mkV 0 0 0 -> len (vsub (on_line r v T) r) / len v = T.
Proof. intros H V. rewrite len_line by exact H. field. pose proof (len_pos v V). lra. Qed.

(** ** placed elements *)
Lemma rot_len m v : orthogonal m -> len (dot_mv m v) = len v.
Proof. intros O. unfold len, norm2. now rewrite O. Qed.
Lemma placed_line m p r v t : dot_mv (transpose m) (vsub (on_line r v t) p) = on_line (dot_mv (transpose m) (vsub r p)) (dot_mv (transpose m) v) t.
Proof. rewrite <- line_tr, <- line_rot. reflexivity. Qed.
Lemma core_placed s p m r v t : orthogonal m ->
  core (placed s p m) (on_line r v t) <-> core s (on_line (dot_mv (transpose m) (vsub r p)) (dot_mv (transpose m) v) t).
Proof. intros O. unfold placed. rewrite core_tr, core_rot by exact O. now rewrite placed_line. Qed.
Lemma ind_iff (P Q : Prop) : (P <-> Q) -> indicator P = indicator Q.
Proof.
  intros E. unfold indicator. destruct (ClassicalDedekindReals.sig_not_dec P), (ClassicalDedekindReals.sig_not_dec Q); try reflexivity; exfalso; tauto.
Qed.
Lemma time_placed s p m r v T d : orthogonal m ->
  time_inside (placed s p m) r v T d <-> time_inside s (dot_mv (transpose m) (vsub r p)) (dot_mv (transpose m) v) T d.
Proof.
  intros O. unfold time_inside. split; apply is_RInt_ext; intros x _.
  - now apply ind_iff, core_placed.
  - symmetry. now apply ind_iff, core_placed.
Qed.
Lemma fold_product (f : scatterer * vec3 * mat3 -> R) es : forall a,
  fold_left (fun ret '(s, position, orientation) => ret * f (s, position, orientation)) es a = a * fold_left (fun ret '(s, position, orientation) => ret * f (s, position, orientation)) es 1.
Proof.
  induction es as [|((s & p) & m) es IH]; intros a; cbn [fold_left]; [ring|].
  rewrite (IH (a * _)), (IH (1 * _)). ring.
Qed.
Lemma composite_cons tol s p m es ev stop :
  composite_attenuation tol ((s, p, m) :: es) ev stop = virtual_attenuation tol s (global2local ev p m) stop * composite_attenuation tol es ev stop.
Proof.
  unfold composite_attenuation. cbn [fold_left]. rewrite (fold_product (fun '(s, position, orientation) => virtual_attenuation tol s (global2local ev position orientation) stop) es (1 * _)). ring.
Qed.
Lemma composite_as_computed tol (es : list (hscatterer * vec3 * mat3)) ev stop :
  Forall (fun '(h, p, m) => orthogonal m /\
    surveyed tol (h_shape h) (dot_mv (transpose m) (vsub (e_r ev) p)) (dot_mv (transpose m) (e_v ev)) (flight ev stop p m)) es ->
  exists ds, List.length ds = List.length es /\
    Forall (fun '((h, p, m), d) => time_inside (placed (h_shape h) p m) (e_r ev) (e_v ev) (flight ev stop p m) d) (combine es ds) /\
    composite_attenuation tol (map (fun '(h, p, m) => (Homog h, p, m)) es) ev stop =
      exp (- sum2 (fun '(h, p, m) d => (mu h (global2local ev p m) + sigma h (global2local ev p m)) * (len (e_v ev) * d)) es ds).
Proof.
  induction es as [|((h & p) & m) es IH]; intros F.
  - exists []. split; [reflexivity|]. split; [constructor|]. cbn. unfold sum2; cbn. now rewrite Ropp_0, exp_0.
  - inversion F as [|? ? Q F']; subst. destruct Q as (O & SV). destruct (IH F') as (ds & LE & TI & E).
    pose proof (attenuation_right tol h (global2local ev p m) stop) as AR. cbv zeta in AR. destruct AR as (d & I & A).
    { cbn. unfold flight in SV. now rewrite (rot_len (transpose m)) by now apply orth_transpose. }
    cbn [global2local e_r e_v] in I, A. rewrite (rot_len (transpose m)) in I, A by now apply orth_transpose.
    exists (d :: ds). split; [cbn; now rewrite LE|]. split.
    + cbn [combine]. constructor; [|exact TI]. apply time_placed; [exact O|]. exact I.
    + cbn [map]. rewrite composite_cons, E. cbn [virtual_attenuation]. rewrite A. rewrite <- exp_plus. f_equal. unfold sum2; cbn [combine map fold_right]. ring.
Qed.
Lemma time_longer s r v T1 T2 d : T1 <= T2 -> (forall t, T1 < t < T2 -> ~ core s (on_line r v t)) -> time_inside s r v T1 d <-> time_inside s r v T2 d.
Proof.
  intros L N. unfold time_inside.
  assert (Z : is_RInt (fun t => indicator (core s (on_line r v t))) T1 T2 0).
  { replace 0 with ((T2 - T1) * 0) by ring. apply seg_integral; [exact L|]. intros t Ht. apply ind_0. now apply N. }
  split; intros I.
  - replace d with (plus d 0) by (unfold plus; cbn; ring). exact (@is_RInt_Chasles R_NormedModule _ 0 T1 T2 d 0 I Z).
  - apply is_RInt_swap in Z. replace d with (plus d (opp 0)) by (unfold plus, opp; cbn; ring). exact (@is_RInt_Chasles R_NormedModule _ 0 T2 T1 d (opp 0) I Z).
Qed.
Lemma composite_right tol (es : list (hscatterer * vec3 * mat3)) ev T : 0 <= T -> e_v ev <> mkV 0 0 0 ->
  let stop := on_line (e_r ev) (e_v ev) T in
  Forall (fun '(h, p, m) => orthogonal m /\
    surveyed tol (h_shape h) (dot_mv (transpose m) (vsub (e_r ev) p)) (dot_mv (transpose m) (e_v ev)) (flight ev stop p m) /\
    (forall t, Rmin T (flight ev stop p m) < t < Rmax T (flight ev stop p m) -> ~ core (placed (h_shape h) p m) (on_line (e_r ev) (e_v ev) t))) es ->
  exists ds, List.length ds = List.length es /\
    Forall (fun '((h, p, m), d) => time_inside (placed (h_shape h) p m) (e_r ev) (e_v ev) T d) (combine es ds) /\
    composite_attenuation tol (map (fun '(h, p, m) => (Homog h, p, m)) es) ev stop =
      exp (- sum2 (fun '(h, p, m) d => (mu h (global2local ev p m) + sigma h (global2local ev p m)) * (len (e_v ev) * d)) es ds).
Proof.
  cbv zeta. intros HT V F. set (stop := on_line (e_r ev) (e_v ev) T) in *.
  destruct (composite_as_computed tol es ev stop) as (ds & LE & TI & E).
  { eapply Forall_impl; [|exact F]. intros ((h & p) & m). cbv beta iota. tauto. }
  exists ds. split; [exact LE|]. split; [|exact E]. clear E. revert ds LE TI. induction F as [|((h & p) & m) es Q F IH]; intros ds LE TI.
  - destruct ds; [constructor|discriminate].
  - destruct ds as [|d ds]; [discriminate|]. cbn [combine] in *. inversion TI; subst. constructor; [|apply IH; [cbn in LE; lia|assumption]].
    destruct Q as (O & SV & N). unfold Rmin, Rmax in N. destruct (Rle_dec T (flight ev stop p m)) as [L|L].
    + apply (time_longer _ _ _ _ _ d L N). assumption.
    + apply (time_longer (placed (h_shape h) p m) (e_r ev) (e_v ev) (flight ev stop p m) T d); [lra|exact N|assumption].
Qed.

(** ** witnesses *)
Definition one : vec3 := mkV 0 0 1.
Definition I3m : mat3 := mkM 1 0 0 0 1 0 0 0 1.
Lemma I3m_orth : orthogonal I3m.
Proof. intros a b. unfold sdot, dot_mv, I3m; cbn. ring. Qed.
Lemma I3m_id v : dot_mv (transpose I3m) v = v.
Proof. apply vec_eq; unfold I3m; cbn; ring. Qed.
(* absorbs with coefficient 1, does not scatter *)
Definition absorber : kernel := mkK (fun _ => 1) (fun _ => 0) (fun _ ev => ev) (fun _ ev => ev).
Definition pellet : hscatterer := mkH (Sphere 1) absorber None (mkW 1 1 1) 1 10 0.
Lemma pellet_core z t : core (Sphere 1) (on_line (mkV 0 0 z) one t) <-> -1 < z + t < 1.
Proof. unfold core, body, prim; cbn. split; nra. Qed.
Lemma pellet_border z t : border (Sphere 1) (on_line (mkV 0 0 z) one t) <-> z + t = -1 \/ z + t = 1.
Proof. unfold border, solid, core, body, prim; cbn. split; [intros (A & B)|intros A]; [|split; nra]. assert ((z + t - 1) * (z + t + 1) = 0) by nra. apply Rmult_integral in H. lra. Qed.
Lemma one_nz : one <> mkV 0 0 0.
Proof. intros H. injection H. lra. Qed.
Lemma pellet_locate tol z : 0 < tol < 1 / 10 -> -1/2 <= z <= 1/2 -> locate tol (Sphere 1) (mkV 0 0 z) = Inside.
Proof.
  intros Ht Hz. cbn [locate]. unfold locate_sphere; cbn.
  replace (Rltb tol (0 * 0 + 0 * 0 + z * z - 1 * 1)) with false by (symmetry; apply Rltb_f; nra).
  replace (Rltb tol (1 * 1 - (0 * 0 + 0 * 0 + z * z))) with true by (symmetry; apply Rltb_t; nra). reflexivity.
Qed.
Lemma pellet_locate_out tol z : 0 < tol < 1 / 10 -> z <= -3/2 \/ 3/2 <= z -> locate tol (Sphere 1) (mkV 0 0 z) = Outside.
Proof.
  intros Ht Hz. cbn [locate]. unfold locate_sphere; cbn.
  replace (Rltb tol (0 * 0 + 0 * 0 + z * z - 1 * 1)) with true by (symmetry; apply Rltb_t; nra). reflexivity.
Qed.
Lemma pellet_time z a b T d : z + a = -1 -> z + b = 1 -> 0 <= a -> b <= T -> d = b - a -> time_inside (Sphere 1) (mkV 0 0 z) one T d.
Proof.
  intros A B HA HT ->. unfold time_inside.
  assert (I1 : is_RInt (fun t => indicator (core (Sphere 1) (on_line (mkV 0 0 z) one t))) 0 a 0).
  { pose proof (seg_integral (Sphere 1) (mkV 0 0 z) one 0 a 0 HA) as K. rewrite Rmult_0_r in K. apply K. intros t Ht. apply ind_0. rewrite pellet_core. lra. }
  assert (I2 : is_RInt (fun t => indicator (core (Sphere 1) (on_line (mkV 0 0 z) one t))) a b (b - a)).
  { pose proof (seg_integral (Sphere 1) (mkV 0 0 z) one a b 1 ltac:(lra)) as K. rewrite Rmult_1_r in K. apply K. intros t Ht. apply ind_1. rewrite pellet_core. lra. }
  assert (I3 : is_RInt (fun t => indicator (core (Sphere 1) (on_line (mkV 0 0 z) one t))) b T 0).
  { pose proof (seg_integral (Sphere 1) (mkV 0 0 z) one b T 0 HT) as K. rewrite Rmult_0_r in K. apply K. intros t Ht. apply ind_0. rewrite pellet_core. lra. }
  replace (b - a) with (plus 0 (plus (b - a) 0)) by (unfold plus; cbn; ring).
  apply (@is_RInt_Chasles R_NormedModule _ 0 a T _ _ I1). exact (@is_RInt_Chasles R_NormedModule _ a b T _ _ I2 I3).
Qed.
Lemma len_one : len one = 1.
Proof. unfold len, norm2, sdot, one; cbn. replace (0 * 0 + 0 * 0 + 1 * 1) with (1 * 1) by ring. apply sqrt_square. lra. Qed.
Lemma pellet_surveyed tol z T : 0 < tol < 1 / 10 -> z = -1 -> T = 1 -> surveyed tol (Sphere 1) (mkV 0 0 z) one T.
Proof.
  intros Ht -> ->. split; [lra|]. split; [cbn; lra|]. split; [cbn; auto|]. split; [exact one_nz|].
  assert (X : forall t, In t (intersect tol (Sphere 1) (mkV 0 0 (-1)) one) <-> t = 0 \/ t = 2).
  { intros t. cbn [intersect]. rewrite sphere_in by exact one_nz. rewrite pellet_border. split; lra. }
  split; [|intros t _ B; apply X; rewrite pellet_border in B; lra].
  intros a b A B L N. assert (AB : a = 0 /\ b = 1). { unfold stop_at in A, B. rewrite X in A, B. lra. }
  destruct AB as (-> & ->). replace (on_line (mkV 0 0 (-1)) one ((0 + 1) / 2)) with (mkV 0 0 (-1/2)) by (apply vec_eq; unfold one; cbn; lra).
  rewrite pellet_locate; [discriminate|exact Ht|lra].
Qed.
Lemma vsub_0 p q : vx p - vx q = 0 -> vy p - vy q = 0 -> vsub p q = mkV 0 0 (vz p - vz q).
Proof. intros A B. apply vec_eq; cbn; auto. Qed.
(* a ball of radius 1 at z = -10; a neutron at its front, z = -11, flies to z = -2 *)
Definition shifted_start : event := mkE (mkV 0 0 (-11)) one 0 0 0 1.
Definition shifted_stop : vec3 := mkV 0 0 (-2).
Definition shifted_at : vec3 := mkV 0 0 (-10).
Lemma shifted_wrong tol : 0 < tol < 1 / 10 ->
  shifted_stop = on_line (e_r shifted_start) (e_v shifted_start) 9 /\
  time_inside (placed (Sphere 1) shifted_at I3m) (e_r shifted_start) (e_v shifted_start) 9 2 /\
  composite_attenuation tol [(Homog pellet, shifted_at, I3m)] shifted_start shifted_stop = exp (- 1).
Proof.
  intros Ht. split; [apply vec_eq; unfold one; cbn; lra|]. 
  assert (LR : dot_mv (transpose I3m) (vsub (e_r shifted_start) shifted_at) = mkV 0 0 (-1)).
  { rewrite I3m_id. apply vec_eq; unfold shifted_start, shifted_at; cbn; lra. }
  assert (LV : dot_mv (transpose I3m) (e_v shifted_start) = one) by apply I3m_id.
  split.
  - apply time_placed; [exact I3m_orth|]. rewrite LR, LV. apply (pellet_time (-1) 0 2 9 2); lra.
  - assert (FL : flight shifted_start shifted_stop shifted_at I3m = 1).
    { unfold flight. rewrite LR. change (e_v shifted_start) with one. rewrite len_one. unfold Rdiv. rewrite Rinv_1, Rmult_1_r.
      unfold len, norm2, sdot, shifted_stop, vsub; cbn. replace (_ + _) with (1 * 1) by ring. apply sqrt_square. lra. }
    destruct (composite_as_computed tol [(pellet, shifted_at, I3m)] shifted_start shifted_stop) as (ds & LE & TI & E).
    { constructor; [|constructor]. split; [exact I3m_orth|]. rewrite FL, LR, LV. apply pellet_surveyed; [exact Ht|reflexivity|reflexivity]. }
    cbn [map] in E. rewrite E. destruct ds as [|d [|? ?]]; try discriminate. inversion TI as [|? ? TD _]; subst. clear TI. cbv beta iota in TD. rewrite FL in TD.
    apply (proj1 (time_placed (Sphere 1) shifted_at I3m (e_r shifted_start) (e_v shifted_start) 1 d I3m_orth)) in TD. rewrite LR, LV in TD.
    assert (D1 : d = 1).
    { pose proof (@is_RInt_unique R_CompleteNormedModule _ _ _ _ TD) as U1.
      assert (K : time_inside (Sphere 1) (mkV 0 0 (-1)) one 1 1).
      { pose proof (seg_integral (Sphere 1) (mkV 0 0 (-1)) one 0 1 1 ltac:(lra)) as K. rewrite Rmult_1_r, Rminus_0_r in K. apply K. intros t Htt. apply ind_1. rewrite pellet_core. lra. }
      pose proof (@is_RInt_unique R_CompleteNormedModule _ _ _ _ K) as U2. congruence. }
    subst d. f_equal. unfold sum2, mu, sigma; cbn. change (e_v shifted_start) with one. rewrite len_one. ring.
Qed.
Lemma nested_none tol frame es p m ev stop : composite_attenuation tol [(Comp frame es, p, m)] ev stop = 1.
Proof. unfold composite_attenuation; cbn. ring. Qed.
