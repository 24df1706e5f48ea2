(** Proofs for C76: helium, the pixel, isotropic scattering. *)
From Coq Require Import Reals Lra Lia.
From Coquelicot Require Import Coquelicot.
From Verif Require Import Base RotModel RotSpec RotProofs ChanModel ChanProofs ShapeModel ShapeSpec ShapeProofs ShapeProofs2 GridProofs ScatModel ScatSpec HitModel HitSpec HitProofs HitProofs2 HitProofs3 UnitModel UnitSpec UnitProofs KinModel KinSpec KinProofs KinProofs2 KinProofs3 KinProofs4 CmpsModel CmpsSpec CmpsProofs CmpsProofs3 CmpsProofs4 PixModel PixSpec.
Open Scope R_scope.

Lemma pix_energy_pos : forall v, v <> mkV 0 0 0 -> 0 < v2E (vnorm v).
Proof. intros v N. pose proof (vnorm_pos v N). unfold v2E. pose proof vsq2e_pos. apply Rmult_lt_0_compat; nra. Qed.
Lemma he3_value : forall p ev, e_v ev <> mkV 0 0 0 -> he3_absorption p ev = Some (he3_inverse_length p (v2E (vnorm (e_v ev)))).
Proof.
  intros p ev N. pose proof (pix_energy_pos _ N). unfold he3_absorption. cbv zeta. rewrite (proj2 (Reqb_f _ 0)) by lra. f_equal. unfold he3_inverse_length, wavelength. field.
Qed.
Lemma he3_python : forall E p, 0 < E -> he3_absorption_coeff E p = Ok (he3_inverse_length (p * 101325) E).
Proof.
  intros E p P. unfold he3_absorption_coeff, divide. destruct (Req_EM_T E 0) as [Z|_]; [lra|]. cbn [bind].
  rewrite (proj2 (Rltb_f _ 0)) by (apply Rmult_le_pos; [lra|apply Rlt_le, Rinv_0_lt_compat; lra]). f_equal. unfold he3_inverse_length, wavelength. field.
Qed.
Lemma wavelength_scale : forall s k, 0 < s -> 0 < k -> wavelength (v2E (k * s)) = wavelength (v2E s) / k.
Proof.
  intros s k S K. unfold wavelength, v2E. pose proof vsq2e_pos. replace (8181 / 100 / (k * s * (k * s) * vsq2e)) with (8181 / 100 / (s * s * vsq2e) / (k * k)) by (field; lra).
  rewrite sqrt_div_alt by nra. rewrite sqrt_square by lra. reflexivity.
Qed.

Section pixel.
Context (tol : R) (px : pixel) (ev : event) (a b : R) (T : 0 < tol) (PA : passes tol (px_shape px) ev a b).
Notation s := (px_shape px).
Notation K := (he3_inverse_length (px_pressure px) (v2E (vnorm (e_v ev)))).
(** The weight with which the neutron leaves. *)
Definition detected : R :=
  if Rlt_dec (px_tof px) (e_t ev + a) then epsilon else if Rlt_dec (e_t ev + b) (px_tof px) then epsilon
  else e_p ev * (K * ((b - a) * vnorm (e_v ev)) * exp (- K * ((px_tof px - (e_t ev + a)) * vnorm (e_v ev)))).
Lemma search_set_p : forall x p w l, search tol s (set_p x p) w l = search tol s x w l.
Proof. intros x p w. induction l as [|t l IH]; [reflexivity|]. cbn [search]. rewrite IH. reflexivity. Qed.
Lemma incident_set_p : forall x p y, propagate_to_next_incident_surface tol x s = Ok y -> propagate_to_next_incident_surface tol (set_p x p) s = Ok (set_p y p).
Proof.
  intros x p y. unfold propagate_to_next_incident_surface. change (locate_ev tol (set_p x p) s) with (locate_ev tol x s). change (forward_tofs tol (set_p x p) s) with (forward_tofs tol x s).
  rewrite search_set_p. destruct (locate_ev tol x s); [discriminate| |].
  all: try (destruct (search tol s x Outside _); intros H; injection H as <-; reflexivity).
  destruct (forward_tofs tol x s); intros H; injection H as <-; reflexivity.
Qed.
Lemma exit_set_p : forall x p y, propagate_to_next_exiting_surface tol x s = Ok y -> propagate_to_next_exiting_surface tol (set_p x p) s = Ok (set_p y p).
Proof.
  intros x p y.
  assert (G : forall x1 y1 p, (if negb (loc_eqb (locate_ev tol x1 s) Onborder) then Err CppException
      else match search tol s x1 Inside (forward_tofs tol x1 s) with Some t => Ok (propagate x1 t) | None => Ok x1 end) = Ok y1 ->
    (if negb (loc_eqb (locate_ev tol (set_p x1 p) s) Onborder) then Err CppException
      else match search tol s (set_p x1 p) Inside (forward_tofs tol (set_p x1 p) s) with Some t => Ok (propagate (set_p x1 p) t) | None => Ok (set_p x1 p) end) = Ok (set_p y1 p)).
  { intros x1 y1 q. change (locate_ev tol (set_p x1 q) s) with (locate_ev tol x1 s). change (forward_tofs tol (set_p x1 q) s) with (forward_tofs tol x1 s). rewrite search_set_p.
    destruct (negb _); [discriminate|]. destruct (search tol s x1 Inside _); intros H; injection H as <-; reflexivity. }
  unfold propagate_to_next_exiting_surface. change (locate_ev tol (set_p x p) s) with (locate_ev tol x s) at 1. destruct (locate_ev tol x s) eqn:L.
  - change (forward_tofs tol (set_p x p) s) with (forward_tofs tol x s). destruct (forward_tofs tol x s); [discriminate|]. intros H; injection H as <-. reflexivity.
  - cbn [loc_eqb bind]. rewrite <- L in *. apply G.
  - cbn [loc_eqb]. destruct (propagate_to_next_incident_surface tol x s) as [x1|] eqn:E; cbn [bind]; [|discriminate]. rewrite (incident_set_p x p x1 E). cbn [bind]. apply G.
Qed.
Lemma pixel_weight : pixel_interact tol px ev = Ok (NoInteraction, set_p (later ev b) detected).
Proof using T PA.
  destruct PA as (PL & PO & RG & AP & EE & OUT & MID & SP).
  assert (V : e_v ev <> mkV 0 0 0). { intros E. rewrite E in SP. replace (vdot (mkV 0 0 0) (mkV 0 0 0)) with 0 in SP by (unfold vdot; cbn; ring). rewrite sqrt_0 in SP. lra. }
  unfold pixel_interact. cbv zeta. unfold locate_ev at 1. rewrite OUT. cbn [loc_eqb]. rewrite (body_to tol s PL PO ev a b V EE RG OUT AP). cbn [bind].
  assert (X : forall p, propagate_to_next_exiting_surface tol (set_p (later ev a) p) s = Ok (set_p (later ev b) p)) by (intros p; apply exit_set_p; exact (body_exit tol s T PL PO ev a b V EE RG MID)).
  assert (I2 : tof_before_exit tol (later ev a) s = Ok (b - a)).
  { unfold tof_before_exit. rewrite (body_here tol s T PL PO ev a b V EE RG), (body_forward tol s T PL PO ev a b V EE RG MID). cbn [loc_eqb]. now rewrite (body_search tol s T PL PO ev a b V EE RG MID). }
  unfold detected. cbn [e_t later]. destruct (Rlt_dec (px_tof px) (e_t ev + a)) as [L|L].
  - rewrite (proj2 (Rltb_t _ _)) by exact L. cbn [bind]. rewrite X. reflexivity.
  - rewrite (proj2 (Rltb_f _ _)) by lra. rewrite I2. cbn [bind]. replace (e_t ev + a + (b - a)) with (e_t ev + b) by ring. destruct (Rlt_dec (e_t ev + b) (px_tof px)) as [L2|L2].
    + rewrite (proj2 (Rltb_t _ _)) by exact L2. cbn [bind]. rewrite X. reflexivity.
    + rewrite (proj2 (Rltb_f _ _)) by lra. rewrite (he3_value (px_pressure px) (later ev a) V). cbn [bind e_v later]. unfold he3_scattering. rewrite Rplus_0_r.
      change (scale_p (later ev a) ?k) with (set_p (later ev a) (e_p ev * k)). rewrite X. reflexivity.
Qed.
End pixel.

Lemma pixel_mean : forall (K s w : R) (t0 a b p : R), a < b -> 
  is_RInt (fun t => p * (K * ((b - a) * s) * exp (- K * ((t - (t0 + a)) * s)))) (t0 + a) (t0 + b) ((b - a) * (p * (1 - exp (- K * ((b - a) * s))))).
Proof.
  intros K s w t0 a b p L. set (F := fun t => - (b - a) * p * exp (- K * ((t - (t0 + a)) * s))).
  replace ((b - a) * (p * (1 - exp (- K * ((b - a) * s))))) with (F (t0 + b) - F (t0 + a)).
  2:{ unfold F. replace (t0 + b - (t0 + a)) with (b - a) by ring. replace (t0 + a - (t0 + a)) with 0 by ring. replace (- K * (0 * s)) with 0 by ring. rewrite exp_0. ring. }
  apply (is_RInt_derive (V := R_CompleteNormedModule) F).
  - intros x _. unfold F. auto_derive; [exact I|]. change (x + - (t0 + a)) with (x - (t0 + a)). ring.
  - intros x _. apply (ex_derive_continuous (V := R_NormedModule)). auto_derive. exact I.
Qed.

Lemma isotropic_mean : forall (G : vec3 -> R) (J : R -> R) (I : R) ev,
  (forall theta, 0 < theta < PI -> is_RInt (fun phi => G (vscale (speed (e_v ev)) (polar theta phi))) 0 (2 * PI) (J theta)) -> is_RInt (fun theta => sin theta * J theta) 0 PI I ->
  meanN 2 (fun l => e_p (isotropic_S (stream l 0) (stream l 1) ev) * G (e_v (isotropic_S (stream l 0) (stream l 1) ev))) (e_p ev * (I / (4 * PI))).
Proof.
  intros G J I ev A B. pose proof PI_RGT_0 as PP.
  exists (fun u1 => e_p ev / (4 * PI) * ((PI - 0) * (sin (random u1 0 PI) * J (random u1 0 PI)))). split.
  - intros u1 U1. pose proof (random_open u1 0 PI U1 PP) as TH. set (th := random u1 0 PI) in *.
    exists (fun u2 => e_p ev * (sin th / 4) * ((2 * PI - 0) * G (vscale (speed (e_v ev)) (polar th (random u2 0 (2 * PI)))))). split.
    + intros u2 _. cbn [meanN]. change (stream [u1; u2] 0) with u1. change (stream [u1; u2] 1) with u2. unfold isotropic_S. cbv zeta. fold th. cbn [e_p e_v].
      change (vnorm (e_v ev)) with (speed (e_v ev)). rewrite (Rmult_comm PI 2). unfold polar, vscale. cbn [vx vy vz].
      rewrite !Rmult_assoc. match goal with |- _ * (_ * (_ * ?g1)) = _ => set (g := g1) end. field.
    + replace (e_p ev / (4 * PI) * ((PI - 0) * (sin th * J th))) with (e_p ev * (sin th / 4) * J th) by (field; lra).
      exact (scaled_int_k (fun phi => G (vscale (speed (e_v ev)) (polar th phi))) 0 (2 * PI) _ _ (A th TH)).
  - replace (e_p ev * (I / (4 * PI))) with (e_p ev / (4 * PI) * I) by (field; lra). exact (scaled_int_k (fun theta => sin theta * J theta) 0 PI _ I B).
Qed.
