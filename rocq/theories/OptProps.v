(** C87: neutrons between McStas components fly as bodies do, to the plane they are sent to.
    C88: slits, beamstops and collimators let through what goes through their openings.
    C89: disk choppers let through what meets a slit. *)
From Coq Require Import Reals Lra Lia Psatz ZArith.
From Verif Require Import Base RotModel ChanModel ChanProofs ShapeModel GridProofs OptModel OptSpec OptProofs OptProofs2 OptProofs3.
Open Scope R_scope.

(** ** C87 *)

(** PROP_DT moves a neutron by the laws of flight; times below -1e-15 absorb it where it is. *)
Theorem C87_prop_dt : forall s g r, let a := match g with Some a => a | None => weightless end in
  (s < - / 10 ^ 15 -> lost r (prop_dt s g r)) /\ (- / 10 ^ 15 <= s -> flown a r s (prop_dt s g r) /\ energy a (prop_dt s g r) = energy a r).
Proof. intros s g r a. destruct (prop_dt_spec s g r) as [A B]. split; [exact A|]. intros H. split; [exact (B H)|eapply flown_energy; exact (B H)]. Qed.
Print Assumptions C87_prop_dt.
Example prop_dt_case : - / 10 ^ 15 <= 2 /\ r_pos (prop_dt 2 (Some (gravity (mkV 0 (-1) 0))) (mkRay (mkV 0 0 0) (mkV 0 1 10) 0 0 0 1)) = mkV 0 (2 - 98 / 5) 20.
Proof.
  assert (P : 0 < / 10 ^ 15) by (apply Rinv_0_lt_compat, pow_lt; lra). split; [lra|]. unfold prop_dt. rewrite (proj2 (Rltb_f _ _)) by lra. unfold prop_dt_withgravity, gravity. cbn [vx vy vz r_pos r_vel]. f_equal; field.
Qed.

(** PROP_Z0 without gravity brings a neutron to z = 0 on its line, at the one time it is there; a neutron that flies along the plane is absorbed where it is. *)
Theorem C87_plane : forall r,
  (vz (r_vel r) <> 0 -> exists s, flown weightless r s (prop_z0 None r) /\ vz (r_pos (prop_z0 None r)) = 0 /\ forall s', coordinate 0 (vz (r_vel r)) (vz (r_pos r)) s' = 0 -> s' = s) /\
  (vz (r_vel r) = 0 -> lost r (prop_z0 None r)).
Proof.
  intros r. split; [|apply z0_none_lost]. intros N. destruct (z0_none r N) as [F Z]. eexists. split; [exact F|]. split; [exact Z|]. intros s' H. now apply crossing_unique.
Qed.
Print Assumptions C87_plane.
Example plane_case : vz (r_vel (mkRay (mkV 0 0 (-2)) (mkV 1 0 4) 0 0 0 1)) <> 0 /\ r_pos (prop_z0 None (mkRay (mkV 0 0 (-2)) (mkV 1 0 4) 0 0 0 1)) = mkV (1 / 2) 0 0.
Proof. split; [cbn; lra|]. cbn. unfold prop_z0_nogravity. rewrite (proj2 (Reqb_f _ _)) by (cbn; lra). unfold prop_dt_nogravity. cbn. f_equal; field. Qed.

(** "A neutron does not go back in time": false without gravity, where PROP_Z0 does not look at the sign of the time. *)
Theorem C87_forward_refuted : ~ forall r, r_p r >= 0 -> ~ absorbed (prop_z0 None r) -> r_t r <= r_t (prop_z0 None r).
Proof.
  intros H. specialize (H (mkRay (mkV 0 0 1) (mkV 0 0 1) 0 0 0 1)). cbn in H. unfold prop_z0_nogravity in H. rewrite (proj2 (Reqb_f _ _)) in H by (cbn; lra). unfold prop_dt_nogravity, absorbed in H. cbn in H. lra.
Qed.
Print Assumptions C87_forward_refuted.

(** PROP_Z0 with gravity: a neutron that starts towards the plane comes to it at the first time its path meets it; every other neutron is absorbed where it is.
    The acceleration across the plane is at least 2e-10. *)
Theorem C87_plane_gravity : forall a r, / 10 ^ 10 <= Rabs (vz a / 2) -> let z := coordinate (vz a) (vz (r_vel r)) (vz (r_pos r)) in
  (vz (r_pos r) * vz (r_vel r) < 0 -> (exists s, 0 < s /\ z s = 0) ->
     exists m, 0 < m /\ z m = 0 /\ (forall s, 0 <= s < m -> z s <> 0) /\ flown a r m (prop_z0 (Some a) r) /\ energy a (prop_z0 (Some a) r) = energy a r) /\
  (0 <= vz (r_pos r) * vz (r_vel r) \/ (forall s, 0 < s -> z s <> 0) -> lost r (prop_z0 (Some a) r)).
Proof.
  intros a r B z. destruct (z0_gravity a r B) as [Y N]. fold z in Y, N. split.
  - intros T (s & S & Z). destruct (Y T s S Z) as (m & M & ZM & F & FL). exists m. repeat (split; [assumption|]). eapply flown_energy. exact FL.
  - intros H. apply N. tauto.
Qed.
Print Assumptions C87_plane_gravity.
Example plane_gravity_case : let a := mkV 0 0 (-2) in let r := mkRay (mkV 0 0 2) (mkV 0 0 (-1)) 0 0 0 1 in
  / 10 ^ 10 <= Rabs (vz a / 2) /\ vz (r_pos r) * vz (r_vel r) < 0 /\ coordinate (vz a) (vz (r_vel r)) (vz (r_pos r)) 1 = 0.
Proof.
  cbn [vz r_pos r_vel]. split; [|split; [lra|unfold coordinate; field]]. replace (-2 / 2) with (-(1)) by field. rewrite Rabs_Ropp, Rabs_R1. rewrite <- Rinv_1. apply Rinv_le_contravar; [lra|]. apply pow_R1_Rle. lra.
Qed.
(** With less acceleration across the plane the time is that of a straight line, and the neutron is off the plane by the fall in that time. *)
Theorem C87_plane_gravity_along : forall a r, Rabs (vz a / 2) < / 10 ^ 10 -> let s := - vz (r_pos r) / vz (r_vel r) in
  (vz (r_vel r) <> 0 /\ 0 < s -> flown a r s (prop_z0 (Some a) r) /\ vz (r_pos (prop_z0 (Some a) r)) = vz a * s ^ 2 / 2) /\
  (vz (r_vel r) = 0 \/ s <= 0 -> lost r (prop_z0 (Some a) r)).
Proof. exact z0_gravity_small. Qed.
Print Assumptions C87_plane_gravity_along.
Example plane_gravity_along_case : let a := gravity (mkV 0 (-1) 0) in let r := mkRay (mkV 0 0 (-3)) (mkV 0 0 1) 0 0 0 1 in
  Rabs (vz a / 2) < / 10 ^ 10 /\ vz (r_vel r) <> 0 /\ 0 < - vz (r_pos r) / vz (r_vel r).
Proof. cbn. replace (0 * (98 / 10) / 2) with 0 by field. rewrite Rabs_R0. split; [apply Rinv_0_lt_compat; lra|]. split; lra. Qed.

(** "With gravity a neutron whose path meets the plane is not absorbed": false for one thrown away from the plane that falls back to it, and for one on the plane. *)
Theorem C87_falls_back_refuted :
  (exists a r s, 0 < s /\ coordinate (vz a) (vz (r_vel r)) (vz (r_pos r)) s = 0 /\ absorbed (prop_z0 (Some a) r)) /\
  (forall a r, vz (r_pos r) = 0 -> absorbed (prop_z0 (Some a) r)).
Proof.
  split.
  - exists (mkV 0 0 (-2)), (mkRay (mkV 0 0 2) (mkV 0 0 1) 0 0 0 1), 2. split; [lra|]. split; [unfold coordinate; cbn; field|]. apply (lost_absorbed (mkRay (mkV 0 0 2) (mkV 0 0 1) 0 0 0 1)).
    apply (proj2 (z0_gravity (mkV 0 0 (-2)) (mkRay (mkV 0 0 2) (mkV 0 0 1) 0 0 0 1) (proj1 plane_gravity_case))). right. cbn. lra.
  - intros a r Z. apply (lost_absorbed r). destruct (Rle_lt_dec (/ 10 ^ 10) (Rabs (vz a / 2))) as [B|S].
    + apply (proj2 (z0_gravity a r B)). right. rewrite Z. lra.
    + apply (proj2 (z0_gravity_small a r S)). right. rewrite Z. unfold Rdiv. lra.
Qed.
Print Assumptions C87_falls_back_refuted.

(** PROP_X0 is PROP_Z0 with x and z exchanged. *)
Theorem C87_plane_x : forall g r, prop_x0 g r = turned_ray (prop_z0 (match g with Some a => Some (turn a) | None => None end) (turned_ray r)).
Proof. exact x0_turned. Qed.
Print Assumptions C87_plane_x.
Example plane_x_case : r_pos (prop_x0 None (mkRay (mkV (-2) 0 0) (mkV 4 0 1) 0 0 0 1)) = mkV 0 0 (1 / 2).
Proof. rewrite x0_turned. pose proof plane_case as [_ E]. unfold turned_ray, turn. cbn [vx vy vz r_pos r_vel r_t r_s1 r_s2 r_p]. rewrite E. reflexivity. Qed.

(** ** C88 *)

(** A slit needs an opening; a width or height above 0 replaces the limits. *)
Theorem C88_slit_init : forall o w h,
  let o' := mkOp (if Rlt_dec 0 w then - (w / 2) else xmin o) (if Rlt_dec 0 w then w / 2 else xmax o) (if Rlt_dec 0 h then - (h / 2) else ymin o) (if Rlt_dec 0 h then h / 2 else ymax o) (radius o) in
  (slit_init o w h = Ok o' /\ (xmin o' <> 0 \/ xmax o' <> 0 \/ ymin o' <> 0 \/ ymax o' <> 0 \/ radius o' <> 0)) \/
  (slit_init o w h = Err Terminated /\ xmin o' = 0 /\ xmax o' = 0 /\ ymin o' = 0 /\ ymax o' = 0 /\ radius o' = 0).
Proof. exact slit_init_spec. Qed.
Print Assumptions C88_slit_init.
Example slit_init_case : slit_init (mkOp 0 0 0 0 0) 2 4 = Ok (mkOp (- (2 / 2)) (2 / 2) (- (4 / 2)) (4 / 2) 0).
Proof. unfold slit_init. rewrite !(proj2 (Rltb_t _ _)) by lra. cbn. rewrite (proj2 (Reqb_f (- (2 / 2)) 0)) by lra. reflexivity. Qed.

(** A neutron passes a slit exactly if it meets the plane in the opening and its weight is not below the cut; it is then on the plane, with all else as before. *)
Theorem C88_slit : forall o cut r, r_p r >= 0 ->
  (forall x y, vz (r_vel r) <> 0 -> meets r x y ->
     (in_opening o x y -> cut <= r_p r -> vz (r_pos (slit_trace None o cut r)) = 0 /\ (exists s, flown weightless r s (slit_trace None o cut r)) /\ ~ absorbed (slit_trace None o cut r)) /\
     (~ in_opening o x y \/ r_p r < cut -> absorbed (slit_trace None o cut r))) /\
  (vz (r_vel r) = 0 -> absorbed (slit_trace None o cut r)).
Proof.
  intros o cut r P. split; [|apply slit_parallel]. intros x y N M. destruct (slit_pass o cut r x y N M) as [A B]. split; [|exact B].
  intros I C. destruct (A I C) as [Z (s & F)]. split; [exact Z|]. split; [eauto|]. destruct F as (_ & _ & _ & _ & _ & _ & _ & _ & _ & E). unfold absorbed. rewrite E. lra.
Qed.
Print Assumptions C88_slit.
Example slit_case : let o := mkOp (-1) 1 (-1) 1 0 in let r := mkRay (mkV 0 0 (-2)) (mkV 1 0 4) 0 0 0 1 in
  r_p r >= 0 /\ vz (r_vel r) <> 0 /\ meets r (1 / 2) 0 /\ in_opening o (1 / 2) 0 /\ 0 <= r_p r.
Proof.
  cbn. split; [lra|]. split; [lra|]. split; [exists (1 / 2); unfold coordinate; cbn; repeat split; field|]. split; [|lra]. unfold in_opening. cbn. split; lra.
Qed.

(** The same with gravity in the plane of the slit: the neutron has fallen when it comes to the slit, and only later times count. *)
Theorem C88_slit_gravity : forall a o cut r, vz a = 0 -> let s := - vz (r_pos r) / vz (r_vel r) in
  let x := coordinate (vx a) (vx (r_vel r)) (vx (r_pos r)) s in let y := coordinate (vy a) (vy (r_vel r)) (vy (r_pos r)) s in
  (vz (r_vel r) <> 0 -> 0 < s -> in_opening o x y -> cut <= r_p r -> vz (r_pos (slit_trace (Some a) o cut r)) = 0 /\ flown a r s (slit_trace (Some a) o cut r)) /\
  (vz (r_vel r) = 0 \/ s <= 0 \/ ~ in_opening o x y \/ r_p r < cut -> absorbed (slit_trace (Some a) o cut r)).
Proof. exact slit_gravity. Qed.
Print Assumptions C88_slit_gravity.
Example slit_gravity_case : let a := gravity (mkV 0 (-1) 0) in let o := mkOp (-1) 1 (-5) (-4) 0 in let r := mkRay (mkV 0 0 (-1)) (mkV 0 0 1) 0 0 0 1 in
  vz a = 0 /\ in_opening o (coordinate (vx a) 0 0 1) (coordinate (vy a) 0 0 1).
Proof. cbn. split; [lra|]. unfold in_opening, coordinate. cbn. split; lra. Qed.

(** A beamstop absorbs exactly the neutrons whose line meets it; all others are as before. *)
Theorem C88_beamstop : forall o r x y, vz (r_vel r) <> 0 -> meets r x y ->
  (on_stop o x y -> absorbed (beamstop_trace None o r)) /\ (~ on_stop o x y -> beamstop_trace None o r = r).
Proof. exact stop_pass. Qed.
Print Assumptions C88_beamstop.
Example beamstop_case : let o := mkOp 0 0 0 0 1 in let r := mkRay (mkV 0 0 (-2)) (mkV 1 0 4) 0 0 0 1 in
  beamstop_init o = Ok o /\ vz (r_vel r) <> 0 /\ meets r (1 / 2) 0 /\ on_stop o (1 / 2) 0.
Proof.
  cbv zeta. split; [unfold beamstop_init; cbn; rewrite !(proj2 (Reqb_t 0 0) eq_refl), (proj2 (Reqb_f 1 0)) by lra; reflexivity|]. cbn. split; [lra|]. split; [exists (1 / 2); unfold coordinate; cbn; repeat split; field|]. unfold on_stop. cbn. split; lra.
Qed.
(** "A beamstop absorbs only what meets its plane": false for a neutron that flies along the plane at a distance. *)
Theorem C88_beamstop_parallel_refuted : exists o r, beamstop_init o = Ok o /\ r_p r > 0 /\ (forall x y, ~ meets r x y) /\ absorbed (beamstop_trace None o r).
Proof.
  exists (mkOp 0 0 0 0 1), (mkRay (mkV 0 0 5) (mkV 1 0 0) 0 0 0 1). split; [exact (proj1 beamstop_case)|]. split; [cbn; lra|]. split.
  - intros x y (s & Z & _). unfold coordinate in Z. cbn in Z. lra.
  - destruct (stop_after None (mkOp 0 0 0 0 1) (mkRay (mkV 0 0 5) (mkV 1 0 0) 0 0 0 1)) as [(_ & L)|(I & _)]; [eapply lost_absorbed; exact L|].
    exfalso. apply I. cbn. unfold prop_z0_nogravity. cbn. rewrite (proj2 (Reqb_t 0 0) eq_refl). unfold on_stop. cbn. split; lra.
Qed.
Print Assumptions C88_beamstop_parallel_refuted.

(** A neutron that flies forward passes a linear collimator exactly if it is in the frame at both ends and the plates of both directions let its slope pass; its
    weight is multiplied with the factor of each set of plates, and it is at the exit. *)
Theorem C88_collimator : forall o len sl sv T r x y, 0 <= len -> 0 < vz (r_vel r) -> meets r x y ->
  let x2 := x + vx (r_vel r) / vz (r_vel r) * len in let y2 := y + vy (r_vel r) / vz (r_vel r) * len in
  let hx := Rabs (vx (r_vel r) / vz (r_vel r)) in let hy := Rabs (vy (r_vel r) / vz (r_vel r)) in
  exists r', collimator_trace None o len sl sv T r = Ok r' /\
    (forall fx fy, in_frame o x y -> in_frame o x2 y2 -> plates T sl hx fx -> plates T sv hy fy ->
       r_p r' = r_p r * fx * fy /\ vz (r_pos r') = len /\ exists s, flown weightless r s (with_p r' (r_p r))) /\
    (~ in_frame o x y \/ ~ in_frame o x2 y2 \/ (forall f, ~ plates T sl hx f) \/ (forall f, ~ plates T sv hy f) -> absorbed r').
Proof. exact collimator_spec. Qed.
Print Assumptions C88_collimator.
Example collimator_case : let o := mkOp (-1) 1 (-1) 1 0 in let r := mkRay (mkV 0 0 (-2)) (mkV 1 0 4) 0 0 0 1 in
  0 <= 1 /\ 0 < vz (r_vel r) /\ meets r (1 / 2) 0 /\ in_frame o (1 / 2) 0 /\ in_frame o (1 / 2 + 1 / 4 * 1) (0 + 0 / 4 * 1) /\ plates (9 / 10) (1 / 2) (Rabs (1 / 4)) (9 / 20) /\ plates (9 / 10) 0 (Rabs (0 / 4)) 1.
Proof.
  cbn. split; [lra|]. split; [lra|]. split; [exists (1 / 2); unfold coordinate; cbn; repeat split; field|]. unfold in_frame, plates. cbn. split; [lra|]. split; [lra|]. split; [|split; [lra|reflexivity]].
  rewrite Rabs_right by lra. split; [intros; split; [lra|field]|lra].
Qed.
(** The factor is between 0 and 1 and the slope that passes is that of the divergence in minutes of arc. *)
Theorem C88_divergence : forall T d q f, 0 <= T <= 1 -> 0 < d < 5400 -> 0 <= q ->
  (plates T (slope_of d) q f -> 0 <= f <= 1) /\ (atan q <= PI / 10800 * d <-> exists f, plates T (slope_of d) q f).
Proof.
  intros T d q f HT D Q. split; [now apply plates_bound|]. destruct (slope_angle d q D) as [S I]. rewrite <- I. split.
  - intros H. exists (T * (1 - q / slope_of d)). split; [tauto|lra].
  - intros (f' & P & _). now apply P.
Qed.
Print Assumptions C88_divergence.
Example divergence_case : exists f, plates 1 (slope_of 2700) 1 f.
Proof. apply (proj2 (C88_divergence 1 2700 1 0 ltac:(lra) ltac:(lra) ltac:(lra))). rewrite atan_1. lra. Qed.
(** A neutron along the plane is absorbed or has no defined state (inf and nan) afterwards. *)
Theorem C88_collimator_parallel : forall o len sl sv T r, vz (r_vel r) = 0 ->
  (exists r', collimator_trace None o len sl sv T r = Ok r' /\ absorbed r') \/ collimator_trace None o len sl sv T r = Err ZeroDivisionError.
Proof. exact collimator_parallel. Qed.
Print Assumptions C88_collimator_parallel.
Example collimator_parallel_case : collimator_trace None (mkOp (-1) 1 (-1) 1 0) 1 1 1 1 (mkRay (mkV 0 0 0) (mkV 1 0 0) 0 0 0 1) = Err ZeroDivisionError.
Proof.
  unfold collimator_trace. cbn. unfold prop_z0_nogravity. cbn. rewrite (proj2 (Reqb_t 0 0) eq_refl). unfold outside. cbn. rewrite !(proj2 (Rltb_f _ _)) by lra. cbn. unfold quot. now rewrite (proj2 (Reqb_t 0 0) eq_refl).
Qed.
(** "The transmission is taken once": false with plates in both directions, and it is not taken without plates. *)
Theorem C88_transmission_refuted : exists o r T, 0 < T < 1 /\
  (exists r', collimator_trace None o 1 1 1 T r = Ok r' /\ r_p r' = T * T * r_p r /\ r_p r > 0) /\ (exists r', collimator_trace None o 1 0 0 T r = Ok r' /\ r_p r' = r_p r).
Proof.
  exists (mkOp (-1) 1 (-1) 1 0), (mkRay (mkV 0 0 (-1)) (mkV 0 0 1) 0 0 0 1), (1 / 2). split; [lra|].
  assert (M : meets (mkRay (mkV 0 0 (-1)) (mkV 0 0 1) 0 0 0 1) 0 0) by (exists 1; unfold coordinate; cbn; repeat split; field).
  assert (Z : Rabs (0 / 1) = 0) by (replace (0 / 1) with 0 by field; apply Rabs_R0).
  split.
  - destruct (collimator_spec (mkOp (-1) 1 (-1) 1 0) 1 1 1 (1 / 2) (mkRay (mkV 0 0 (-1)) (mkV 0 0 1) 0 0 0 1) 0 0) as (r' & E & A & _); [lra|cbn; lra|exact M|]. exists r'. split; [exact E|].
    cbn [r_vel r_pos r_p vx vy vz] in A. destruct (A (1 / 2) (1 / 2)) as (P & _).
    + unfold in_frame. cbn. lra. + unfold in_frame. cbn. lra. + unfold plates. rewrite Z. split; [intros; split; [lra|field]|lra]. + unfold plates. rewrite Z. split; [intros; split; [lra|field]|lra].
    + cbn. rewrite P. lra.
  - destruct (collimator_spec (mkOp (-1) 1 (-1) 1 0) 1 0 0 (1 / 2) (mkRay (mkV 0 0 (-1)) (mkV 0 0 1) 0 0 0 1) 0 0) as (r' & E & A & _); [lra|cbn; lra|exact M|]. exists r'. split; [exact E|].
    cbn [r_vel r_pos r_p vx vy vz] in A. destruct (A 1 1) as (P & _).
    + unfold in_frame. cbn. lra. + unfold in_frame. cbn. lra. + unfold plates. split; [lra|reflexivity]. + unfold plates. split; [lra|reflexivity].
    + cbn. rewrite P. lra.
Qed.
Print Assumptions C88_transmission_refuted.

(** ** C89 *)

(** INITIALIZE of DiskChopper_v2: what is left is a disk with the given geometry, speed and delay. *)
Theorem C89_disk : forall th rad yh nu n j d first np ao ph xw c, chopper2_init th rad yh nu n j d first np ao ph xw = Ok c ->
  disk c /\ c_radius c = rad /\ c_n c = n /\ c_jitter c = j /\ c_first c = first /\ c_npulse c = np /\ c_absout c = ao /\
  c_height c = (if Req_EM_T yh 0 then rad else yh) /\ c_delta_y c = rad - c_height c / 2 /\
  (nu <> 0 -> c_omega c = 2 * PI * nu) /\ (th <> 0 -> c_theta0 c = th * (PI / 180)) /\
  (ph = 0 -> c_delay c = d) /\ (ph <> 0 -> c_delay c = ph * (PI / 180) / Rabs (c_omega c)) /\ 0 < c_theta0 c.
Proof. exact init2_ok. Qed.
Print Assumptions C89_disk.

(** A neutron passes DiskChopper_v2 exactly if it meets the ring of the disk at a time at which a slit is at its angle; it is then on the plane of the disk. *)
Theorem C89_window : forall c r u k w x y phi, disk c -> vz (r_vel r) <> 0 -> meets r x y -> azimuth x (y + c_delta_y c) phi -> c_jitter c = 0 -> c_first c = false ->
  let arrival := r_t r - vz (r_pos r) / vz (r_vel r) in
  let passes := on_ring (c_radius c) (c_height c) (c_absout c) x (y + c_delta_y c) /\ slit_at (c_omega c) (c_n c) (c_theta0 c) (c_delay c) phi arrival in
  (passes -> vz (r_pos (chopper2_trace None c u k w r)) = 0 /\ exists s, flown weightless r s (chopper2_trace None c u k w r)) /\
  (~ passes -> absorbed (chopper2_trace None c u k w r)).
Proof.
  intros c r u k w x y phi D N M AZ J NF arrival passes. destruct (second_stops c r u k w x y phi D N M AZ J NF) as [A B]. fold arrival in A, B. split.
  - intros P. rewrite (A P). destruct (z0_none r N) as [F Z]. split; [exact Z|eauto].
  - intros NP. unfold passes in NP.
    assert (K : {on_ring (c_radius c) (c_height c) (c_absout c) x (y + c_delta_y c)} + {~ on_ring (c_radius c) (c_height c) (c_absout c) x (y + c_delta_y c)}).
    { destruct (c_absout c && Rltb (c_radius c * c_radius c) (x * x + (y + c_delta_y c) * (y + c_delta_y c)))%bool eqn:E1; [right; intros I; apply ring_test in I; destruct I; congruence|].
      destruct (Rltb (x * x + (y + c_delta_y c) * (y + c_delta_y c)) ((c_radius c - c_height c) * (c_radius c - c_height c))) eqn:E2; [right; intros I; apply ring_test in I; destruct I; congruence|]. left. apply ring_test. tauto. }
    apply B. destruct K; [right; tauto|now left].
Qed.
Print Assumptions C89_window.
(** What a first chopper puts in its time frame passes the same disk without the flag, for every random number: the time is in a slit, and the weight is multiplied
    with the open part of the disk. *)
Theorem C89_first : forall c r u k w u' k' w' x y phi, disk c -> vz (r_vel r) <> 0 -> meets r x y -> azimuth x (y + c_delta_y c) phi -> c_jitter c = 0 -> c_first c = true ->
  on_ring (c_radius c) (c_height c) (c_absout c) x (y + c_delta_y c) -> -1 <= u <= 1 ->
  let r1 := chopper2_trace None c u k w r in
  chopper2_trace None (stopping c) u' k' w' r1 = r1 /\ slit_at (c_omega c) (c_n c) (c_theta0 c) (c_delay c) phi (r_t r1) /\
  r_p r1 = r_p r * (c_n c * c_theta0 c / (2 * PI)) /\ 0 <= c_n c * c_theta0 c / (2 * PI) < 1.
Proof.
  intros c r u k w u' k' w' x y phi D N M AZ J NF I U r1. split; [exact (first_then_second c r u k w u' k' w' x y phi D N M AZ J NF I U)|].
  destruct (second_first c r u k w x y phi D N M AZ J NF I) as (t & E & S). unfold r1. rewrite E. split; [exact (S U)|]. split; [reflexivity|].
  destruct D as (_ & CN & TH & FIT & _). pose proof PI_RGT_0. assert (IP : 0 < / (2 * PI)) by (apply Rinv_0_lt_compat; lra). unfold Rdiv. split; [apply Rmult_le_pos; nra|].
  apply (Rmult_lt_reg_r (2 * PI)); [lra|]. rewrite Rmult_assoc, Rinv_l by lra. lra.
Qed.
Print Assumptions C89_first.
(** The older DiskChopper without a beamstop does the same as DiskChopper_v2 for neutrons that keep their height. *)
Theorem C89_older : forall c r u k w x y phi, disk c -> vz (r_vel r) <> 0 -> vy (r_vel r) = 0 -> meets r x y -> azimuth x (y + c_delta_y c) phi -> c_jitter c = 0 -> c_Tc c = 0 -> c_first c = false ->
  chopper_trace None c u k w r = chopper2_trace None c u k w r.
Proof. exact first_version. Qed.
Print Assumptions C89_older.

(** one slit of 0.1 rad on a disk of radius 1 m that turns once in a second, delay 1/4 s *)
Definition onedisk (first : bool) : chopper := mkChop 1 1 (1 / 2) (2 * PI) 1 (1 / 10) (1 / 4) 0 first 1 true (2 * PI / Rabs (2 * PI) / 1) (1 / 10 / Rabs (2 * PI)) 0.
Lemma onedisk_disk first : disk (onedisk first).
Proof.
  pose proof PI_RGT_0. pose proof PI2_1. assert (A : Rabs (2 * PI) <> 0) by (apply Rabs_no_R0; lra). unfold disk. cbn. repeat split; try lra. field. exact A.
Qed.
Lemma onedisk_Tg first : c_Tg (onedisk first) = 1.
Proof. cbn. pose proof PI_RGT_0. rewrite Rabs_right by lra. field. lra. Qed.
Lemma azimuth_0 y : 0 < y -> azimuth 0 y 0.
Proof. intros Y. exists y. rewrite sin_0, cos_0. pose proof PI_RGT_0. repeat split; lra. Qed.
Example window_case : let c := onedisk false in let r := mkRay (mkV 0 0 (-1)) (mkV 0 0 4) 0 0 0 1 in
  disk c /\ vz (r_vel r) <> 0 /\ meets r 0 0 /\ azimuth 0 (0 + c_delta_y c) 0 /\ c_jitter c = 0 /\
  on_ring (c_radius c) (c_height c) (c_absout c) 0 (0 + c_delta_y c) /\ slit_at (c_omega c) (c_n c) (c_theta0 c) (c_delay c) 0 (r_t r - vz (r_pos r) / vz (r_vel r)).
Proof.
  cbv zeta. split; [apply onedisk_disk|]. cbn [vz r_vel r_pos r_t onedisk c_delta_y c_radius c_height c_absout c_jitter c_omega c_n c_theta0 c_delay]. split; [lra|]. split; [exists (1 / 4); unfold coordinate; cbn; repeat split; field|].
  split; [apply azimuth_0; lra|]. split; [reflexivity|]. split; [unfold on_ring; split; lra|]. exists 0%Z. replace (2 * PI * (0 - -1 / 4 - 1 / 4) - 0 - 2 * PI * 0 / 1) with 0 by field. rewrite Rabs_R0. lra.
Qed.
Example first_case : let c := onedisk true in let r := mkRay (mkV 0 0 (-1)) (mkV 0 0 4) 0 0 0 1 in
  disk c /\ vz (r_vel r) <> 0 /\ meets r 0 0 /\ azimuth 0 (0 + c_delta_y c) 0 /\ c_first c = true /\ on_ring (c_radius c) (c_height c) (c_absout c) 0 (0 + c_delta_y c).
Proof. destruct window_case as (_ & A & B & C & _ & D & _). cbv zeta in *. split; [apply onedisk_disk|]. tauto. Qed.
Example older_case : let c := onedisk false in let r := mkRay (mkV 0 0 (-1)) (mkV 0 0 4) 0 0 0 1 in
  disk c /\ vz (r_vel r) <> 0 /\ vy (r_vel r) = 0 /\ meets r 0 0 /\ azimuth 0 (0 + c_delta_y c) 0 /\ c_jitter c = 0 /\ c_Tc c = 0 /\ c_first c = false.
Proof. destruct window_case as (_ & A & B & C & _). cbv zeta in *. split; [apply onedisk_disk|]. repeat (split; [first [assumption | reflexivity]|]). reflexivity. Qed.
Example disk_case : exists c, chopper2_init 10 1 0 60 3 0 0 false 1 true 0 0 = Ok c.
Proof.
  unfold chopper2_init. rewrite (proj2 (Reqb_t 0 0) eq_refl). cbn [negb andb bind]. rewrite !(proj2 (Rleb_false _ _)) by lra. cbn. eauto.
Qed.

(** "What the older DiskChopper puts in its time frame as a first chopper passes the same disk": false, the delay is taken with opposite signs. *)
Theorem C89_older_first_refuted : exists c r, disk c /\ c_Tc c = 0 /\ c_first c = true /\ r_p r > 0 /\
  let r1 := chopper_trace None c 0 0 0 r in ~ absorbed r1 /\ absorbed (chopper_trace None (stopping c) 0 0 0 r1).
Proof.
  exists (onedisk true), (mkRay (mkV 0 0 0) (mkV 0 0 1) 0 0 0 1). split; [apply onedisk_disk|]. split; [reflexivity|]. split; [reflexivity|]. split; [cbn; lra|].
  pose proof PI_RGT_0 as PI0.
  assert (E : chopper_trace None (onedisk true) 0 0 0 (mkRay (mkV 0 0 0) (mkV 0 0 1) 0 0 0 1) = mkRay (mkV 0 0 0) (mkV 0 0 1) (- (1 / 4)) 0 0 (1 / 10 / (2 * PI))).
  { unfold chopper_trace. cbn [prop_z0]. unfold prop_z0_nogravity. cbn [r_vel r_pos vx vy vz]. rewrite (proj2 (Reqb_f 1 0)) by lra. unfold prop_dt_nogravity. cbn [r_vel r_pos vx vy vz r_t r_p r_s1 r_s2 onedisk c_delta_y c_radius c_height c_absout c_jitter c_omega c_n c_theta0 c_delay c_first c_npulse c_To c_Tg].
    rewrite !(proj2 (Rltb_f _ _)) by lra. cbn [andb]. replace (0 + 0 * (- 0 / 1)) with 0 by field. replace (0 + 1 * (- 0 / 1)) with 0 by field.
    assert (AT : arctan2 0 (0 + 1 / 2) = 0) by (apply azimuth_arctan2, azimuth_0; lra). rewrite AT. replace (1 * 0) with 0 by ring. rewrite (floor_IZR 0). unfold with_p, with_t. cbn [r_vel r_pos r_p r_s1 r_s2]. f_equal; [cbn [r_t]; field; split; [apply Rabs_no_R0; lra|lra]|field; lra]. }
  cbv zeta. rewrite E. split; [unfold absorbed; cbn [r_p]; assert (0 < / (2 * PI)) by (apply Rinv_0_lt_compat; lra); lra|].
  unfold chopper_trace. cbn [prop_z0]. unfold prop_z0_nogravity. cbn [r_vel r_pos vx vy vz]. rewrite (proj2 (Reqb_f 1 0)) by lra. unfold prop_dt_nogravity.
  assert (TG := onedisk_Tg true). cbn [c_Tg onedisk] in TG.
  cbn [r_vel r_pos vx vy vz r_t r_p r_s1 r_s2 onedisk stopping c_delta_y c_radius c_height c_absout c_jitter c_omega c_n c_theta0 c_delay c_first c_npulse c_To c_Tg c_Tc]. rewrite TG.
  assert (AT : arctan2 (0 + 0 * (- 0 / 1)) (0 + 1 / 2) = 0) by (replace (0 + 0 * (- 0 / 1)) with 0 by field; apply azimuth_arctan2, azimuth_0; lra). rewrite AT.
  assert (IB : 0 < 1 / 10 / Rabs (2 * PI) < 1 / 10). { pose proof PI2_1. rewrite Rabs_right by lra. assert (0 < / (2 * PI) < 1) by (split; [apply Rinv_0_lt_compat; lra|rewrite <- Rinv_1; apply Rinv_lt_contravar; lra]). unfold Rdiv. lra. }
  assert (TO : Rabs (- (1 / 4) + - 0 / 1 - 0 / (2 * PI) - 1 / 4 + 0 * 0) = 1 / 2) by (replace (- (1 / 4) + - 0 / 1 - 0 / (2 * PI) - 1 / 4 + 0 * 0) with (- (1 / 2)) by (field; lra); rewrite Rabs_Ropp, Rabs_right; lra). rewrite TO.
  rewrite (proj2 (Rltb_f _ _)) by lra. rewrite (proj2 (Rltb_f _ _)) by lra. cbn [andb].
  rewrite (fmod_val (1 / 2 + 0 / 2) 1 0) by lra. rewrite (fmod_val (1 / 2 + 1 / 10 / Rabs (2 * PI) / 2) 1 0) by lra. rewrite (proj2 (Rltb_f _ _)) by lra. rewrite (proj2 (Rltb_t _ _)) by lra. unfold absorbed. cbn. lra.
Qed.
Print Assumptions C89_older_first_refuted.

(** "The older DiskChopper lets pass only what meets its disk": false, it takes the height a neutron starts with. *)
Theorem C89_older_height_refuted : exists c r x y, disk c /\ c_absout c = true /\ c_first c = false /\ vz (r_vel r) <> 0 /\ meets r x y /\
  ~ on_ring (c_radius c) (c_height c) (c_absout c) x (y + c_delta_y c) /\ ~ absorbed (chopper_trace None c 0 0 0 r).
Proof.
  exists (onedisk false), (mkRay (mkV 0 0 (-1)) (mkV 0 10 1) (-3 / 4) 0 0 1), 0, 10. split; [apply onedisk_disk|]. split; [reflexivity|]. split; [reflexivity|]. split; [cbn; lra|].
  split; [exists 1; unfold coordinate; cbn; repeat split; field|]. split; [unfold on_ring; cbn; intros (H & _); specialize (H eq_refl); lra|].
  unfold chopper_trace. cbn [prop_z0]. unfold prop_z0_nogravity. cbn [r_vel r_pos vx vy vz]. rewrite (proj2 (Reqb_f 1 0)) by lra. unfold prop_dt_nogravity.
  assert (TG := onedisk_Tg false). cbn [c_Tg onedisk] in TG. pose proof PI_RGT_0 as PI0.
  cbn [r_vel r_pos vx vy vz r_t r_p r_s1 r_s2 onedisk c_delta_y c_radius c_height c_absout c_jitter c_omega c_n c_theta0 c_delay c_first c_npulse c_To c_Tg c_Tc]. rewrite TG.
  assert (AT : arctan2 (0 + 0 * (- -1 / 1)) (0 + 1 / 2) = 0) by (replace (0 + 0 * (- -1 / 1)) with 0 by field; apply azimuth_arctan2, azimuth_0; lra). rewrite AT.
  assert (IB : 0 < 1 / 10 / Rabs (2 * PI) < 1 / 10). { pose proof PI2_1. rewrite Rabs_right by lra. assert (0 < / (2 * PI) < 1) by (split; [apply Rinv_0_lt_compat; lra|rewrite <- Rinv_1; apply Rinv_lt_contravar; lra]). unfold Rdiv. lra. }
  assert (TO : Rabs (-3 / 4 + - -1 / 1 - 0 / (2 * PI) - 1 / 4 + 0 * 0) = 0) by (replace (-3 / 4 + - -1 / 1 - 0 / (2 * PI) - 1 / 4 + 0 * 0) with 0 by (field; lra); apply Rabs_R0). rewrite TO.
  rewrite (proj2 (Rltb_f _ _)) by lra. rewrite (proj2 (Rltb_f _ _)) by lra. cbn [andb].
  rewrite (fmod_val (0 + 0 / 2) 1 0) by lra. rewrite (fmod_val (0 + 1 / 10 / Rabs (2 * PI) / 2) 1 0) by lra. rewrite (proj2 (Rltb_f _ _)) by lra. rewrite (proj2 (Rltb_f _ _)) by lra. unfold absorbed. cbn. lra.
Qed.
Print Assumptions C89_older_height_refuted.
