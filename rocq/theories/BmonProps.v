(** C90: monitors of McStas. *)
From Coq Require Import Reals List Lra Lia ZArith.
From Verif Require Import Base RotModel ChanModel ShapeModel GridProofs ChanProofs OptModel OptSpec BmonModel BmonSpec BmonProofs BmonProofs2 BmonProofs3.
Import ListNotations.
Open Scope R_scope.

(** a neutron at 1000 m/s, one metre before the monitor *)
Definition probe : ray := mkRay (mkV 0 0 (-1)) (mkV 0 0 1000) 0 0 0 2.
Lemma probe_moves : vz (r_vel probe) <> 0. Proof. cbn. lra. Qed.
Lemma probe_meets : meets probe 0 0. Proof. exists (/ 1000). unfold coordinate. cbn. lra. Qed.
Lemma probe_speed : speed probe = 1000.
Proof. unfold speed. cbn [probe r_vel vx vy vz]. replace (0 ^ 2 + 0 ^ 2 + 1000 ^ 2) with (1000 * 1000) by ring. apply sqrt_square. lra. Qed.
Lemma probe_energy : neutron_energy probe = 5227 / 1000. Proof. unfold neutron_energy. rewrite probe_speed. field. Qed.
Definition frame : opening := mkOp (- (2 / 10 / 2)) (2 / 10 / 2) (- (2 / 10 / 2)) (2 / 10 / 2) 0.
Lemma frame_of e : area_init e 0 0 0 0 (2 / 10) (2 / 10) = Ok frame.
Proof.
  unfold area_init. assert (H : 0 < 2 / 10) by lra. rewrite (proj2 (Rltb_t _ _) H).
  assert (F : Rleb (2 / 10 / 2) (- (2 / 10 / 2)) = false) by (apply Rleb_false; lra). rewrite F. reflexivity.
Qed.
Lemma probe_through : through frame probe. Proof. exists 0, 0. split; [apply probe_meets|]. cbn. lra. Qed.

(** The area: a positive width or height replaces the limits; an empty area is an error. *)
Theorem C90_area : forall e x0 x1 y0 y1 w h,
  (forall o, area_init e x0 x1 y0 y1 w h = Ok o -> xmin o < xmax o /\ ymin o < ymax o /\
     (0 < w -> xmin o = - (w / 2) /\ xmax o = w / 2) /\ (w <= 0 -> xmin o = x0 /\ xmax o = x1) /\
     (0 < h -> ymin o = - (h / 2) /\ ymax o = h / 2) /\ (h <= 0 -> ymin o = y0 /\ ymax o = y1)) /\
  (forall e', area_init e x0 x1 y0 y1 w h = Err e' -> e' = e /\ (w <= 0 /\ x1 <= x0 \/ h <= 0 /\ y1 <= y0)).
Proof.
  intros. split; [|apply area_init_err]. intros o H. destruct (area_init_spec _ _ _ _ _ _ _ _ H) as ([A B] & C). tauto.
Qed.
Print Assumptions C90_area.
Example C90_area_case : area_init CppException 0 0 0 0 (2 / 10) (2 / 10) = Ok frame /\ area_init CppException 1 1 0 1 0 0 = Err CppException.
Proof.
  split; [apply frame_of|]. unfold area_init. assert (H : 0 <= 0) by lra. rewrite (proj2 (Rltb_f 0 0) H).
  assert (F : Rleb 1 1 = true) by (apply Rleb_true; lra). rewrite F. reflexivity.
Qed.

(** Monitor: number, weight and squared weight of the neutrons whose path goes through the area. *)
Theorem C90_monitor : forall o rs c, Forall (fun r => vz (r_vel r) <> 0) rs -> exists c' rs',
  run (fun c r => Ok (monitor_trace None o c r)) c rs = Ok (c', rs') /\ Forall2 at_plane rs rs' /\
  holds (through o) rs (c_N c' - c_N c) (c_p c' - c_p c) (c_p2 c' - c_p2 c).
Proof. intros o rs c H. exact (monitor_run o rs H c). Qed.
Print Assumptions C90_monitor.
Example C90_monitor_case : Forall (fun r => vz (r_vel r) <> 0) [probe; probe] /\ holds (through frame) [probe; probe] 2 4 8.
Proof.
  split; [repeat constructor; apply probe_moves|].
  repeat split; (eapply total_eq; [apply total_in; [apply probe_through|apply total_in; [apply probe_through|apply total_nil]]|cbn; ring]).
Qed.

(** E_monitor: channel k holds the neutrons through the area with an energy in its interval; none is lost or counted twice; the neutrons come out where they
    meet the plane, otherwise unchanged. *)
Theorem C90_energy : forall nchan x0 x1 y0 y1 w ht Emin Emax o m0 rs m rs',
  e_init nchan x0 x1 y0 y1 w ht = Ok (o, m0) -> Emin < Emax -> Forall (fun r => vz (r_vel r) <> 0) rs ->
  run (e_trace None o nchan Emin Emax) m0 rs = Ok (m, rs') ->
  List.length (e_cells m) = Z.to_nat nchan /\ Forall2 at_plane rs rs' /\
  (forall k, (k < Z.to_nat nchan)%nat -> exists c, nth_error (e_cells m) k = Some c /\
    holds (fun r => through o r /\ in_bin Emin Emax nchan k (neutron_energy r)) rs (c_N c) (c_p c) (c_p2 c)).
Proof. exact energy_run. Qed.
Print Assumptions C90_energy.
(** It never fails when the number of the channel fits an int. *)
Theorem C90_energy_runs : forall nchan x0 x1 y0 y1 w ht Emin Emax o m0 rs,
  e_init nchan x0 x1 y0 y1 w ht = Ok (o, m0) -> Emin < Emax ->
  Forall (fun r => vz (r_vel r) <> 0 /\ - 2 ^ 31 <= (neutron_energy r - Emin) * IZR nchan / (Emax - Emin) < 2 ^ 31) rs ->
  exists m rs', run (e_trace None o nchan Emin Emax) m0 rs = Ok (m, rs').
Proof. exact energy_runs. Qed.
Print Assumptions C90_energy_runs.
Lemma probe_window : vz (r_vel probe) <> 0 /\ - 2 ^ 31 <= (neutron_energy probe - 0) * IZR 20 / (10 - 0) < 2 ^ 31.
Proof. split; [apply probe_moves|]. rewrite probe_energy. lra. Qed.
Lemma start : e_init 20 0 0 0 0 (2 / 10) (2 / 10) = Ok (frame, mkE (empty 20) 0 0 0).
Proof. unfold e_init. cbn [Z.leb Z.compare]. rewrite (frame_of Terminated). reflexivity. Qed.
Example C90_energy_case : exists m rs', e_init 20 0 0 0 0 (2 / 10) (2 / 10) = Ok (frame, mkE (empty 20) 0 0 0) /\
  run (e_trace None frame 20 0 10) (mkE (empty 20) 0 0 0) [probe; probe] = Ok (m, rs') /\
  through frame probe /\ in_bin 0 10 20 10 (neutron_energy probe).
Proof.
  destruct (C90_energy_runs 20 0 0 0 0 (2 / 10) (2 / 10) 0 10 frame _ [probe; probe] start) as (m & rs' & R); [lra|exact (Forall_cons _ probe_window (Forall_cons _ probe_window (Forall_nil _)))|].
  exists m, rs'. split; [apply start|]. split; [exact R|]. split; [apply probe_through|]. unfold in_bin. rewrite probe_energy. cbn [INR Nat.add]. lra.
Qed.

(** E_monitor prints the weighted mean of the energy and the width around it.  Both are over all neutrons through the area, also those outside of the window
    of energies.  The width is the root of a number that is not negative when no weight is. *)
Theorem C90_energy_width : forall nchan x0 x1 y0 y1 w ht Emin Emax o m0 rs m rs',
  e_init nchan x0 x1 y0 y1 w ht = Ok (o, m0) -> Emin < Emax -> Forall (fun r => vz (r_vel r) <> 0) rs ->
  run (e_trace None o nchan Emin Emax) m0 rs = Ok (m, rs') ->
  exists a b c,
    (total (through o) r_p rs a /\ total (through o) (fun r => r_p r * neutron_energy r) rs b /\ total (through o) (fun r => r_p r * neutron_energy r ^ 2) rs c) /\
    (e_stats m = None <-> a = 0) /\
    (forall mean var, e_stats m = Some (mean, var) -> mean * a = b /\ (var + mean ^ 2) * a = c /\ (Forall (fun r => 0 <= r_p r) rs -> 0 <= var)).
Proof. exact energy_width. Qed.
Print Assumptions C90_energy_width.
Example C90_energy_width_case : Forall (fun r => vz (r_vel r) <> 0) [probe; probe] /\ Forall (fun r => 0 <= r_p r) [probe; probe] /\ total (through frame) r_p [probe; probe] 4.
Proof.
  split; [repeat constructor; apply probe_moves|]. split; [repeat constructor; cbn; lra|].
  eapply total_eq; [apply total_in; [apply probe_through|apply total_in; [apply probe_through|apply total_nil]]|cbn; ring].
Qed.

(** L_monitor: the same with the wavelength. *)
Theorem C90_wavelength : forall nchan x0 x1 y0 y1 w ht Lmin Lmax o rs h rs',
  area_init CppException x0 x1 y0 y1 w ht = Ok o -> (0 < nchan)%Z -> Lmin < Lmax -> Forall (fun r => vz (r_vel r) <> 0) rs ->
  run (l_trace None o nchan Lmin Lmax) (empty (Z.to_nat nchan)) rs = Ok (h, rs') ->
  List.length h = Z.to_nat nchan /\ Forall2 at_plane rs rs' /\
  (forall k, (k < Z.to_nat nchan)%nat -> exists c, nth_error h k = Some c /\
    holds (fun r => through o r /\ in_bin Lmin Lmax nchan k (wavelength r)) rs (c_N c) (c_p c) (c_p2 c)).
Proof. exact wavelength_run. Qed.
Print Assumptions C90_wavelength.
Theorem C90_wavelength_runs : forall nchan o Lmin Lmax rs, (0 < nchan)%Z -> Lmin < Lmax ->
  Forall (fun r => vz (r_vel r) <> 0 /\ - 2 ^ 31 <= (wavelength r - Lmin) * IZR nchan / (Lmax - Lmin) < 2 ^ 31) rs ->
  exists h rs', run (l_trace None o nchan Lmin Lmax) (empty (Z.to_nat nchan)) rs = Ok (h, rs').
Proof. exact wavelength_runs. Qed.
Print Assumptions C90_wavelength_runs.
Lemma probe_wavelength : 3 < wavelength probe < 6.
Proof.
  unfold wavelength. rewrite probe_speed. pose proof PI_4. pose proof PI2_1 as Q. unfold PI2 in Q. pose proof PI_RGT_0.
  assert (A : 3 <= PI) by (pose proof PI2_3_2 as X; unfold PI2 in X; lra). lra.
Qed.
Example C90_wavelength_case : exists x, l_trace None frame 1 3 6 (empty 1) probe = Ok x /\ in_bin 3 6 1 0 (wavelength probe).
Proof.
  pose proof probe_wavelength as L. assert (I : in_bin 3 6 1 0 (wavelength probe)) by (unfold in_bin; cbn [INR Nat.add]; lra). assert (N : 3 < 6) by lra.
  unfold l_trace. destruct (z0_fields probe probe_moves) as (V & P & T & X).
  rewrite (proj2 (area_through frame probe probe_moves) probe_through). rewrite (l_value probe _ probe_moves V). cbn [bind].
  pose proof (proj1 (in_bin_floor 3 6 1 0 _ N ltac:(lia)) I) as F. rewrite bin_ok; [|exact N|rewrite F; lia]. rewrite F. cbn. eauto.
Qed.

(** TOF_monitor: every neutron through the area is counted, in the channel of its time (in microseconds) or, outside of them, in the first or last one. *)
Theorem C90_time : forall nchan o lo step rs h rs', 0 < step -> (0 < nchan)%Z -> Forall (fun r => vz (r_vel r) <> 0) rs ->
  run (tof_trace None o nchan lo step) (empty (Z.to_nat nchan)) rs = Ok (h, rs') ->
  List.length h = Z.to_nat nchan /\ Forall2 at_plane rs rs' /\
  (forall k, (k < Z.to_nat nchan)%nat -> exists c, nth_error h k = Some c /\
    holds (fun r => through o r /\ exists t, arrives r t /\ in_bin_or_end lo step nchan k (1000000 * t)) rs (c_N c) (c_p c) (c_p2 c)).
Proof. exact time_run. Qed.
Print Assumptions C90_time.
Theorem C90_time_runs : forall nchan o lo step rs, 0 < step -> (0 < nchan)%Z ->
  Forall (fun r => vz (r_vel r) <> 0 /\ forall t, arrives r t -> - 2 ^ 31 <= (1000000 * t - lo) / step < 2 ^ 31) rs ->
  exists h rs', run (tof_trace None o nchan lo step) (empty (Z.to_nat nchan)) rs = Ok (h, rs').
Proof. exact time_runs. Qed.
Print Assumptions C90_time_runs.
(** TOF_monitor2: the same in seconds. *)
Theorem C90_time2 : forall nchan o lo hi rs h rs', lo < hi -> (0 < nchan)%Z -> Forall (fun r => vz (r_vel r) <> 0) rs ->
  run (tof2_trace None o nchan lo hi) (empty (Z.to_nat nchan)) rs = Ok (h, rs') ->
  List.length h = Z.to_nat nchan /\ Forall2 at_plane rs rs' /\
  (forall k, (k < Z.to_nat nchan)%nat -> exists c, nth_error h k = Some c /\
    holds (fun r => through o r /\ exists t, arrives r t /\ in_bin_or_end lo ((hi - lo) / IZR nchan) nchan k (1 * t)) rs (c_N c) (c_p c) (c_p2 c)).
Proof. exact time_run2. Qed.
Print Assumptions C90_time2.
Lemma probe_time : arrives probe (/ 1000). Proof. exists (/ 1000). unfold coordinate. cbn. lra. Qed.
Example C90_time_runs_case : Forall (fun r => vz (r_vel r) <> 0 /\ forall t, arrives r t -> - 2 ^ 31 <= (1000000 * t - 0) / 250 < 2 ^ 31) [probe; probe].
Proof.
  assert (H : vz (r_vel probe) <> 0 /\ forall t, arrives probe t -> - 2 ^ 31 <= (1000000 * t - 0) / 250 < 2 ^ 31).
  { split; [apply probe_moves|]. intros t A. rewrite (arrives_one probe _ _ probe_moves A probe_time). lra. }
  exact (Forall_cons _ H (Forall_cons _ H (Forall_nil _))).
Qed.
Example C90_time_case : exists x, tof_trace None frame 4 0 250 (empty 4) probe = Ok x /\ in_bin_or_end 0 250 4 3 (1000000 * / 1000).
Proof.
  assert (I : in_bin_or_end 0 250 4 3 (1000000 * / 1000)) by (unfold in_bin_or_end; split; [right; cbn [INR]; lra|left; reflexivity]).
  unfold tof_trace. destruct (z0_fields probe probe_moves) as (V & P & T & X). rewrite (proj2 (area_through frame probe probe_moves) probe_through).
  rewrite (arrives_one probe _ _ probe_moves T probe_time).
  destruct (clamped_ok (1000000 * / 1000) 0 250 4) as (i & C & R); [lra|lia| |].
  { rewrite (floor_is _ 4) by lra. lia. }
  rewrite C. cbn [bind]. unfold tally. destruct (Z.ltb_spec i 0); [lia|]. destruct (Z.leb_spec (Z.of_nat (List.length (empty 4))) i); [cbn in *; lia|]. cbn [orb bind]. eauto.
Qed.
(** The axis written with the histogram is that of the channels when t1 is given or t0 is zero ... *)
Theorem C90_time_axis : forall n t0 t1 dt a b d, (0 < n)%Z -> tof_times n t0 t1 dt = (a, b, d) -> t1 <> 0 \/ t0 = 0 -> d = (b - a) / IZR n.
Proof. exact axis_same. Qed.
Print Assumptions C90_time_axis.
Example C90_time_axis_case : tof_times 4 100 500 0 = (100, 500, (500 - 100) / 4).
Proof. unfold tof_times. assert (Z : 500 <> 0) by lra. rewrite (proj2 (Reqb_f _ _) Z). reflexivity. Qed.
(** ... but not with dt and t0: a neutron is counted in channel 1 whose time is in channel 0 of the written axis. *)
Theorem C90_time_axis_refuted : exists n t0 dt a b d r h q, (0 < n)%Z /\ 0 < dt /\ tof_times n t0 0 dt = (a, b, d) /\
  tof_trace None (mkOp (-1) 1 (-1) 1 0) n a d (empty (Z.to_nat n)) r = Ok (h, q) /\ nth_error h 1 = Some (mkCell 1 1 1) /\
  in_bin a b n 0 (1000000 * r_t q).
Proof. exact axis_other. Qed.
Print Assumptions C90_time_axis_refuted.

(** PSDlin_monitor never ends the program, and holds in strip k the neutrons that meet it. *)
Theorem C90_strips : forall nx e x0 x1 y0 y1 w ht o rs, area_init e x0 x1 y0 y1 w ht = Ok o -> (0 < nx < 2 ^ 31)%Z -> Forall (fun r => vz (r_vel r) <> 0) rs ->
  exists h rs', run (psdlin_trace None o nx) (empty (Z.to_nat nx)) rs = Ok (h, rs') /\
  List.length h = Z.to_nat nx /\ Forall2 at_plane rs rs' /\
  (forall k, (k < Z.to_nat nx)%nat -> exists c, nth_error h k = Some c /\
    holds (fun r => through o r /\ exists x y, meets r x y /\ in_bin (xmin o) (xmax o) nx k x) rs (c_N c) (c_p c) (c_p2 c)).
Proof. exact strip_run. Qed.
Print Assumptions C90_strips.
(** PSD_monitor never writes outside of its arrays, and holds in pixel (i, j) the neutrons that meet it. *)
Theorem C90_image : forall nx ny e x0 x1 y0 y1 w ht o rs, area_init e x0 x1 y0 y1 w ht = Ok o -> (0 < nx < 2 ^ 31)%Z -> (0 < ny < 2 ^ 31)%Z ->
  Forall (fun r => vz (r_vel r) <> 0) rs ->
  exists h rs', run (psd_trace None o nx ny) (empty (Z.to_nat nx * Z.to_nat ny)) rs = Ok (h, rs') /\
  List.length h = (Z.to_nat nx * Z.to_nat ny)%nat /\ Forall2 at_plane rs rs' /\
  (forall i j, (i < Z.to_nat nx)%nat -> (j < Z.to_nat ny)%nat -> exists c, nth_error h (j + i * Z.to_nat ny) = Some c /\
    holds (fun r => through o r /\ exists x y, meets r x y /\ in_bin (xmin o) (xmax o) nx i x /\ in_bin (ymin o) (ymax o) ny j y) rs (c_N c) (c_p c) (c_p2 c)).
Proof. exact image_run. Qed.
Print Assumptions C90_image.
(** EPSD_monitor: the same with strips in x and intervals of the energy, both ends of the window left out. *)
Theorem C90_energy_image : forall nx nE lo hi e x0 x1 y0 y1 w ht o rs, area_init e x0 x1 y0 y1 w ht = Ok o -> lo < hi ->
  (0 < nx < 2 ^ 31)%Z -> (0 < nE < 2 ^ 31)%Z -> Forall (fun r => vz (r_vel r) <> 0) rs ->
  exists h rs', run (epsd_trace None o nx nE lo hi) (empty (Z.to_nat nx * Z.to_nat nE)) rs = Ok (h, rs') /\
  List.length h = (Z.to_nat nx * Z.to_nat nE)%nat /\ Forall2 at_plane rs rs' /\
  (forall i j, (i < Z.to_nat nx)%nat -> (j < Z.to_nat nE)%nat -> exists c, nth_error h (j + i * Z.to_nat nE) = Some c /\
    holds (fun r => through o r /\ exists x y, meets r x y /\ in_bin (xmin o) (xmax o) nx i x /\ in_bin lo hi nE j (neutron_energy r) /\ lo < neutron_energy r)
      rs (c_N c) (c_p c) (c_p2 c)).
Proof. exact energy_image_run. Qed.
Print Assumptions C90_energy_image.
Example C90_image_case : area_init CppException 0 0 0 0 (2 / 10) (2 / 10) = Ok frame /\ Forall (fun r => vz (r_vel r) <> 0) [probe; probe] /\
  through frame probe /\ meets probe 0 0 /\ in_bin (xmin frame) (xmax frame) 3 1 0 /\ in_bin (ymin frame) (ymax frame) 2 1 0 /\ in_bin 0 10 2 1 (neutron_energy probe).
Proof.
  split; [apply frame_of|]. split; [repeat constructor; apply probe_moves|]. split; [apply probe_through|]. split; [apply probe_meets|].
  unfold in_bin. rewrite probe_energy. cbn [xmin xmax ymin ymax frame INR Nat.add]. repeat split; lra.
Qed.

(** A neutron that flies along the plane of a monitor without meeting it is counted with the weight -1: intensities can be negative although no weight is. *)
Theorem C90_parallel_refuted : exists o r, 0 <= r_p r /\ c_p (fst (monitor_trace None o (mkCell 0 0 0) r)) < 0 /\
  c_N (fst (monitor_trace None o (mkCell 0 0 0) r)) = 1.
Proof. exact parallel_counted. Qed.
Print Assumptions C90_parallel_refuted.
