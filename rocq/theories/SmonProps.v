(** C98: the spherical monitor. *)
From Coq Require Import Reals List Lra Lia ZArith.
From Verif Require Import Base RotModel ChanModel ShapeModel ShapeSpec ChanProofs OptModel OptSpec OptProofs3 BmonModel BmonSpec BmonProofs BmonProofs2 CmonSpec CmonProofs SmonModel SmonSpec SmonProofs.
Import ListNotations.
Open Scope R_scope.

(** PSD_monitor_4PI counts a neutron that meets the sphere in the cell of the longitude and of the nearest parallel of the first point it meets, once, and leaves it as it was. *)
Theorem C98_cell : forall radius nx ny h r s phi theta i j, 0 < radius -> (0 < nx < 2 ^ 31)%Z -> (0 < ny < 2 ^ 31 - 1)%Z -> vx (r_vel r) <> 0 \/ vy (r_vel r) <> 0 \/ vz (r_vel r) <> 0 ->
  List.length h = (Z.to_nat nx * Z.to_nat ny)%nat -> first_meets radius r s -> longitude r s phi -> latitude radius r s theta ->
  (i < Z.to_nat nx)%nat -> (j < Z.to_nat ny)%nat -> in_bin_end (- PI) PI nx i phi -> near_parallel ny j theta ->
  exists h', psd4pi_trace None radius nx ny h r = Ok (h', r) /\ counted h h' (j + i * Z.to_nat ny) (r_p r).
Proof.
  intros R0 nx ny h r s phi theta i j P NX NY Fl LEN FM LO LA I J BI [B1 B2]. destruct (sphere_step R0 nx ny h r s P NX NY Fl LEN FM) as [E C].
  rewrite (latitude_asin R0 r s theta P LA), (azimuth_arctan2 _ _ _ LO) in E, C. rewrite (ch_i_bin nx phi i ltac:(lia) I BI), (ch_j_bin ny theta j ltac:(lia) J (proj2 (proj1 LA)) B1 B2), !Nat2Z.id in E, C. eexists. split; [exact E|exact C].
Qed.
Print Assumptions C98_cell.
(** from the centre of a sphere of radius 1 m towards 30 degrees below the horizon *)
Definition down : ray := mkRay (mkV 0 0 0) (mkV 0 (-1) (sqrt 3)) 0 0 0 2.
Lemma down_meets : first_meets 1 down (/ 2).
Proof.
  pose proof (sqrt_sqrt 3 ltac:(lra)) as Q. unfold first_meets, on_sphere, on_line. cbn [down r_pos r_vel vx vy vz]. set (q := sqrt 3) in *. split; [lra|]. split; [nra|]. split; [intros t T; nra|]. exists (/ 2). split; [lra|nra].
Qed.
Lemma down_longitude : longitude down (/ 2) 0.
Proof. pose proof (sqrt_lt_R0 3 ltac:(lra)). pose proof PI_RGT_0. exists (sqrt 3 / 2). unfold on_line. cbn [down r_pos r_vel vx vy vz]. rewrite sin_0, cos_0. repeat split; lra. Qed.
Lemma down_latitude : latitude 1 down (/ 2) (- (PI / 6)).
Proof. pose proof PI_RGT_0. unfold latitude, on_line. cbn [down r_pos r_vel vx vy vz]. rewrite sin_neg, sin_PI6. split; lra. Qed.
Example C98_cell_ex : exists h', psd4pi_trace None 1 2 2 (empty 4) down = Ok (h', down) /\ nth_error h' 3 = Some (mkCell 1 2 4).
Proof.
  pose proof PI_RGT_0. destruct (C98_cell 1 2 2 (empty 4) down (/ 2) 0 (- (PI / 6)) 1 1) as (h' & E & (_ & (c & c' & A & B & C1 & C2 & C3) & _));
    [lra|lia|lia|right; left; cbn; lra|reflexivity|exact down_meets|exact down_longitude|exact down_latitude|cbn; lia|cbn; lia|left; unfold in_bin; cbn; lra|unfold near_parallel; cbn; lra|].
  exists h'. split; [exact E|]. cbn in A. injection A as <-. change (1 + 1 * Z.to_nat 2)%nat with 3%nat in B. rewrite B. destruct c'. cbn in *. f_equal. f_equal; lra.
Qed.

(** Whatever the neutron does, the poles included, the monitor never touches anything outside of its arrays: a neutron that is on the sphere at a later time is counted in exactly one cell, any other in none, and both leave as they came. *)
Theorem C98_total : forall radius nx ny h r, 0 < radius -> (0 < nx < 2 ^ 31)%Z -> (0 < ny < 2 ^ 31 - 1)%Z -> vx (r_vel r) <> 0 \/ vy (r_vel r) <> 0 \/ vz (r_vel r) <> 0 ->
  List.length h = (Z.to_nat nx * Z.to_nat ny)%nat ->
  exists h', psd4pi_trace None radius nx ny h r = Ok (h', r) /\
    ((exists u, 0 < u /\ on_sphere radius r u) -> exists k, counted h h' k (r_p r)) /\ ((forall u, 0 < u -> ~ on_sphere radius r u) -> h' = h).
Proof.
  intros R0 nx ny h r P NX NY Fl LEN.
  assert (D : (exists s, first_meets R0 r s) \/ (forall u, 0 < u -> ~ on_sphere R0 r u)).
  { destruct (sphere_roots R0 r Fl) as [[_ N]|(t0 & t1 & L & E & Q)]; [right; intros u _; apply N|]. destruct (Rlt_le_dec 0 t1) as [T|T]; [left; eexists; exact (first_at R0 r t0 t1 L Q T)|right; intros u U O; apply Q in O; lra]. }
  destruct D as [[s FM]|N].
  - destruct (sphere_step R0 nx ny h r s P NX NY Fl LEN FM) as [E C]. eexists. split; [exact E|]. split; [intros _; eexists; exact C|]. intros N. exfalso. destruct FM as (_ & _ & _ & u & U & O). exact (N u U O).
  - exists h. split; [apply sphere_none; [exact Fl|]; intros s (_ & _ & _ & u & U & O); exact (N u U O)|]. split; [|reflexivity]. intros (u & U & O). exfalso. exact (N u U O).
Qed.
Print Assumptions C98_total.
(** straight up, to the pole *)
Example C98_total_ex : exists h' k, psd4pi_trace None 1 2 2 (empty 4) (mkRay (mkV 0 0 0) (mkV 0 1 0) 0 0 0 2) = Ok (h', mkRay (mkV 0 0 0) (mkV 0 1 0) 0 0 0 2) /\ counted (empty 4) h' k 2.
Proof.
  destruct (C98_total 1 2 2 (empty 4) (mkRay (mkV 0 0 0) (mkV 0 1 0) 0 0 0 2)) as (h' & E & A & _); [lra|lia|lia|right; left; cbn; lra|reflexivity|].
  destruct A as (k & C); [exists 1; unfold on_sphere, on_line; cbn; lra|]. exists h', k. split; [exact E|exact C].
Qed.

(** The file says that the ny latitude channels divide -90 ... 90 degrees evenly. They do not: 30 degrees below the horizon is in the lower of two channels, and is counted in the upper one. *)
Theorem C98_latitude_refuted : exists radius nx ny h r s phi theta i j h' k, 0 < radius /\ List.length h = (Z.to_nat nx * Z.to_nat ny)%nat /\ first_meets radius r s /\ longitude r s phi /\ latitude radius r s theta /\
  (i < Z.to_nat nx)%nat /\ (j < Z.to_nat ny)%nat /\ in_bin (- PI) PI nx i phi /\ in_bin (- (PI / 2)) (PI / 2) ny j theta /\
  psd4pi_trace None radius nx ny h r = Ok (h', r) /\ counted h h' k (r_p r) /\ k <> (j + i * Z.to_nat ny)%nat /\ r_p r <> 0.
Proof.
  pose proof PI_RGT_0. destruct (C98_cell 1 2 2 (empty 4) down (/ 2) 0 (- (PI / 6)) 1 1) as (h' & E & C);
    [lra|lia|lia|right; left; cbn; lra|reflexivity|exact down_meets|exact down_longitude|exact down_latitude|cbn; lia|cbn; lia|left; unfold in_bin; cbn; lra|unfold near_parallel; cbn; lra|].
  exists 1, 2%Z, 2%Z, (empty 4), down, (/ 2), 0, (- (PI / 6)), 1%nat, 0%nat, h', 3%nat. split; [lra|]. split; [reflexivity|]. split; [exact down_meets|]. split; [exact down_longitude|]. split; [exact down_latitude|].
  split; [cbn; lia|]. split; [cbn; lia|]. split; [unfold in_bin; cbn; lra|]. split; [unfold in_bin; cbn; lra|]. split; [exact E|]. split; [exact C|]. split; [cbn; lia|cbn; lra].
Qed.
Print Assumptions C98_latitude_refuted.
