(** C95: monitors of divergence, and of two quantities at once. *)
From Coq Require Import Reals List Lra Lia ZArith.
From Verif Require Import Base RotModel ChanModel ShapeModel GridProofs ChanProofs OptModel OptSpec BmonModel BmonSpec BmonProofs BmonProofs2 BmonProofs3 BmonProps DmonModel DmonSpec DmonProofs.
Import ListNotations.
Open Scope R_scope.

(** The histograms are given for all runs.  They never write outside of their arrays, leave every neutron in the plane z = 0 and hold in each cell number, weight and square
    of the weight of the neutrons that go through the area with both values in that cell.  The ends of the windows are left out.

    Divergence_monitor: horizontal and vertical divergence. *)
Theorem C95_divergence : forall nh nv hm vm e x0 x1 y0 y1 w ht o rs, area_init e x0 x1 y0 y1 w ht = Ok o -> 0 < hm -> 0 < vm -> (0 < nh < 2 ^ 31)%Z -> (0 < nv < 2 ^ 31)%Z ->
  Forall (fun r => vz (r_vel r) <> 0) rs ->
  exists h rs', run (div_trace None o nh nv hm vm) (empty (Z.to_nat nh * Z.to_nat nv)) rs = Ok (h, rs') /\ List.length h = (Z.to_nat nh * Z.to_nat nv)%nat /\ Forall2 at_plane rs rs' /\
  forall i j, (i < Z.to_nat nh)%nat -> (j < Z.to_nat nv)%nat -> exists c, nth_error h (j + i * Z.to_nat nv) = Some c /\
    holds (fun r => through o r /\ (exists d, divergence (vx (r_vel r)) (vz (r_vel r)) d /\ in_cell (- hm) hm nh i d) /\ (exists d, divergence (vy (r_vel r)) (vz (r_vel r)) d /\ in_cell (- vm) vm nv j d))
      rs (c_N c) (c_p c) (c_p2 c).
Proof.
  intros nh nv hm vm e x0 x1 y0 y1 w ht o rs _ H V N1 N2 G.
  destruct (two_run o nh nv (- hm) hm (- vm) vm hd vd _ N1 N2 ltac:(lra) ltac:(lra) (div_windows o nh nv hm vm) rs G) as (h & rs' & R & L & F & C).
  exists h, rs'. split; [exact R|]. split; [exact L|]. split; [exact F|]. intros i j I J. destruct (C i j I J) as (c & E & K). exists c. split; [exact E|]. eapply holds_iff; [exact G| |exact K].
  intros r M. unfold cell_of. rewrite (hd_div r (in_cell (- hm) hm nh i) M), (vd_div r (in_cell (- vm) vm nv j) M). reflexivity.
Qed.
Print Assumptions C95_divergence.
(** a neutron at 45 degrees *)
Definition slanted : ray := mkRay (mkV (-1) 0 (-1)) (mkV 1000 0 1000) 0 0 0 2.
Lemma slanted_div : divergence (vx (r_vel slanted)) (vz (r_vel slanted)) 45.
Proof.
  assert (S2 : 0 < sqrt 2) by (apply sqrt_lt_R0; lra). pose proof PI_RGT_0. exists (PI / 4). split; [|field]. exists (1000 * sqrt 2). rewrite sin_PI4, cos_PI4. cbn. split; [lra|]. split; [lra|]. split; field; lra.
Qed.
Lemma slanted_vdiv : divergence (vy (r_vel slanted)) (vz (r_vel slanted)) 0.
Proof. pose proof PI_RGT_0. exists 0. split; [|ring]. exists 1000. rewrite sin_0, cos_0. cbn. repeat split; lra. Qed.
Lemma slanted_through : through frame slanted.
Proof. exists 0, 0. split; [exists (/ 1000); unfold coordinate; cbn; lra|cbn; lra]. Qed.
Example C95_divergence_ex : exists h rs' c, run (div_trace None frame 4 1 60 60) (empty 4) [slanted; probe] = Ok (h, rs') /\ nth_error h 3 = Some c /\ c_p c = 2.
Proof.
  assert (G : Forall (fun r => vz (r_vel r) <> 0) [slanted; probe]) by (repeat constructor; cbn; lra).
  destruct (C95_divergence 4 1 60 60 CppException 0 0 0 0 (2 / 10) (2 / 10) frame [slanted; probe] (frame_of _) ltac:(lra) ltac:(lra) ltac:(lia) ltac:(lia) G) as (h & rs' & R & _ & _ & C).
  destruct (C 3%nat 0%nat ltac:(cbn; lia) ltac:(cbn; lia)) as (c & E & _ & K & _). exists h, rs', c. split; [exact R|]. split; [exact E|].
  inversion_clear K as [|? ? s P1 T1|? ? s P1 T1].
  - inversion_clear T1 as [|? ? s' P2 T2|? ? s' P2 T2]; [|inversion T2; cbn; lra]. exfalso. destruct P2 as (_ & (d & D & (B & _)) & _). apply deg in D. destruct D as [_ ->]. unfold in_bin in B.
    assert (Z : div_deg (vx (r_vel probe)) (vz (r_vel probe)) = 0). { symmetry. apply deg. pose proof PI_RGT_0. exists 0. split; [|ring]. exists 1000. rewrite sin_0, cos_0. cbn. repeat split; lra. }
    rewrite Z in B. cbn in B. lra.
  - exfalso. apply P1. split; [exact slanted_through|]. split; [exists 45; split; [exact slanted_div|]|exists 0; split; [exact slanted_vdiv|]]; unfold in_cell, in_bin; cbn; lra.
Qed.

(** Hdiv_monitor: horizontal divergence. *)
Theorem C95_hdiv : forall nh hm e x0 x1 y0 y1 w ht o rs, area_init e x0 x1 y0 y1 w ht = Ok o -> 0 < hm -> (0 < nh < 2 ^ 31)%Z -> Forall (fun r => vz (r_vel r) <> 0) rs ->
  exists h rs', run (hdiv_trace None o nh hm) (empty (Z.to_nat nh)) rs = Ok (h, rs') /\ List.length h = Z.to_nat nh /\ Forall2 at_plane rs rs' /\
  forall i, (i < Z.to_nat nh)%nat -> exists c, nth_error h i = Some c /\
    holds (fun r => through o r /\ exists d, divergence (vx (r_vel r)) (vz (r_vel r)) d /\ in_cell (- hm) hm nh i d) rs (c_N c) (c_p c) (c_p2 c).
Proof.
  intros nh hm e x0 x1 y0 y1 w ht o rs _ H N1 G.
  destruct (two_run o nh 1 (- hm) hm 0 1 hd (fun _ => 1 / 2) _ N1 ltac:(lia) ltac:(lra) ltac:(lra) (hdiv_windows o nh hm) rs G) as (h & rs' & R & L & F & C).
  change (Z.to_nat 1) with 1%nat in *. rewrite Nat.mul_1_r in R, L. exists h, rs'. split; [exact R|]. split; [exact L|]. split; [exact F|]. intros i I. destruct (C i 0%nat I ltac:(lia)) as (c & E & K). rewrite Nat.mul_1_r in E.
  exists c. split; [exact E|]. eapply holds_iff; [exact G| |exact K]. intros r M. unfold cell_of. rewrite (hd_div r (in_cell (- hm) hm nh i) M).
  assert (X : in_cell 0 1 1 0 (1 / 2)) by (unfold in_cell, in_bin; cbn; lra). tauto.
Qed.
Print Assumptions C95_hdiv.
Example C95_hdiv_ex : area_init CppException 0 0 0 0 (2 / 10) (2 / 10) = Ok frame /\ Forall (fun r => vz (r_vel r) <> 0) [slanted; probe] /\ through frame slanted /\ in_cell (- 60) 60 4 3 45.
Proof. split; [apply frame_of|]. split; [repeat constructor; cbn; lra|]. split; [exact slanted_through|]. unfold in_cell, in_bin. cbn. lra. Qed.

(** DivLambda_monitor: wavelength and horizontal divergence. *)
Theorem C95_divlambda : forall nl nd m l0 l1 e x0 x1 y0 y1 w ht o rs, area_init e x0 x1 y0 y1 w ht = Ok o -> 0 < m -> l0 < l1 -> (0 < nl < 2 ^ 31)%Z -> (0 < nd < 2 ^ 31)%Z ->
  Forall (fun r => vz (r_vel r) <> 0) rs ->
  exists h rs', run (divlambda_trace None o nl nd m l0 l1) (empty (Z.to_nat nl * Z.to_nat nd)) rs = Ok (h, rs') /\ List.length h = (Z.to_nat nl * Z.to_nat nd)%nat /\ Forall2 at_plane rs rs' /\
  forall i j, (i < Z.to_nat nl)%nat -> (j < Z.to_nat nd)%nat -> exists c, nth_error h (j + i * Z.to_nat nd) = Some c /\
    holds (fun r => through o r /\ in_cell l0 l1 nl i (wavelength r) /\ exists d, divergence (vx (r_vel r)) (vz (r_vel r)) d /\ in_cell (- m) m nd j d) rs (c_N c) (c_p c) (c_p2 c).
Proof.
  intros nl nd m l0 l1 e x0 x1 y0 y1 w ht o rs _ H V N1 N2 G.
  destruct (two_run o nl nd l0 l1 (- m) m wavelength hd _ N1 N2 ltac:(lra) ltac:(lra) (divlambda_windows o nl nd m l0 l1) rs G) as (h & rs' & R & L & F & C).
  exists h, rs'. split; [exact R|]. split; [exact L|]. split; [exact F|]. intros i j I J. destruct (C i j I J) as (c & E & K). exists c. split; [exact E|]. eapply holds_iff; [exact G| |exact K].
  intros r M. unfold cell_of. rewrite (hd_div r (in_cell (- m) m nd j) M). reflexivity.
Qed.
Print Assumptions C95_divlambda.
Example C95_divlambda_ex : Forall (fun r => vz (r_vel r) <> 0) [probe] /\ through frame probe /\ in_cell 3 6 1 0 (wavelength probe).
Proof. split; [repeat constructor; cbn; lra|]. split; [exact probe_through|]. pose proof probe_wavelength. unfold in_cell, in_bin. cbn. lra. Qed.

(** DivPos_monitor: position in x and horizontal divergence. *)
Theorem C95_divpos : forall np nd m e x0 x1 y0 y1 w ht o rs, area_init e x0 x1 y0 y1 w ht = Ok o -> 0 < m -> (0 < np < 2 ^ 31)%Z -> (0 < nd < 2 ^ 31)%Z ->
  Forall (fun r => vz (r_vel r) <> 0) rs ->
  exists h rs', run (divpos_trace None o np nd m) (empty (Z.to_nat np * Z.to_nat nd)) rs = Ok (h, rs') /\ List.length h = (Z.to_nat np * Z.to_nat nd)%nat /\ Forall2 at_plane rs rs' /\
  forall i j, (i < Z.to_nat np)%nat -> (j < Z.to_nat nd)%nat -> exists c, nth_error h (j + i * Z.to_nat nd) = Some c /\
    holds (fun r => through o r /\ (exists x y, meets r x y /\ in_cell (xmin o) (xmax o) np i x) /\ exists d, divergence (vx (r_vel r)) (vz (r_vel r)) d /\ in_cell (- m) m nd j d)
      rs (c_N c) (c_p c) (c_p2 c).
Proof.
  intros np nd m e x0 x1 y0 y1 w ht o rs O H N1 N2 G. apply opened_of in O.
  destruct (two_run o np nd (xmin o) (xmax o) (- m) m xat hd _ N1 N2 ltac:(apply O) ltac:(lra) (divpos_windows o np nd m) rs G) as (h & rs' & R & L & F & C).
  exists h, rs'. split; [exact R|]. split; [exact L|]. split; [exact F|]. intros i j I J. destruct (C i j I J) as (c & E & K). exists c. split; [exact E|]. eapply holds_iff; [exact G| |exact K].
  intros r M. unfold cell_of. rewrite (xat_meets r (in_cell (xmin o) (xmax o) np i) M), (hd_div r (in_cell (- m) m nd j) M). reflexivity.
Qed.
Print Assumptions C95_divpos.
Example C95_divpos_ex : Forall (fun r => vz (r_vel r) <> 0) [slanted] /\ through frame slanted /\ in_cell (xmin frame) (xmax frame) 3 1 0 /\ in_cell (- 60) 60 4 3 45.
Proof. split; [repeat constructor; cbn; lra|]. split; [exact slanted_through|]. unfold in_cell, in_bin. cbn. lra. Qed.

(** TOFLambda_monitor: time of arrival, in microseconds, and wavelength. *)
Theorem C95_toflambda : forall nl nt t0 t1 l0 l1 e x0 x1 y0 y1 w ht o rs, area_init e x0 x1 y0 y1 w ht = Ok o -> t0 < t1 -> l0 < l1 -> (0 < nl < 2 ^ 31)%Z -> (0 < nt < 2 ^ 31)%Z ->
  Forall (fun r => vz (r_vel r) <> 0) rs ->
  exists h rs', run (toflambda_trace None o nl nt t0 t1 l0 l1) (empty (Z.to_nat nt * Z.to_nat nl)) rs = Ok (h, rs') /\ List.length h = (Z.to_nat nt * Z.to_nat nl)%nat /\ Forall2 at_plane rs rs' /\
  forall j i, (j < Z.to_nat nt)%nat -> (i < Z.to_nat nl)%nat -> exists c, nth_error h (i + j * Z.to_nat nl) = Some c /\
    holds (fun r => through o r /\ (exists t, arrives r t /\ in_cell t0 t1 nt j (1000000 * t)) /\ in_cell l0 l1 nl i (wavelength r)) rs (c_N c) (c_p c) (c_p2 c).
Proof.
  intros nl nt t0 t1 l0 l1 e x0 x1 y0 y1 w ht o rs _ H V N1 N2 G.
  destruct (two_run o nt nl (t0 * / 1000000) (t1 * / 1000000) l0 l1 tat wavelength _ N2 N1 ltac:(lra) ltac:(lra) (toflambda_windows o nl nt t0 t1 l0 l1) rs G) as (h & rs' & R & L & F & C).
  exists h, rs'. split; [exact R|]. split; [exact L|]. split; [exact F|]. intros j i J I. destruct (C j i J I) as (c & E & K). exists c. split; [exact E|]. eapply holds_iff; [exact G| |exact K].
  intros r M. unfold cell_of. rewrite (in_cell_us t0 t1 nt j (tat r)) by lia. rewrite (tat_arrives r (fun t => in_cell t0 t1 nt j (1000000 * t)) M). reflexivity.
Qed.
Print Assumptions C95_toflambda.
Example C95_toflambda_ex : Forall (fun r => vz (r_vel r) <> 0) [probe] /\ through frame probe /\ arrives probe (/ 1000) /\ in_cell 0 2000 2 1 (1000000 * / 1000) /\ in_cell 3 6 1 0 (wavelength probe).
Proof.
  split; [repeat constructor; cbn; lra|]. split; [exact probe_through|]. split; [apply probe_time|]. pose proof probe_wavelength. unfold in_cell, in_bin. cbn. lra.
Qed.

(** With an empty window nothing is counted, and nothing goes wrong. *)
Theorem C95_empty : forall o nh nv hm vm h r, vz (r_vel r) <> 0 -> hm <= 0 \/ vm <= 0 -> div_trace None o nh nv hm vm h r = Ok (h, prop_z0 None r).
Proof. intros o nh nv hm vm h r M E. apply (div_windows o nh nv hm vm h r M). intros (_ & A & B). lra. Qed.
Print Assumptions C95_empty.
Theorem C95_empty_lambda : forall o nl nt t0 t1 l0 l1 h r, vz (r_vel r) <> 0 -> t1 <= t0 \/ l1 <= l0 -> toflambda_trace None o nl nt t0 t1 l0 l1 h r = Ok (h, prop_z0 None r).
Proof. intros o nl nt t0 t1 l0 l1 h r M E. apply (toflambda_windows o nl nt t0 t1 l0 l1 h r M). intros (_ & A & B). lra. Qed.
Print Assumptions C95_empty_lambda.
Example C95_empty_ex : div_trace None frame 4 4 0 2 (empty 16) probe = Ok (empty 16, prop_z0 None probe) /\ toflambda_trace None frame 4 4 5 5 3 6 (empty 16) probe = Ok (empty 16, prop_z0 None probe).
Proof. split; [apply C95_empty|apply C95_empty_lambda]; (try apply probe_moves); lra. Qed.
