(** Neutrons between the blades of a turning rotor, independent of the model's functions. *)
From Coq Require Import Reals.
From Verif Require Import Base RotModel OptModel SelcModel.
Open Scope R_scope.

(** the neutron when it crosses the plane at z *)
Definition crossing (r : ray) (z : R) : ray :=
  let s := (z - vz (r_pos r)) / vz (r_vel r) in
  mkRay (mkV (vx (r_pos r) + vx (r_vel r) * s) (vy (r_pos r) + vy (r_vel r) * s) z) (r_vel r) (r_t r + s) (r_s1 r) (r_s2 r) (r_p r).
(** apertures *)
Definition in_aperture (w h : R) (r : ray) : Prop := Rabs (vx (r_pos r)) <= w / 2 /\ Rabs (vy (r_pos r)) <= h / 2.
Definition in_window (o : opening) (r : ray) : Prop := xmin o <= vx (r_pos r) <= xmax o /\ ymin o <= vy (r_pos r) <= ymax o.
(** distance from the axis of a rotor, which is r0 below the beam, and angle around it *)
Definition polar (r0 : R) (r : ray) (rho phi : R) : Prop :=
  0 < rho /\ - PI < phi <= PI /\ vx (r_pos r) = rho * sin phi /\ vy (r_pos r) + r0 = rho * cos phi.
(** a neutron that enters a gap at the angle psi from its first blade and moves by delta against the blades hits no blade *)
Definition free (gap delta psi : R) : Prop := 0 <= psi <= gap /\ 0 <= psi + delta <= gap.
(** f is the share of the angles within the pitch (gap and blade) at which a neutron hits no blade *)
Definition free_share (pitch gap delta f : R) : Prop :=
  exists lo hi, lo <= hi /\ (forall psi, free gap delta psi <-> lo <= psi <= hi) /\ f = (hi - lo) / pitch.
(** the same selector *)
Definition same_rotor (c : vselector) (d : selector) : Prop :=
  v_l0 c = s_len d /\ v_l1 c = s_len d /\ v_r0 c = s_radius d /\ v_phi c = s_alfa d /\ v_tb c = s_width d /\ v_nb c = s_num d /\ v_rot c = 60 * s_feq d /\
  xmin (s_frame d) = - v_width c / 2 /\ xmax (s_frame d) = v_width c / 2 /\ ymin (s_frame d) = - v_height c / 2 /\ ymax (s_frame d) = v_height c / 2.
(** the neutron moved along the beam *)
Definition shifted (r : ray) (z : R) : ray := mkRay (mkV (vx (r_pos r)) (vy (r_pos r)) (vz (r_pos r) + z)) (r_vel r) (r_t r) (r_s1 r) (r_s2 r) (r_p r).
