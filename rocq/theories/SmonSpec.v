(** What a spherical monitor should do. *)
From Coq Require Import Reals ZArith.
From Verif Require Import Base RotModel ShapeSpec OptModel OptSpec BmonModel BmonSpec CmonSpec.
Open Scope R_scope.

(** on the sphere at the time t from now *)
Definition on_sphere (radius : R) (r : ray) (t : R) : Prop :=
  let p := on_line (r_pos r) (r_vel r) t in vx p ^ 2 + vy p ^ 2 + vz p ^ 2 = radius ^ 2.
(** s is the first time at which it is there, and it is there later than now *)
Definition first_meets (radius : R) (r : ray) (s : R) : Prop :=
  0 <= s /\ on_sphere radius r s /\ (forall t, 0 <= t < s -> ~ on_sphere radius r t) /\ exists u, 0 < u /\ on_sphere radius r u.
(** longitude and latitude of the point at the time s *)
Definition longitude (r : ray) (s phi : R) : Prop := azimuth (vx (on_line (r_pos r) (r_vel r) s)) (vz (on_line (r_pos r) (r_vel r) s)) phi.
Definition latitude (radius : R) (r : ray) (s theta : R) : Prop := - (PI / 2) <= theta <= PI / 2 /\ vy (on_line (r_pos r) (r_vel r) s) = radius * sin theta.
(** one of n equal intervals from lo to hi, the last one with its end *)
Definition in_bin_end (lo hi : R) (n : Z) (k : nat) (a : R) : Prop := in_bin lo hi n k a \/ Z.of_nat k = (n - 1)%Z /\ a = hi.
(** the k-th of n parallels that divide the half circle from -90 degrees is the nearest one to theta; the last one takes the rest *)
Definition near_parallel (n : Z) (k : nat) (theta : R) : Prop :=
  - (PI / 2) + PI * (INR k - 1 / 2) / IZR n <= theta /\ (theta < - (PI / 2) + PI * (INR k + 1 / 2) / IZR n \/ Z.of_nat k = (n - 1)%Z).
