(** What C41 and C42 say, without the functions of the model: only its records are used. *)
From Coq Require Import Reals Lra.
From Verif Require Import Base RotModel GridModel.
Open Scope R_scope.

(** the position of tick i of an axis *)
Definition tick (start step : R) (i : nat) : R := start + INR i * step.
(** the mixture of two values: the first for t = 0, the second for t = 1 *)
Definition mix (t a b : R) : R := (1 - t) * a + t * b.
(** the mixture of the eight corners of the cell with lowest corner (i, j, k) *)
Definition mix3 (u : nat -> nat -> nat -> R) (i j k : nat) (t v w : R) : R :=
  mix t (mix v (mix w (u i j k) (u i j (S k))) (mix w (u i (S j) k) (u i (S j) (S k))))
        (mix v (mix w (u (S i) j k) (u (S i) j (S k))) (mix w (u (S i) (S j) k) (u (S i) (S j) (S k)))).
(** a function of three variables that is affine in each of them *)
Definition multilinear (f : R -> R -> R -> R) : Prop :=
  forall t a b,
    (forall y z, f (mix t a b) y z = mix t (f a y z) (f b y z))
    /\ (forall x z, f x (mix t a b) z = mix t (f x a z) (f x b z))
    /\ (forall x y, f x y (mix t a b) = mix t (f x y a) (f x y b)).
(** no tick of the axis is closer to x than tick i *)
Definition closest (start step : R) (n i : nat) (x : R) : Prop :=
  (i <= n)%nat /\ forall j, (j <= n)%nat -> Rabs (x - tick start step i) <= Rabs (x - tick start step j).

(** a grid whose data cover the axes, with steps that are not zero and at least one cell in each direction *)
Definition good (g : grid3) : Prop :=
  (a_n (g_x g) < s0 (g_data g) /\ a_n (g_y g) < s1 (g_data g) /\ a_n (g_z g) < s2 (g_data g))%nat
  /\ (a_step (g_x g) <> 0 /\ a_step (g_y g) <> 0 /\ a_step (g_z g) <> 0)
  /\ (0 < a_n (g_x g) /\ 0 < a_n (g_y g) /\ 0 < a_n (g_z g))%nat.
(** the position in steps from the first tick *)
Definition steps_of (a : axis) (x : R) : R := (x - a_start a) / a_step a.
(** from the first tick, included, to the last, excluded *)
Definition on_axis (a : axis) (x : R) : Prop := 0 <= steps_of a x < INR (a_n a).
(** the position t steps after tick i *)
Definition place (a : axis) (i : nat) (t : R) : R := tick (a_start a) (a_step a) i + t * a_step a.
(** closer than 1e-7 steps to the axis *)
Definition tolerated (a : axis) (x : R) : Prop := - / 10 ^ 7 < steps_of a x < INR (a_n a) + / 10 ^ 7.
(** a position on the axis stays where it is, another one is taken for the first tick *)
Definition moved (a : axis) (x x' : R) : Prop := (on_axis a x /\ x' = x) \/ (~ on_axis a x /\ x' = a_start a).
(** the corners of the cell (i, j, k) *)
Definition corner (i j k p q r : nat) : Prop := (p = i \/ p = S i) /\ (q = j \/ q = S j) /\ (r = k \/ r = S k).
(** tick i stands for the position x: the closest one, or the first one within 1e-7 steps below it or below the last *)
Definition represents (a : axis) (i : nat) (x : R) : Prop :=
  (0 <= steps_of a x <= INR (a_n a) - / 10 ^ 7 /\ closest (a_start a) (a_step a) (a_n a) i x)
  \/ ((- / 10 ^ 7 < steps_of a x < 0 \/ INR (a_n a) - / 10 ^ 7 < steps_of a x < INR (a_n a)) /\ i = 0%nat).

(** linear combination of three vectors *)
Definition comb (b1 b2 b3 : vec3) (x y z : R) : vec3 :=
  mkV (x * vx b1 + y * vx b2 + z * vx b3) (x * vy b1 + y * vy b2 + z * vy b3) (x * vz b1 + y * vz b2 + z * vz b3).
(** three vectors span space: only the trivial combination is zero *)
Definition independent (b1 b2 b3 : vec3) : Prop :=
  forall x y z, comb b1 b2 b3 x y z = mkV 0 0 0 -> x = 0 /\ y = 0 /\ z = 0.
(** 0 <= x < 1 *)
Definition frac (x : R) : Prop := 0 <= x < 1.

(** the shapes that belong together: a cell with n1 x n2 x n3 points, at least two in each direction, three branches per atom *)
Definition fits (natoms n1 n2 n3 : nat) (p : array7) (e : array4) : Prop :=
  (2 <= n1 /\ 2 <= n2 /\ 2 <= n3)%nat
  /\ (e0 e = n1 /\ e1 e = n2 /\ e2 e = n3 /\ e3 e = 3 * natoms)%nat
  /\ (p0 p = n1 /\ p1 p = n2 /\ p2 p = n3 /\ p3 p = 3 * natoms /\ p4 p = natoms /\ p5 p = 3 /\ p6 p = 2)%nat.
(** the coordinate of a point in the cell: i cells and a fraction t of a cell from the corner, n points, h periods away *)
Definition coordinate (h : Z) (n i : nat) (t : R) : R := IZR h + (INR i + t) / INR (n - 1).
(** the value at the last point in each direction is the value at the first *)
Definition closed (n1 n2 n3 : nat) (u : nat -> nat -> nat -> R) : Prop :=
  (forall j k, u (n1 - 1)%nat j k = u 0%nat j k) /\ (forall i k, u i (n2 - 1)%nat k = u i 0%nat k) /\ (forall i j, u i j (n3 - 1)%nat = u i j 0%nat).
(** no neighbour differs by more than M1, M2, M3 in the three directions *)
Definition gradual (n1 n2 n3 : nat) (u : nat -> nat -> nat -> R) (M1 M2 M3 : R) : Prop :=
  forall i j k, (i < n1)%nat -> (j < n2)%nat -> (k < n3)%nat ->
    ((S i < n1)%nat -> Rabs (u (S i) j k - u i j k) <= M1)
    /\ ((S j < n2)%nat -> Rabs (u i (S j) k - u i j k) <= M2)
    /\ ((S k < n3)%nat -> Rabs (u i j (S k) - u i j k) <= M3).
(** point i, of n along an edge of the cell, stands for the coordinate x in [0,1): the closest point, or the first one when x is less than 1e-7 cells before the last *)
Definition stands_for (n i : nat) (x : R) : Prop :=
  (x * INR (n - 1) <= INR (n - 1) - / 10 ^ 7 /\ closest 0 (1 / INR (n - 1)) (n - 1) i x)
  \/ (INR (n - 1) - / 10 ^ 7 < x * INR (n - 1) /\ i = 0%nat).
