(* What the numerical routines of the SNS source are compared with. *)
From Coq Require Import Reals List ZArith Bool.
From Coquelicot Require Import Coquelicot.
From Verif Require Import Base.
Import ListNotations.
Local Open Scope R_scope.

(* Entry of a list. *)
Definition at_ (l : list R) (i : nat) : R := nth i l 0.
Definition rises (xs : list R) : Prop := forall i, (S i < List.length xs)%nat -> at_ xs i < at_ xs (S i).
Definition final (xs : list R) : R := at_ xs (List.length xs - 1).

(* (x,y) is on the line through (x1,y1) and (x2,y2), x1 <> x2. *)
Definition chord_at (x1 y1 x2 y2 x y : R) : Prop := (y - y1) * (x2 - x1) = (y2 - y1) * (x - x1).

(* (x,y) is on the parabola through three points of different x. *)
Definition parabola_at (x1 y1 x2 y2 x3 y3 x y : R) : Prop :=
  exists a b c, y1 = a + b * x1 + c * x1 ^ 2 /\ y2 = a + b * x2 + c * x2 ^ 2 /\ y3 = a + b * x3 + c * x3 ^ 2
    /\ y = a + b * x + c * x ^ 2.

(* f computes g on [a,b]. *)
Definition computes (f : R -> result R) (g : R -> R) (a b : R) : Prop := forall x, a <= x <= b -> f x = Ok (g x).
Definition affine_on (g : R -> R) (a b : R) : Prop := exists c d, forall x, a <= x <= b -> g x = c + d * x.

Fixpoint total (f : nat -> R) (n : nat) : R := match n with O => 0 | S n' => total f n' + f n' end.
(* The trapezoid rule with n panels. *)
Definition trapezoid (g : R -> R) (a b : R) (n : nat) : R :=
  let h := (b - a) / INR n in
  total (fun i => h / 2 * (g (a + INR i * h) + g (a + INR (S i) * h))) n.

(* g is the curve of straight pieces through the points (x_k, y_k). *)
Definition follows (g : R -> R) (xs ys : list R) : Prop :=
  (forall k, (S k < List.length xs)%nat -> affine_on g (at_ xs k) (at_ xs (S k)))
  /\ (forall k, (k < List.length xs)%nat -> g (at_ xs k) = at_ ys k).

(* P holds the integral of g from a limit on up to x_s, ..., x_(e-1), divided by
   the last one if that is positive; zeros before and ones after. *)
Definition cumulative (g : R -> R) (from : R) (xs P : list R) (s e veclen : nat) : Prop :=
  List.length P = List.length xs /\ (forall j, (j < s)%nat -> at_ P j = 0) /\ (forall j, (e <= j < veclen)%nat -> at_ P j = 1)
  /\ exists I : nat -> R, (forall j, (s <= j < e)%nat -> is_RInt g from (at_ xs j) (I j))
      /\ (0 < I (e - 1)%nat -> forall j, (s <= j < e)%nat -> at_ P j = I j / I (e - 1)%nat)
      /\ (I (e - 1)%nat <= 0 -> forall j, (s <= j < e)%nat -> at_ P j = I j).
