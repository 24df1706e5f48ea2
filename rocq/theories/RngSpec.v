(* What the random number generators are compared with. *)
From Coq Require Import Reals List ZArith NArith Bool.
From Verif Require Import Base RngModel.
Import ListNotations.
Local Open Scope N_scope.

(* Words of 32 bits. *)
Definition word (x : N) : Prop := x < 2 ^ 32.

(* The linear map of the Mersenne Twister: multiplication by a matrix over GF(2). *)
Definition times_A (y : N) : N := N.lxor (y / 2) (if N.odd y then 2567483615 else 0).
(* The highest bit of a before the other 31 bits of b. *)
Definition joined (a b : N) : N := a / 2 ^ 31 * 2 ^ 31 + b mod 2 ^ 31.
(* The recurrence of MT19937. *)
Definition recurrence (x : nat -> N) : Prop :=
  forall k, x (k + 624)%nat = N.lxor (x (k + 397)%nat) (times_A (joined (x k) (x (k + 1)%nat))).
(* Its initial values for a seed. *)
Definition seeded (x : nat -> N) (s : N) : Prop :=
  x 0%nat = s mod 2 ^ 32
  /\ forall k, (k < 623)%nat ->
      x (S k) = (1812433253 * N.lxor (x k) (x k / 2 ^ 30) + N.of_nat (S k)) mod 2 ^ 32.

(* The numbers a generator returns. *)
Fixpoint after {A B : Type} (f : A -> B * A) (n : nat) (st : A) : A :=
  match n with O => st | S n' => after f n' (snd (f st)) end.
Definition output {A B : Type} (f : A -> B * A) (st : A) (n : nat) : B := fst (f (after f n st)).

(* The additive generator. *)
Definition additive_sequence (y : nat -> Z) : Prop :=
  forall k, y (k + 31)%nat = ((y k + y (k + 28)%nat) mod 2 ^ 32)%Z.

(* Tempering as published with MT19937. *)
Definition tempered (y : N) : N :=
  let y1 := N.lxor y (y / 2 ^ 11) in
  let y2 := N.lxor y1 (N.land (y1 * 2 ^ 7) 2636928640) in
  let y3 := N.lxor y2 (N.land (y2 * 2 ^ 15) 4022730752) in
  N.lxor y3 (y3 / 2 ^ 18).

(* The number of an int in 0, ..., 2^32 - 1. *)
Definition unsigned (t : Z) : Z := (t mod 2 ^ 32)%Z.
