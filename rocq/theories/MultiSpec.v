(** Vocabulary for C50. *)
From Coq Require Import Reals.
From Verif Require Import Base PhonSpec.
Open Scope R_scope.

(** the mean number of phonons of energy [E], [b] being 1/(k T) *)
Definition mean_phonons (b E n : R) : Prop := n * (exp (b * E) - 1) = 1.
(** (2n+1) g / E, the integrand of the mean square displacement *)
Definition displacement (b E g F : R) : Prop := exists n, mean_phonons b E n /\ F = (2 * n + 1) * g / E.
(** a spectrum on the energies -h, ..., h (steps), of which gain and loss are in the ratio of Boltzmann; [x] is the energy step over k T *)
Definition balanced (x : R) (h : nat) (l : list R) : Prop :=
  List.length l = (2 * h + 1)%nat /\ forall i, (i <= h)%nat -> nth (h + i) l 0 = exp (INR i * x) * nth (h - i) l 0.
(** term [k] of the product of two polynomials *)
Definition folded (a b : list R) (k : nat) : R :=
  total (map (fun j => nth j a 0 * (if Nat.leb j k then nth (k - j) b 0 else 0)) (seq 0 (List.length a))).
(** the terms of the product in the middle, as many as there are of each factor *)
Definition middle (a b : list R) : list R := map (fun i => folded a b (i + List.length a / 2)) (seq 0 (List.length a)).
(** the probability of [n] events of mean number [x] *)
Definition poisson (x : R) (n : nat) : R := x ^ n * exp (- x) / INR (fact n).
(** the mean square displacement sum, with the value at zero energy extrapolated from the next two *)
Definition mean_square (b dE : R) (g : list R) (G : R) : Prop :=
  exists F : nat -> R, (forall i, (1 <= i < List.length g)%nat -> displacement b (INR i * dE) (nth i g 0) (F i)) /\
    F 0%nat = 2 * F 1%nat - F 2%nat /\ G = dE * total (map F (seq 0 (List.length g))).
(** 2W of a momentum transfer [Q] (1/angstrom) for atoms of [M] mass units: hbar^2 Q^2 / (2 M) in meV times [G] *)
Definition exponent (Q M G w : R) : Prop :=
  w = (10545716 / 10 ^ 41 * (Q * 10 ^ 10)) ^ 2 / (2 * M * (166053873 / 10 ^ 35)) * (62415097 * 10 ^ 14) * G.
(** the spectrum of one phonon on the energies -h, ..., h (steps of [dE]): loss with n+1, gain with n, at zero twice the value extrapolated from the next two *)
Definition one_spectrum (b dE : R) (g : list R) (G : R) (h : nat) (A : list R) : Prop :=
  List.length A = (2 * h + 1)%nat /\
  (forall i n, (1 <= i <= h)%nat -> mean_phonons b (INR i * dE) n ->
     nth (h + i) A 0 = (n + 1) * nth i g 0 / (INR i * dE * G) /\ nth (h - i) A 0 = n * nth i g 0 / (INR i * dE * G)) /\
  nth h A 0 = 2 * (2 * nth (h + 1) A 0 - nth (h + 2) A 0).
(** the spectrum of one phonon more: the middle of the convolution, scaled to the integral one *)
Definition next_spectrum (A1 : list R) (dE : R) (A A' : list R) : Prop :=
  exists c, c <> 0 /\ A' = map (fun x => x / c) (middle A A1) /\ total A' * dE = 1.
(** the data over their integral, with zeros up to the size [n] *)
Definition extended (dE : R) (g : list R) (n : nat) : list R := map (fun i => nth i g 0 / (dE * total g)) (seq 0 n).
(** a sum over the orders from [st] (at least 1) to [N] *)
Definition orders (st : Z) (N : nat) (f : nat -> R) : R := total (map (fun n => if (Z.of_nat n <? st)%Z then 0 else f n) (seq 1 N)).
