(* Model of the random number generators of the McStas components.

   C = packages/legacycomponents/mcstas2/lib/random_numbers.cc
   H = packages/legacycomponents/mcstas2/lib/random_numbers.h
   unsigned long is a natural number below 2^64, int a whole number in
   [-2^31, 2^31); sums of int that overflow wrap around.  The static arrays are
   lists whose length does not change, read with nth. *)
From Coq Require Import Reals List ZArith NArith Lia Bool.
From Verif Require Import Base.
Import ListNotations.
Local Open Scope N_scope.

(* C 181-182: N and M. *)
Definition Nw : nat := 624.
(* in the group above: C 181-182 *)
Definition Mw : nat := 397.
(* C 183-185: MATRIX_A, UPPER_MASK and LOWER_MASK. *)
Definition MATRIX_A : N := 2567483615.
(* C 183-185 *)
Definition UPPER_MASK : N := 2147483648.
(* C 183-185 *)
Definition LOWER_MASK : N := 2147483647.

(* C 199: arithmetic of unsigned long. *)
Definition u64 (x : N) : N := x mod 2 ^ 64.
(* C 193, 203: & 0xffffffffUL. *)
Definition low32 (x : N) : N := N.land x 4294967295.

(* C 187-188: the static variables mt and mti. *)
Record twister := mkT { mt : list N; mti : nat }.
(* C 187-188: before any call; mt is zero. *)
Definition unseeded : twister := mkT (repeat 0 Nw) (Nw + 1).

(* C 249, 254: mt[kk]. *)
Definition get (l : list N) (i : nat) : N := nth i l 0.
(* C 196, 251: mt[kk] = v. *)
Fixpoint set (l : list N) (i : nat) (v : N) : list N :=
  match l, i with
  | [], _ => []
  | _ :: l', O => v :: l'
  | x :: l', S i' => x :: set l' i' v
  end.

(* C 194-205: the entries from number i on; n are left and prev is the one before. *)
Fixpoint seed_from (n : nat) (prev i : N) : list N :=
  match n with
  | O => []
  | S n' =>
      let v := low32 (u64 (1812433253 * N.lxor prev (N.shiftr prev 30) + i)) in
      v :: seed_from n' v (i + 1)
  end.
(* C 191-206: mt_srandom. *)
Definition mt_srandom (s : N) : twister :=
  let s0 := low32 s in mkT (s0 :: seed_from (Nw - 1) s0 1) Nw.

(* C 250-251, 254-255, 257-258: y from two entries and the new entry from it and a third. *)
Definition new_word (a b m : N) : N :=
  let y := N.lor (N.land a UPPER_MASK) (N.land b LOWER_MASK) in
  N.lxor (N.lxor m (N.shiftr y 1)) (nth (N.to_nat (N.land y 1)) [0; MATRIX_A] 0).

(* C 249-252: first loop; n rounds are left. *)
Fixpoint gen_first (n kk : nat) (l : list N) : list N :=
  match n with
  | O => l
  | S n' => gen_first n' (S kk) (set l kk (new_word (get l kk) (get l (kk + 1)) (get l (kk + Mw))))
  end.
(* C 253-256: second loop. *)
Fixpoint gen_second (n kk : nat) (l : list N) : list N :=
  match n with
  | O => l
  | S n' => gen_second n' (S kk) (set l kk (new_word (get l kk) (get l (kk + 1)) (get l (kk - (Nw - Mw)))))
  end.
(* C 249-258: all words. *)
Definition generate (l : list N) : list N :=
  let l := gen_first (Nw - Mw) 0 l in
  let l := gen_second (Mw - 1) (Nw - Mw) l in
  set l (Nw - 1) (new_word (get l (Nw - 1)) (get l 0) (get l (Mw - 1))).

(* C 266-269: tempering. *)
Definition temper (y : N) : N :=
  let y := N.lxor y (N.shiftr y 11) in
  let y := N.lxor y (N.land (u64 (N.shiftl y 7)) 2636928640) in
  let y := N.lxor y (N.land (u64 (N.shiftl y 15)) 4022730752) in
  N.lxor y (N.shiftr y 18).

(* C 237-272: mt_random. *)
Definition mt_random (st : twister) : N * twister :=
  let st :=
    if (Nw <=? mti st)%nat then
      let st := if (mti st =? Nw + 1)%nat then mt_srandom 5489 else st in   (* 246-247 *)
      mkT (generate (mt st)) 0
    else st in
  (temper (get (mt st) (mti st)), mkT (mt st) (S (mti st))).

(* C 217-224: first loop of init_by_array; k rounds are left. *)
Fixpoint mix_keys (key : list N) (k : nat) (l : list N) (i j : nat) : result (list N * nat) :=
  match k with
  | O => Ok (l, i)
  | S k' =>
      match nth_error key j with
      | None => Err UndefinedBehaviour
      | Some x =>
          let p := get l (i - 1) in
          let v := u64 (N.lxor (get l i) (u64 (N.lxor p (N.shiftr p 30) * 1664525)) + x + N.of_nat j) in
          let l := set l i (low32 v) in
          let i := S i in
          let j := S j in
          let (l, i) := if (Nw <=? i)%nat then (set l 0 (get l (Nw - 1)), 1%nat) else (l, i) in
          let j := if (List.length key <=? j)%nat then O else j in
          mix_keys key k' l i j
      end
  end.
(* C 225-231: second loop. *)
Fixpoint mix_index (k : nat) (l : list N) (i : nat) : list N :=
  match k with
  | O => l
  | S k' =>
      let p := get l (i - 1) in
      let v := u64 (N.lxor (get l i) (u64 (N.lxor p (N.shiftr p 30) * 1566083941)) + (2 ^ 64 - N.of_nat i)) in
      let l := set l i (low32 v) in
      let i := S i in
      let (l, i) := if (Nw <=? i)%nat then (set l 0 (get l (Nw - 1)), 1%nat) else (l, i) in
      mix_index k' l i
  end.
(* C 210-234: init_by_array. *)
Definition init_by_array (key : list N) : result twister :=
  let st := mt_srandom 19650218 in
  let! li := mix_keys key (Nat.max Nw (List.length key)) (mt st) 1 0 in
  let (l, i) := li in
  let l := mix_index (Nw - 1) l i in
  Ok (mkT (set l 0 2147483648) (mti st)).

(* H 35: MC_RAND_MAX as a double. *)
Definition MC_RAND_MAX : R := 4294967295%R.
(* H 47-50: the conversions of a random number to double. *)
Definition rand01 (y : N) : R := (IZR (Z.of_N y) / (MC_RAND_MAX + 1))%R.
(* H 47-50 *)
Definition randpm1 (y : N) : R := (IZR (Z.of_N y) / ((MC_RAND_MAX + 1) / 2) - 1)%R.
(* H 47-50 *)
Definition rand0max (max : R) (y : N) : R := (IZR (Z.of_N y) / ((MC_RAND_MAX + 1) / max))%R.
(* H 47-50 *)
Definition randminmax (min max : R) (y : N) : R := (rand0max (max - min) y + min)%R.

Local Open Scope Z_scope.

(* C 90: arithmetic of int. *)
Definition wrap32 (x : Z) : Z := (x + 2147483648) mod 4294967296 - 2147483648.

(* C 77-82: the static variables: the 31 entries from state on, and the numbers of
   the entries fptr and rptr point to. *)
Record additive := mkA { tbl : list Z; fp : nat; rp : nat }.
(* C 57-60: DEG_3 and SEP_3. *)
Definition deg : nat := 31.
(* SEP_3: C 57-60 *)
Definition sep : nat := 3.

(* C 64-79: the initial values. *)
Definition initial : additive := mkA
  [-1726662223; 379960547; 1735697613; 1040273694; 1313901226;
   1627687941; -179304937; -2073333483; 1780058412; -1989503057;
   -615974602; 344556628; 939512070; -1249116260; 1507946756;
   -812545463; 154635395; 1388815473; -1926676823; 525320961;
   -1009028674; 968117788; -123449607; 1284210865; 435012392;
   -2017506339; -911064859; -370259173; 1132637927; 1398500161;
   -205601318] sep 0.

(* C 90: an entry replaced. *)
Fixpoint setz (l : list Z) (i : nat) (v : Z) : list Z :=
  match l, i with
  | [], _ => []
  | _ :: l', O => v :: l'
  | x :: l', S i' => x :: setz l' i' v
  end.

(* C 84-105: mc_random. *)
Definition mc_random (st : additive) : Z * additive :=
  let v := wrap32 (nth (fp st) (tbl st) 0 + nth (rp st) (tbl st) 0) in
  let t := setz (tbl st) (fp st) v in
  let result := Z.land (Z.shiftr v 1) 2147483647 in
  let f := S (fp st) in
  if (deg <=? f)%nat then (result, mkA t 0 (S (rp st)))                      (* 94-98 *)
  else
    let r := S (rp st) in
    (result, mkA t f (if (deg <=? r)%nat then O else r)).                    (* 99-104 *)

(* C 116-122: one step; / and % of C truncate. *)
Definition schrage (s : Z) : Z :=
  let hi := Z.quot s 127773 in
  let lo := Z.rem s 127773 in
  let test := 16807 * lo - 2836 * hi in
  wrap32 (test + (if test <? 0 then 2147483647 else 0)).
(* C 114-123: n entries after prev. *)
Fixpoint seeds (n : nat) (prev : Z) : list Z :=
  match n with O => [] | S n' => let v := schrage prev in v :: seeds n' v end.
(* C 126-127 with H 36: random is mt_random; n calls whose result is not used. *)
Fixpoint mt_skip (n : nat) (w : twister) : twister :=
  match n with O => w | S n' => mt_skip n' (snd (mt_random w)) end.
(* C 107-129: mc_srandom for an unsigned int; also changes the state of the other
   generator. *)
Definition mc_srandom (x : Z) (w : twister) : additive * twister :=
  let s0 := wrap32 (if x =? 0 then 1 else x) in
  (mkA (s0 :: seeds (deg - 1) s0) sep 0, mt_skip (10 * deg) w).
