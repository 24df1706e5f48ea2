(* Model of the numerical routines of the SNS source components.

   L = packages/legacycomponents/mcstas2/lib/share/sns_source-lib.cc
   H = packages/legacycomponents/mcstas2/lib/share/sns_source-lib.h
   Doubles are reals, int is Z.  Arrays are lists; reading or writing outside
   is the error UndefinedBehaviour.  Loops that need not end take fuel. *)
From Coq Require Import Reals List ZArith Lia Lra Bool.
From Verif Require Import Base RotModel ShapeModel ChanModel.
Import ListNotations.
Local Open Scope R_scope.

(* L 139: vecx[idx]. *)
Definition rd (l : list R) (i : Z) : result R :=
  if (i <? 0)%Z then Err UndefinedBehaviour
  else match nth_error l (Z.to_nat i) with Some x => Ok x | None => Err UndefinedBehaviour end.

(* L 265: Prob[idx1] = value, in a list. *)
Fixpoint set_nth (l : list R) (n : nat) (v : R) : list R :=
  match l, n with
  | [], _ => []
  | _ :: l', O => v :: l'
  | x :: l', S n' => x :: set_nth l' n' v
  end.
(* L 265: Prob[idx1] = value. *)
Definition wr (l : list R) (i : Z) (v : R) : result (list R) :=
  if (i <? 0)%Z || (Z.of_nat (List.length l) <=? i)%Z then Err UndefinedBehaviour
  else Ok (set_nth l (Z.to_nat i) v).

(* L 128-133: linint. *)
Definition linint (xdes x1 x2 y1 y2 : R) : R := (y2 - y1) / (x2 - x1) * (xdes - x1) + y1.

(* L 139-141 and 172-174: the search loop; vecx[idx] is read before idx is
   compared with the length. *)
Fixpoint scan (vecx : list R) (xdes : R) (len : Z) (fuel : nat) (idx : Z) : result Z :=
  match fuel with
  | O => Err OutOfFuel
  | S f =>
      let! v := rd vecx idx in
      if Rltb v xdes && (idx <? len)%Z then scan vecx xdes len f (idx + 1)%Z else Ok idx
  end.

(* L 135-152: linfuncint; xylen is a double with an integral value.  The message
   of 142-144 is left out (idx is never above xylen).  The array ends at the
   latest after as many rounds as it has entries. *)
Definition linfuncint (xdes : R) (xylen : Z) (vecx vecy : list R) : result R :=
  let! idx := scan vecx xdes xylen (S (List.length vecx)) 0 in
  let! x := rd vecx idx in
  if Reqb x xdes then rd vecy idx                                            (* 145-147 *)
  else
    let! x1 := rd vecx (idx - 1) in
    let! y1 := rd vecy (idx - 1) in
    let! y2 := rd vecy idx in
    if Reqb x x1 then Err ZeroDivisionError else Ok (linint xdes x1 x y1 y2).  (* 150 *)

(* L 158-166: quadint. *)
Definition quadint (xdes x1 x2 x3 y1 y2 y3 : R) : result R :=
  if Reqb x1 x2 || Reqb x1 x3 || Reqb x2 x3 then Err ZeroDivisionError
  else
    let t1 := (xdes - x2) * (xdes - x3) * y1 / ((x1 - x2) * (x1 - x3)) in
    let t2 := (xdes - x1) * (xdes - x3) * y2 / ((x2 - x1) * (x2 - x3)) in
    let t3 := (xdes - x1) * (xdes - x2) * y3 / ((x3 - x1) * (x3 - x2)) in
    Ok (t1 + t2 + t3).

(* L 168-186: quadfuncint. *)
Definition quadfuncint (xdes : R) (xylen : Z) (vecx vecy : list R) : result R :=
  let! idx := scan vecx xdes xylen (S (List.length vecx)) 1 in
  let! x := rd vecx idx in
  if Reqb x xdes then rd vecy idx                                            (* 179-181 *)
  else
    let! x1 := rd vecx (idx - 2) in
    let! x2 := rd vecx (idx - 1) in
    let! y1 := rd vecy (idx - 2) in
    let! y2 := rd vecy (idx - 1) in
    let! y3 := rd vecy idx in
    quadint xdes x1 x2 x y1 y2 y3.                                           (* 184 *)

(* H 80-89, 111-122: the functors Xonly and Txonly. *)
Definition xonly (xylength : Z) (inxvec inyvec : list R) (x : R) : result R := linfuncint x xylength inxvec inyvec.
(* H 96-105, 129-140: the functors Pfunc and TPfunc. *)
Definition pfunc (xylength : Z) (inxvec Pvec : list R) (x y : R) : result R :=
  let! q := quadfuncint x xylength inxvec Pvec in Ok (q - y).

(* L 205-207: the sum over n midpoints from x on in steps of stpsze. *)
Fixpoint sum_points (func : R -> result R) (n : nat) (x stpsze sum : R) : result R :=
  match n with
  | O => Ok sum
  | S n' => let! f := func x in sum_points func n' (x + stpsze) stpsze (sum + f)
  end.

(* L 190-211: integtrap; pw2 = 2 ^ (step - 2) is an int, which overflows for step
   above 32. *)
Definition integtrap (func : R -> result R) (prev low high : R) (step : Z) : result R :=
  if (step =? 1)%Z then
    let! fh := func high in
    let! fl := func low in
    Ok (1 / 2 * (high - low) * (fh + fl))                                    (* 195 *)
  else if (32 <? step)%Z then Err UndefinedBehaviour
  else
    let pw2 := (2 ^ Z.max 0 (step - 2))%Z in                                 (* 199-201 *)
    let npts := IZR pw2 in
    let stpsze := (high - low) / npts in
    let! sum := sum_points func (Z.to_nat pw2) (low + 1 / 2 * stpsze) stpsze 0 in
    Ok (1 / 2 * (prev + (high - low) * sum / npts)).                         (* 208 *)

(* L 221-226: the loop of integ1; ends by the overflow in integtrap at the
   latest. *)
Fixpoint refine (func : R -> result R) (low high err : R) (fuel : nat) (idx : Z) (out outprev : R) : result R :=
  match fuel with
  | O => Err OutOfFuel
  | S f =>
      if Rltb (err * Rabs out) (Rabs (out - outprev)) then
        let! out' := integtrap func out low high (idx + 1) in
        refine func low high err f (idx + 1)%Z out' out
      else Ok out
  end.

(* L 212-228: integ1. *)
Definition integ1 (func : R -> result R) (low high err : R) : result R :=
  let! out := integtrap func 0 low high 1 in
  let outprev := out in
  let! out := integtrap func out low high 2 in
  refine func low high err 40 2 out outprev.

(* L 240-243: the loop that enlarges the interval. *)
Fixpoint enlarge (func : R -> R -> result R) (yval xl f : R) (fuel : nat) (xh fmid : R) : result R :=
  match fuel with
  | O => Err OutOfFuel
  | S n =>
      if Rleb 0 (fmid * f) then
        let xh := xh + (xh - xl) * 2 in
        let! fmid := func xh yval in
        enlarge func yval xl f n xh fmid
      else Ok xh
  end.

(* L 246-253: the bisection. *)
Fixpoint bisection (func : R -> R -> result R) (yval tol : R) (fuel : nat) (rtb dx : R) : result R :=
  match fuel with
  | O => Err OutOfFuel
  | S n =>
      let! v := func rtb yval in
      if Rltb tol (Rabs v) then
        let dx := dx * (1 / 2) in
        let xmid := rtb + dx in
        let! fmid := func xmid yval in
        bisection func yval tol n (if Rltb fmid 0 then xmid else rtb) dx
      else Ok rtb
  end.

(* L 233-255: zero_find; pow(10, ...) of decimal logarithms is written with the
   natural ones.  Limits that are not positive, for which the logarithm is nan
   or infinite, are not modelled further. *)
Definition zero_find (func : R -> R -> result R) (yval xmin xmax tol : R) (fuel : nat) : result R :=
  if Rleb xmin 0 || Rleb xmax 0 then Err ValueError
  else
    let xl := xmin in
    let xh := exp (ln xmin + yval * (ln xmax - ln xmin)) in                  (* 237 *)
    let! f := func xl yval in                                                (* 238 *)
    let! fmid := func xh yval in                                             (* 239 *)
    let! xh := enlarge func yval xl f fuel xh fmid in
    bisection func yval tol fuel xl (xh - xl).                               (* 244-254 *)

(* L 264-267 and 301-304: entries up to the lower limit. *)
Fixpoint below (llim : R) (xvec : list R) (fuel : nat) (Prob : list R) (idx : Z) : result (list R * Z) :=
  match fuel with
  | O => Err OutOfFuel
  | S f =>
      let! x := rd xvec idx in
      if Rleb x llim then
        let! Prob := wr Prob idx 0 in
        below llim xvec f Prob (idx + 1)%Z
      else Ok (Prob, idx)
  end.

(* L 275-279 and 307-311: the sums up to the upper limit. *)
Fixpoint cumulate (func : R -> result R) (hlim : R) (xvec : list R) (fuel : nat) (Prob : list R) (idx : Z)
  : result (list R * Z) :=
  match fuel with
  | O => Err OutOfFuel
  | S f =>
      let! x := rd xvec idx in
      if Rleb x hlim then
        let! x1 := rd xvec (idx - 1) in
        let! junk := integ1 func x1 x (1 / 1000) in
        let! p1 := rd Prob (idx - 1) in
        let! Prob := wr Prob idx (p1 + junk) in
        cumulate func hlim xvec f Prob (idx + 1)%Z
      else Ok (Prob, idx)
  end.

(* L 281-284 and 313-316: ones from idx to the end; n rounds are left. *)
Fixpoint ones (n : nat) (Prob : list R) (idx : Z) : result (list R) :=
  match n with
  | O => Ok Prob
  | S n' => let! Prob := wr Prob idx 1 in ones n' Prob (idx + 1)%Z
  end.

(* L 288-290 and 322-325: division by the norm; n rounds are left. *)
Fixpoint norm_all (Norm : R) (n : nat) (Prob : list R) (idx : Z) : result (list R) :=
  match n with
  | O => Ok Prob
  | S n' =>
      let! p := rd Prob idx in
      let! Prob := wr Prob idx (p / Norm) in
      norm_all Norm n' Prob (idx + 1)%Z
  end.

(* L 281-291 and 313-326: end of both routines. *)
Definition finish (Prob : list R) (veclen start stop : Z) : result (list R * Z * Z) :=
  let! Prob := ones (Z.to_nat (veclen - stop)) Prob stop in
  let! Norm := rd Prob (stop - 1) in                                         (* 286, 318 *)
  if Rltb 0 Norm then
    let! Prob := norm_all Norm (Z.to_nat (stop - start)) Prob start in
    Ok (Prob, start, stop)
  else Ok (Prob, start, stop).

(* L 259-292: Pcalc; the probabilities, idxstart and idxstop.  exit is the error
   Terminated. *)
Definition Pcalc (func : R -> result R) (llim hlim : R) (xvec Prob : list R) (veclen : Z) : result (list R * Z * Z) :=
  let fuel := S (List.length xvec) in
  let! pi := below llim xvec fuel Prob 0 in
  let (Prob, idx1) := pi in
  if (idx1 <? 1)%Z then Err Terminated                                       (* 268-271 *)
  else
    let start := idx1 in
    let! x := rd xvec idx1 in
    let! first := integ1 func llim x (1 / 1000) in
    let! Prob := wr Prob idx1 first in                                       (* 273 *)
    let! pi := cumulate func hlim xvec fuel Prob (idx1 + 1) in               (* 274-279 *)
    let (Prob, stop) := pi in
    finish Prob veclen start stop.

(* L 296-327: tPcalc; idx1 is not increased after the first entry. *)
Definition tPcalc (func : R -> result R) (llim hlim : R) (xvec Prob : list R) (veclen : Z) : result (list R * Z * Z) :=
  let fuel := S (List.length xvec) in
  let! pi := below llim xvec fuel Prob 0 in
  let (Prob, idx1) := pi in
  let start := idx1 in
  let! x := rd xvec idx1 in
  let! first := integ1 func llim x (1 / 1000) in
  let! Prob := wr Prob idx1 first in                                         (* 306 *)
  let! pi := cumulate func hlim xvec fuel Prob idx1 in
  let (Prob, stop) := pi in
  finish Prob veclen start stop.
