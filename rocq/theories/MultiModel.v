(** Multi-phonon scattering functions: packages/mccomponents/python/mccomponents/sample/phonon/multiphonon.py.
    Line numbers below are those of this file.

    Doubles are reals.  An array is a list; None stands for an array or a number with a nan or an infinity in it. *)
From Coq Require Import Reals.
From Verif Require Import Base RotModel DetModel ChanModel MonModel ShapeModel ScatModel UnitModel.
Open Scope R_scope.

(* np.arange(start, stop, step): lines 56, 67; a step of zero has no length *)
Definition np_arange (start stop step : R) : result (list R) :=
  if Reqb step 0 then Err ValueError
  else Ok (map (fun i => start + INR i * step) (seq 0 (Z.to_nat (arange_len start stop step)))).
(* a quotient of doubles that is a number, as in lines 176, 206, 207, 233, 248 *)
Definition fdiv (a b : R) : option R := if Reqb b 0 then None else Some (a / b).
(* an array of numbers that are numbers: the reading of None above *)
Fixpoint numbers (l : list (option R)) : option (list R) :=
  match l with
  | [] => Some []
  | x :: l => match x, numbers l with Some x, Some l => Some (x :: l) | _, _ => None end
  end.
(* .sum() and np.sum: lines 59, 176, 245, 251 *)
Definition np_sum (l : list R) : R := fold_left Rplus l 0.

(* reflect: lines 225-228 *)
Definition reflect (a : list R) (multiplier : R) : list R := rev (map (Rmult multiplier) a) ++ tl a.
(* reflected: lines 216-229 *)
Definition reflected (x y : list R) : list R * list R := (reflect x (-1), reflect y 1).
(* coth: lines 232-233 *)
Definition coth (x : R) : option R := fdiv 1 (tanh x).
(* f of gamma0: line 248 *)
Definition gamma0_f (beta E g : R) : option R :=
  match coth (beta * E / 2) with Some c => fdiv (c * g) E | None => None end.
(* gamma0: lines 235-251.  f[0] is overwritten, and not computed here; arrays of unequal lengths are refused (numpy lets one of length 1 pass) *)
Definition gamma0 (E g : list R) (beta dE : R) : result (option R) :=
  match E with
  | [] => Err IndexError
  | E0 :: E' =>
      if negb (Rltb (Rabs E0) (1 / 10 ^ 7)) then Err AssertionError
      else
        let dos_integrated := np_sum g * dE in
        if negb (Rltb (Rabs (dos_integrated - 1)) (1 / 10 ^ 3)) then Err AssertionError
        else if negb (Nat.eqb (List.length E) (List.length g)) then Err ValueError
        else
          match map (fun p => gamma0_f beta (fst p) (snd p)) (combine E' (tl g)) with
          | f1 :: f2 :: l =>
              Ok (match numbers (f1 :: f2 :: l) with
                  | Some (x1 :: x2 :: x) => Some (np_sum ((x1 - (x2 - x1)) :: x1 :: x2 :: x) * dE)
                  | _ => None
                  end)
          | _ => Err IndexError
          end
  end.
(* one element of t: lines 206-207 *)
Definition A1E_t (beta g0 E g : R) : option R :=
  match fdiv 1 (1 - exp (- E * beta)), fdiv g (E * g0) with Some t, Some u => Some (u * t) | _, _ => None end.
(* computeA1E: lines 188-213.  t[z] is overwritten, line 210.  E, g and gamma0 as in gamma0 *)
Definition computeA1E (E g : list R) (beta dE : R) : result (list R * option (list R)) :=
  let z := (List.length E - 1)%nat in
  let! o := gamma0 E g beta dE in
  let '(Er, gr) := reflected E g in
  Ok (Er,
      match o with
      | None => None
      | Some g0 =>
          let t := map (fun p => A1E_t beta g0 (fst p) (snd p)) (combine Er gr) in
          match nth (S z) t None, nth (S (S z)) t None with
          | Some t1, Some t2 => numbers (firstn z t ++ [Some (2 * (t1 + (t1 - t2)))] ++ skipn (S z) t)
          | _, _ => None
          end
      end).
(* convMatrix: lines 180-185 *)
Definition convMatrix (y : list R) : list (list R) := map (fun i => repeat 0 i ++ firstn (List.length y - i) y) (seq 0 (List.length y)).
(* np.inner of a matrix and an array of the length of its rows: line 170 *)
Definition np_inner (M : list (list R)) (Y : list R) : list R := map (fun row => np_sum (map (fun p => fst p * snd p) (combine row Y))) M.
(* AnE_from_n_1: lines 159-177 *)
Definition AnE_from_n_1 (A1E Anm1E : list R) (dE : R) : result (option (list R)) :=
  if negb (Nat.eqb (List.length Anm1E) (List.length A1E)) then Err ValueError
  else
    let n := List.length A1E in
    let Y := repeat 0 n ++ Anm1E ++ repeat 0 (2 * n) in
    let y := repeat 0 (3 * n) ++ A1E in
    let y := rev y in
    let res := np_inner (convMatrix y) Y in
    let res := map (fun x => x * dE) res in
    let start := (n / 2 + 1)%nat in
    let t := firstn n (skipn start res) in
    Ok (numbers (map (fun x => fdiv x (np_sum t * dE)) t)).
(* the loop of computeAnESet, from the row before: lines 153-155; rows with nan are followed by such rows *)
Fixpoint AnE_rows (A1E row : list R) (dE : R) (n : nat) : result (option (list (list R))) :=
  match n with
  | O => Ok (Some [])
  | S n =>
      let! o := AnE_from_n_1 A1E row dE in
      match o with
      | None => Ok None
      | Some r => let! l := AnE_rows A1E r dE n in Ok (option_map (cons r) l)
      end
  end.
(* computeAnESet: lines 146-156 *)
Definition computeAnESet (N : nat) (E g : list R) (beta dE : R) : result (list R * option (list (list R))) :=
  let! (E2, o) := computeA1E E g beta dE in
  match N with
  | O => Err IndexError
  | S n => match o with
           | None => Ok (E2, None)
           | Some A1E => let! l := AnE_rows A1E A1E dE n in Ok (E2, option_map (cons A1E) l)
           end
  end.
(* computeSNQ: lines 138-143 *)
Definition computeSNQ (DW2 : R) (N : nat) : R := DW2 ^ N * exp (- DW2) / INR (fact N).
(* computeSnQSet: lines 129-135 *)
Definition computeSnQSet (N : nat) (DW2 : list R) : list (list R) := map (fun i => map (fun x => computeSNQ x i) DW2) (seq 1 N).
(* line 331 *)
Definition mp_A2m : R := 1 / 10 ^ 10.
(* line 332 *)
Definition mp_J2meV : R := 62415097 * 10 ^ 14.
(* line 333 *)
Definition mp_amu : R := 166053873 / 10 ^ 35.
(* line 335 *)
Definition mp_h_b : R := 10545716 / 10 ^ 41.
(* recoilE: lines 313-316; M = 0 gives inf or nan *)
Definition recoilE (Q M : R) : option R := fdiv (mp_J2meV * ((mp_h_b * Q / mp_A2m) * (mp_h_b * Q / mp_A2m)) / 2) (M * mp_amu).
(* DWExp: lines 305-310 *)
Definition DWExp (Q : list R) (M : R) (E g : list R) (beta dE : R) : result (option (list R)) :=
  let! o := gamma0 E g beta dE in
  Ok (match o, numbers (map (fun q => recoilE q M) Q) with Some g0, Some Er => Some (map (fun x => x * g0) Er) | _, _ => None end).
(* np.outer: lines 102, 123 *)
Definition np_outer (a b : list R) : list (list R) := map (fun s => map (fun x => s * x) b) a.
(* iterSQESet: lines 86-104 and computeSQESet: lines 107-126, which differ in memory used only *)
Definition iterSQESet (N : nat) (Q E : list R) (dE M : R) (g : list R) (beta : R) : result (list R * option (list (list (list R)))) :=
  let! (E2, o) := computeAnESet N E g beta dE in
  let! w := DWExp Q M E g beta dE in
  Ok (E2, match o, w with
          | Some AnE_set, Some DW2 => Some (map (fun p => np_outer (fst p) (snd p)) (combine (computeSnQSet N DW2) AnE_set))
          | _, _ => None
          end).
(* += of two-dimensional arrays of one shape: line 78 *)
Definition add_arrays (s t : list (list R)) : list (list R) := map (fun p => map (fun q => fst q + snd q) (combine (fst p) (snd p))) (combine s t).
(* the loop: lines 74-79 *)
Fixpoint sum_orders (starting_order : Z) (i : Z) (acc : option (list (list R))) (l : list (list (list R))) : option (list (list R)) :=
  match l with
  | [] => acc
  | S1 :: l =>
      if (i <? starting_order - 1)%Z then sum_orders starting_order (i + 1) acc l
      else sum_orders starting_order (i + 1) (Some match acc with None => S1 | Some s => add_arrays s S1 end) l
  end.
(* S of sqe, lines 74, 83: NoOrders is the None returned when no order is summed; NotNumbers an array with nan or inf *)
Inductive sqe_array := NoOrders | NotNumbers | SQE (values : list (list R)).
(* sqe: lines 33-83.  A default Qmax needs the conversion of emax, line 64, nan for a negative emax and then refused by np.arange *)
Definition sqe (E g : list R) (Qmax : option R) (Qmin : R) (dQ : option R) (T M : R) (N : nat) (starting_order : Z) (Emax : option R) : result (list R * list R * sqe_array) :=
  match E with
  | e0 :: E1 :: _ =>
      let dos_sample := List.length E in
      let de := E1 - e0 in
      let emax := last E 0 in
      let Emax := match Emax with Some m => if Reqb m 0 then e0 + de * 3 * INR dos_sample else m | None => e0 + de * 3 * INR dos_sample end in
      let! E := np_arange e0 Emax de in
      if Nat.ltb (List.length E) (List.length g) then Err ValueError
      else
        let g := g ++ repeat 0 (List.length E - List.length g) in
        let int_g := np_sum g * de in
        let! Qmax := match Qmax with
                     | Some q => Ok q
                     | None => match py_e2k emax with Some k => Ok (k * 3) | None => Err ValueError end
                     end in
        let dQ := match dQ with Some d => d | None => (Qmax - Qmin) / 200 end in
        let! Q := np_arange Qmin Qmax dQ in
        let kelvin2mev := 862 / 10 ^ 4 in
        if Reqb (T * kelvin2mev) 0 then Err ZeroDivisionError
        else
          let beta := 1 / (T * kelvin2mev) in
          if Reqb int_g 0 then
            match E with [] => Err IndexError | _ => Err AssertionError end       (* the comparison of nan in gamma0 *)
          else
            let g := map (fun x => x / int_g) g in
            let! (E2, o) := iterSQESet N Q E de M g beta in
            Ok (match o with
                | None => (Q, E2, NotNumbers)
                | Some l => (Q, E2, match sum_orders starting_order 0 None l with None => NoOrders | Some s => SQE s end)
                end)
  | _ => Err IndexError
  end.
