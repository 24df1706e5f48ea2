(* Model of the tables and the reflectivities of McStas.

   T = packages/legacycomponents/mcstas2/lib/share/read_table-lib.cc
   F = packages/legacycomponents/mcstas2/lib/share/ref-lib.cc
   Numbers (double) are reals, long is Z; reading outside the data or a
   variable that has not been set is the error UndefinedBehaviour. *)
From Coq Require Import Reals List ZArith Lia Lra Bool.
From Verif Require Import Base RotModel ShapeModel ChanModel.
Import ListNotations.
Local Open Scope R_scope.

(* share/read_table-lib.h: member method of t_Table, the strings "linear" and
   "nearest" or any other (T 682-685). *)
Inductive method := Linear | Nearest | OtherMethod.

(* T 797-823: t_Table; filename, header, block_number, array_length, begin,
   end and filesize do not enter the functions below and are left out.
   data = None is the null pointer. *)
Record table := mkT {
  data : option (list R); rows : Z; columns : Z;
  max_x : R; min_x : R; step_x : R;
  monotonic : bool; constantstep : bool; tmethod : method }.

(* FLT_MAX of <cfloat>, used in T 846-847. *)
Definition FLT_MAX : R := IZR (2 ^ 128 - 2 ^ 104).

(* T 612: data[index]. *)
Definition c_read (d : list R) (a : Z) : result R :=
  if (a <? 0)%Z then Err UndefinedBehaviour
  else match nth_error d (Z.to_nat a) with Some x => Ok x | None => Err UndefinedBehaviour end.

(* T 594-615: Table_Index. *)
Definition Table_Index (t : table) (i j : Z) : result R :=
  let i := if (i <? 0)%Z then 0%Z else i in                                 (* 598 *)
  let j := if (j <? 0)%Z then 0%Z else j in                                 (* 599 *)
  let a :=
    if (columns t =? 1)%Z || (rows t =? 1)%Z then (i + j)%Z                  (* 601-602 *)
    else
      let i := if (rows t <=? i)%Z then (rows t - 1)%Z else i in             (* 604 *)
      let j := if (columns t <=? j)%Z then (columns t - 1)%Z else j in       (* 605 *)
      (i * columns t + j)%Z in                                               (* 606 *)
  let a :=
    if (rows t * columns t <=? a)%Z then (rows t * columns t - 1)%Z          (* 608-609 *)
    else if (a <? 0)%Z then 0%Z else a in                                    (* 610 *)
  match data t with Some d => c_read d a | None => Ok 0 end.                 (* 611-614 *)

(* T 638: data[index] = value, as a new list. *)
Fixpoint put (d : list R) (n : nat) (v : R) : list R :=
  match d, n with
  | [], _ => []
  | _ :: d', O => v :: d'
  | x :: d', S n' => x :: put d' n' v
  end.

(* T 638: the table with other data. *)
Definition with_data (t : table) (d : option (list R)) : table :=
  mkT d (rows t) (columns t) (max_x t) (min_x t) (step_x t) (monotonic t) (constantstep t) (tmethod t).

(* T 627-641: Table_SetElement; the returned number and the table afterwards. *)
Definition Table_SetElement (t : table) (i j : Z) (v : R) : result (Z * table) :=
  let i := if (i <? 0)%Z then 0%Z else i in                                 (* 632 *)
  let i := if (rows t <=? i)%Z then (rows t - 1)%Z else i in                 (* 633 *)
  let j := if (j <? 0)%Z then 0%Z else j in                                 (* 634 *)
  let j := if (columns t <=? j)%Z then (columns t - 1)%Z else j in           (* 635 *)
  let a := (i * columns t + j)%Z in                                          (* 636 *)
  match data t with
  | Some d =>
      if (a <? 0)%Z || (Z.of_nat (List.length d) <=? a)%Z then Err UndefinedBehaviour
      else Ok (1%Z, with_data t (Some (put d (Z.to_nat a) v)))               (* 638, 640 *)
  | None => Ok (0%Z, t)                                                      (* 639 *)
  end.

(* T 1051-1060: Table_Interp1d. *)
Definition Table_Interp1d (x x1 y1 x2 y2 : R) : R :=
  if Reqb x2 x1 then (y1 + y2) / 2
  else if Reqb y1 y2 then y1
  else y1 + (y2 - y1) / (x2 - x1) * (x - x1).

(* T 1067-1073: Table_Interp1d_nearest. *)
Definition Table_Interp1d_nearest (x x1 y1 x2 y2 : R) : R :=
  if Rltb (Rabs (x - x1)) (Rabs (x - x2)) then y1 else y2.

(* T 666-671: the loop over Index; n rounds are left, xs holds X1 and X2 if
   they have been set. *)
Fixpoint look (t : table) (X : R) (n : nat) (Index : Z) (xs : option (R * R))
  : result (Z * option (R * R)) :=
  match n with
  | O => Ok (Index, xs)
  | S n' =>
      let! X2 := Table_Index t Index 0 in                                    (* 668 *)
      let! X1 := Table_Index t (Index - 1) 0 in                              (* 669 *)
      if Rleb X1 X && Rltb X X2 then Ok (Index, Some (X1, X2))               (* 670 *)
      else look t X n' (Index + 1)%Z (Some (X1, X2))
  end.

(* T 655-688: Table_Value. *)
Definition Table_Value (t : table) (X : R) (j : Z) : result R :=
  if Rltb (max_x t) X then Table_Index t (rows t - 1) j                      (* 661 *)
  else if Rltb X (min_x t) then Table_Index t 0 j                            (* 662 *)
  else
    let! ixs :=
      if negb (constantstep t) then look t X (Z.to_nat (rows t - 2)) 1 None  (* 664-671 *)
      else if Reqb (max_x t) (min_x t) then Err UndefinedBehaviour           (* 673: nan as long *)
      else
        let Index := floorZ ((X - min_x t) / (max_x t - min_x t) * IZR (rows t)) in  (* 673-675 *)
        let! X1 := Table_Index t Index 0 in                                  (* 676 *)
        let! X2 := Table_Index t (Index + 1) 0 in                            (* 677 *)
        Ok (Index, Some (X1, X2)) in
    let (Index, xs) := ixs in
    let! Y2 := Table_Index t Index j in                                      (* 679 *)
    let! Y1 := Table_Index t (Index - 1) j in                                (* 680 *)
    match tmethod t, xs with
    | Linear, Some (X1, X2) => Ok (Table_Interp1d X X1 Y1 X2 Y2)             (* 682-683 *)
    | Nearest, Some (X1, X2) => Ok (Table_Interp1d_nearest X X1 Y1 X2 Y2)    (* 684-685 *)
    | OtherMethod, _ => Ok 0
    | _, None => Err UndefinedBehaviour                                      (* X1, X2 not set *)
    end.

(* T 1084-1097: Table_Interp2d. *)
Definition Table_Interp2d (x y x1 y1 x2 y2 z11 z12 z21 z22 : R) : R :=
  if Reqb x2 x1 then Table_Interp1d y y1 z11 y2 z12
  else if Reqb y1 y2 then Table_Interp1d x x1 z11 x2 z21
  else
    let ratio_y := (y - y1) / (y2 - y1) in
    let ratio_x := (x - x1) / (x2 - x1) in
    (1 - ratio_x) * (1 - ratio_y) * z11 + ratio_x * (1 - ratio_y) * z21
    + ratio_x * ratio_y * z22 + (1 - ratio_x) * ratio_y * z12.

(* T 701-726: Table_Value2d; x1, x2, y1, y2 are doubles with integral values. *)
Definition Table_Value2d (t : table) (X Y : R) : result R :=
  let x1 := floorZ X in                                                      (* 705 *)
  let y1 := floorZ Y in                                                      (* 706 *)
  let x2 := if (rows t - 1 <? x1)%Z || (x1 <? 0)%Z then x1 else (x1 + 1)%Z in     (* 707-708 *)
  let y2 := if (columns t - 1 <? y1)%Z || (y1 <? 0)%Z then y1 else (y1 + 1)%Z in  (* 709-710 *)
  let! z11 := Table_Index t x1 y1 in                                         (* 711 *)
  let! z12 := Table_Index t x1 y2 in                                         (* 712 *)
  let! z21 := Table_Index t x2 y1 in                                         (* 713 *)
  let! z22 := Table_Index t x2 y2 in                                         (* 714 *)
  match tmethod t with
  | Linear => Ok (Table_Interp2d X Y (IZR x1) (IZR y1) (IZR x2) (IZR y2) z11 z12 z21 z22)  (* 717 *)
  | _ =>
      Ok (if Rltb (Rabs (X - IZR x1)) (Rabs (X - IZR x2))                    (* 719 *)
          then if Rltb (Rabs (Y - IZR y1)) (Rabs (Y - IZR y2)) then z11 else z12   (* 720 *)
          else if Rltb (Rabs (Y - IZR y1)) (Rabs (Y - IZR y2)) then z21 else z22)  (* 722 *)
  end.

(* T 791-825: Table_Init; that there is not enough memory is left out. *)
Definition Table_Init (r c : Z) : Z * table :=
  let d := if (1 <=? r * c)%Z then Some (repeat 0 (Z.to_nat (r * c))) else None in  (* 812-814 *)
  let r := if (1 <=? r)%Z then r else 0%Z in                                 (* 821 *)
  let c := if (1 <=? c)%Z then c else 0%Z in                                 (* 822 *)
  ((r * c)%Z, mkT d r c 0 0 0 false false Linear).                           (* 798-810, 823-824 *)

(* T 854-855: the i-th value of the first column, or of the only row. *)
Definition entry (t : table) (row : bool) (i : Z) : result R :=
  if row then Table_Index t i 0 else Table_Index t 0 i.

(* T 851-858: least and greatest value; n rounds are left. *)
Fixpoint extrema (t : table) (row : bool) (n : nat) (i : Z) (mn mx : R) : result (R * R) :=
  match n with
  | O => Ok (mn, mx)
  | S n' =>
      let! X := entry t row i in
      extrema t row n' (i + 1)%Z (if Rltb X mn then X else mn) (if Rltb mx X then X else mx)
  end.

(* T 863-872: minimal step and sign of the steps; the comparison uses the
   members max_x and min_x as they were before the call. *)
Fixpoint least_step (t : table) (row : bool) (n : nat) (i : Z) (step : R) (mono : bool)
  : result (R * bool) :=
  match n with
  | O => Ok (step, mono)
  | S n' =>
      let! X := entry t row i in
      let! Xn := Table_Index t (i + 1) 0 in
      let diff := Xn - X in
      least_step t row n' (i + 1)%Z
        (if Rltb (Rabs diff) (Rabs step) then diff else step)
        (if Rltb ((max_x t - min_x t) * diff) 0 && mono then false else mono)
  end.

(* T 875-883: the steps are compared with the minimal one; READ_TABLE_STEPTOL
   is 0.02 (share/read_table-lib.h 87). *)
Fixpoint same_steps (t : table) (row : bool) (n : nat) (i : Z) (step : R) : result bool :=
  match n with
  | O => Ok true
  | S n' =>
      let! X := entry t row i in
      let! Xn := Table_Index t (i + 1) 0 in
      let diff := Xn - X in
      if Rltb (Rabs step * (1 - 2 / 100)) (Rabs diff)
         && Rltb (Rabs diff) (Rabs step * (1 + 2 / 100))
      then same_steps t row n' (i + 1)%Z step
      else Ok false
  end.

(* T 833-891: Table_Stat. *)
Definition Table_Stat (t : table) : result table :=
  if (rows t =? 0)%Z || (columns t =? 0)%Z then Ok t                         (* 844 *)
  else
    let row := negb (rows t =? 1)%Z in                                       (* 845 *)
    let n := if row then rows t else columns t in                            (* 848 *)
    let! e := extrema t row (Z.to_nat n) 0 FLT_MAX (- FLT_MAX) in
    let (mn, mx) := e in
    if (1 <? n)%Z then
      let! sm := least_step t row (Z.to_nat (n - 1)) 0 ((mx - mn) / IZR (n - 1)) true in
      let (step, mono) := sm in
      let! const := if mono then same_steps t row (Z.to_nat (n - 1)) 0 step else Ok true in
      Ok (mkT (data t) (rows t) (columns t) mx mn step mono const (tmethod t))
    else Ok (mkT (data t) (rows t) (columns t) mx mn 0 true true (tmethod t)).

(* T 562: ceil. *)
Definition ceilZ (x : R) : Z := (- floorZ (- x))%Z.

(* T 571-573: the values of one row of the new table from column j on, n of
   them. *)
Fixpoint rebin_row (t : table) (X : R) (n : nat) (j : Z) : result (list R) :=
  match n with
  | O => Ok []
  | S n' => let! y := Table_Value t X j in let! l := rebin_row t X n' (j + 1)%Z in Ok (y :: l)
  end.

(* T 565-574: the rows of the new table from row i on, n of them. *)
Fixpoint rebin_rows (t : table) (step : R) (n : nat) (i : Z) : result (list R) :=
  match n with
  | O => Ok []
  | S n' =>
      let X := min_x t + IZR i * step in                                     (* 569 *)
      let! ys := rebin_row t X (Z.to_nat (columns t - 1)) 1 in
      let! l := rebin_rows t step n' (i + 1)%Z in
      Ok ((X :: ys) ++ l)
  end.

(* T 543-582: Table_Rebin; the returned number and the table afterwards.  If
   the new number of rows is negative, malloc fails and returns null. *)
Definition Table_Rebin (t : table) : result (Z * table) :=
  match data t with
  | None => Ok (0%Z, t)                                                      (* 550-552 *)
  | Some _ =>
      if (rows t * columns t =? 0)%Z || Reqb (step_x t) 0 then Ok (0%Z, t)   (* 551-552 *)
      else
        let! s := Table_Stat t in                                            (* 553 *)
        if constantstep s then Ok ((rows s * columns s)%Z, s)                (* 556-557 *)
        else if Reqb (step_x s) 0 then Err UndefinedBehaviour                (* 562: infinity as long *)
        else
          let L := ceilZ (Rabs (max_x s - min_x s) / step_x s) in            (* 562 *)
          let! d :=
            if (L <=? 0)%Z then Ok None
            else let! l := rebin_rows s (step_x s) (Z.to_nat L) 0 in Ok (Some l) in
          Ok ((L * columns s)%Z,
              mkT d L (columns s) (max_x s) (min_x s) (step_x s)
                (monotonic s) (constantstep s) (tmethod s))                  (* 576-581 *)
  end.

(* F 49-53: the parameters of StdReflecFunc. *)
Record mirror := mkMir { R0 : R; Qc : R; alpha : R; m_value : R; W : R }.

(* F 48-96: StdReflecFunc. *)
Definition StdReflecFunc (q : R) (p : mirror) : R :=
  let q := Rabs q in                                                         (* 55 *)
  let special := Reqb (W p) 0 && Reqb (alpha p) 0 in                         (* 67 *)
  let m := if special then m_value p * (9853 / 10000) + 1978 / 10000 else m_value p in   (* 68 *)
  let w := if special then - (2 / 10000) * m + 22 / 10000 else W p in        (* 69 *)
  let a := if special
           then if Rleb m 3 then m else 2304 / 10000 * m + 50944 / 10000     (* 70, 73 *)
           else alpha p in
  let b := if special
           then if Rleb m 3 then 0 else - (76251 / 10000) * m + 681137 / 10000  (* 71, 74 *)
           else 0 in
  let arg := if Rltb 0 w then (q - m * Qc p) / w else 11 in                  (* 78 *)
  if Rltb 10 arg || Rleb m 0 || Rleb (Qc p) 0 || Rleb (R0 p) 0 then 0        (* 80-83 *)
  else
    let qc := if Rltb m 1 then Qc p * m else Qc p in                         (* 85 *)
    if Rleb q qc then R0 p                                                   (* 87-90 *)
    else R0 p * (1 / 2) * (1 - tanh arg)
         * (1 - a * (q - qc) + b * (q - qc) * (q - qc)).                     (* 93 *)

(* F 103-109: TableReflecFunc. *)
Definition TableReflecFunc (q : R) (t : table) : result R :=
  let! r := Table_Value t q 1 in                                             (* 105 *)
  Ok (if Rltb 1 r then 1 else r).                                            (* 106-107 *)
