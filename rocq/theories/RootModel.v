(** Finding roots: packages/mccomponents/lib/math/{rootfinding.h,rootfinding.cc,misc.cc}.

    Doubles are reals.  The function whose roots are looked for is a function on reals that throws nothing. *)
From Coq Require Import Reals.
From Verif Require Import Base RotModel ShapeModel ChanModel.
Open Scope R_scope.

(* misc::sign: misc.cc:6-8 *)
Definition sign (a b : R) : R := if Rleb 0 b then Rabs a else - Rabs a.
(* UNUSED: rootfinding.h:81 *)
Definition UNUSED : R := - (111 * 10 ^ 28).
(* MAX_NUM_LOOPS: rootfinding.h:82 *)
Definition MAX_NUM_LOOPS : nat := 60.
(* what a call of zridd ends with: a value, a value with failed = 1, RootNotFound or a const char* thrown: rootfinding.cc:58-62, 178-183, 256, 267 *)
Inductive outcome := Found (x : R) | Failed | RootNotFound | Message.
(* check_answer followed by return: rootfinding.cc:58-62, 206-207, 214-215, 233-234, 261-262 *)
Definition check_answer (ans : R) : outcome := if Reqb ans UNUSED then RootNotFound else Found ans.
(* the local variables of the loop: rootfinding.cc:160 *)
Record bracket := mkB { b_xl : R; b_fl : R; b_xh : R; b_fh : R; b_ans : R }.
(* xnew, None if s = 0: rootfinding.cc:201-212 *)
Definition next_x (b : bracket) (xm fm : R) : option R :=
  let temp := fm * fm - b_fh b * b_fl b in
  if Rleb 0 temp
  then let s := sqrt temp in
       if Reqb s 0 then None else Some (xm + (xm - b_xl b) * ((if Rleb (b_fh b) (b_fl b) then 1 else -1) * fm / s))
  else Some xm.
(* the body of the loop: rootfinding.cc:192-263; inl: the function ends, inr: the loop goes on *)
Definition ridder_step (f : R -> R) (xacc : R) (b : bracket) : outcome + bracket :=
  let xm := 1 / 2 * (b_xl b + b_xh b) in
  let fm := f xm in
  match next_x b xm fm with
  | None => inl (check_answer (b_ans b))
  | Some xnew =>
      if Rleb (Rabs (xnew - b_ans b)) xacc then inl (check_answer (b_ans b))
      else
        let ans := xnew in
        let fnew := f ans in
        if Reqb fnew 0 then inl (check_answer ans)
        else
          let next :=
            if negb (Reqb (sign fm fnew) fm) then Some (mkB xm fm ans fnew ans)
            else if negb (Reqb (sign (b_fl b) fnew) (b_fl b)) then Some (mkB (b_xl b) (b_fl b) ans fnew ans)
            else if negb (Reqb (sign (b_fh b) fnew) (b_fh b)) then Some (mkB ans fnew (b_xh b) (b_fh b) ans)
            else None in
          match next with
          | None => inl Message
          | Some b' => if Rleb (Rabs (b_xh b' - b_xl b')) xacc then inl (check_answer ans) else inr b'
          end
  end.
(* the loop: rootfinding.cc:190-267; the first argument is the number of runs left *)
Fixpoint ridder_loop (f : R -> R) (xacc : R) (left : nat) (b : bracket) : outcome :=
  match left with
  | O => Message
  | S left' => match ridder_step f xacc b with inl o => o | inr b' => ridder_loop f xacc left' b' end
  end.
(* zridd for a Functor: rootfinding.cc:153-272 *)
Definition zridd (f : R -> R) (x1 x2 xacc : R) : outcome :=
  let fl := f x1 in
  let fh := f x2 in
  if Rleb 0 (fl * fh)
  then if Reqb fl 0 then Found x1 else if Reqb fh 0 then Found x2 else Failed
  else ridder_loop f xacc (MAX_NUM_LOOPS - 1) (mkB x1 fl x2 fh UNUSED).
(* ZRidd::solve with the flag failed: rootfinding.h:115-117 *)
Definition ZRidd_solve (xacc : R) (x1 x2 : R) (f : R -> R) : outcome := zridd f x1 x2 xacc.

(* one step of FindRootsEvenly::solve: rootfinding.cc:33-45; what is thrown is caught *)
Definition root_of_step (solve : R -> R -> (R -> R) -> outcome) (f : R -> R) (x1 step : R) (i : nat) : list R :=
  match solve (x1 + step * INR i) (x1 + step * INR (i + 1)) f with Found x => [x] | _ => [] end.
(* FindRootsEvenly::solve: rootfinding.cc:10-49; no steps, no division by zero *)
Definition find_roots_evenly (solve : R -> R -> (R -> R) -> outcome) (nSteps : nat) (x1 x2 : R) (f : R -> R) : list R :=
  let step := (x2 - x1) / INR nSteps in flat_map (root_of_step solve f x1 step) (seq 0 nSteps).
