(** Monitors that record the neutrons crossing their plane: the N-dimensional histogram monitor
    (packages/mcni/python/mcni/components/NDMonitor.py) and the event area monitor
    (packages/mcni/python/mcni/components/EventAreaMonitor.py, pyre_components/EventAreaMonitor.py).

    Numbers are real numbers: rounding is not modelled.  A neutron is the record [event] of RotModel.v. *)
From Coq Require Import Reals Lra.
From Verif Require Import Base RotModel ChanModel.
Open Scope R_scope.

(** ** Propagation to the plane of the monitor *)

(* _propagateToZ0: NDMonitor.py:120-126, EventAreaMonitor.py:95-101, on one row.  For vz = 0 numpy divides by zero: dt, and
   with it x, y and t, becomes infinite or nan.  All later comparisons of such a row are false, so it never passes the filter; [None]. *)
Definition propagateToZ0 (n : event) : option event :=
  if Req_EM_T (vz (e_v n)) 0 then None
  else let dt := - vz (e_r n) / vz (e_v n) in
       Some (RotModel.mkE (mkV (vx (e_r n) + vx (e_v n) * dt) (vy (e_r n) + vy (e_v n) * dt) 0)
                          (e_v n) (e_s1 n) (e_s2 n) (e_t n + dt) (e_p n)).

(* the rows of an array for which a filter holds (boolean indexing by ftr): NDMonitor.py:100-103, EventAreaMonitor.py:62-72 *)
Definition propagated_rows (ftr : event -> bool) (arr : list event) : list event :=
  flat_map (fun n => match propagateToZ0 n with Some m => if ftr m then [m] else [] | None => [] end) arr.

(** ** NDMonitorEngine *)

(* an axis: expression, number of bins, range: NDMonitor.py:128-136, 150-164.  The expression is evaluated on the columns of the
   array (112), so on each row separately; [None] stands for a value that is not a finite number *)
Record axis := mkAxis { a_expr : event -> option R; a_bins : nat; a_min : R; a_max : R }.

(* len(arange(start, stop, step)), the ceiling of the quotient: numpy, used in NDMonitor.py:176 *)
Definition arange_len (start stop step : R) : Z := (- floorZ (- ((stop - start) / step)))%Z.
(* the loop of __init__ over the axes: NDMonitor.py:150-180; the result is the shape of the histogram: one less than the number of
   boundaries.  A range that is not a pair (166) is not representable. *)
Definition axis_shape (a : axis) : result nat :=
  if Rleb (a_max a) (a_min a) then Err ValueError                          (* 168-169 *)
  else match a_bins a with
       | O => Err ZeroDivisionError                                        (* 173 *)
       | _ => let db := (a_max a - a_min a) / INR (a_bins a) in
              Ok (Z.to_nat (arange_len (a_min a) (a_max a + db / 10) db - 1))   (* 174-177 *)
       end.
(* the loop over all axes: NDMonitor.py:150-180 *)
Definition engine_shape (axes : list axis) : result (list nat) :=
  fold_result (fun s a => match axis_shape a with Ok k => Ok (s ++ [k]) | Err e => Err e end) axes [].

(* an array over bins: a function of the multi-index; hist.I and hist.E2 *)
Definition narray : Type := list nat -> R.
(* the attributes of NDMonitorEngine: NDMonitor.py:128-180 *)
Record engine := mkEngine { g_axes : list axis; g_xwidth : R; g_yheight : R; g_shape : list nat; g_I : narray; g_E2 : narray }.
(* NDMonitorEngine(name, axes, size): NDMonitor.py:128-180 *)
Definition new_engine (axes : list axis) (xwidth yheight : R) : result engine :=
  let! s := engine_shape axes in Ok (mkEngine axes xwidth yheight s (fun _ => 0) (fun _ => 0)).

(* numpy.histogramdd(sample, bins, ranges, weights)[0] (NDMonitor.py:116-117), from the documentation and source of numpy: edges
   are linspace(min, max, bins+1); the position of a value is the number of edges not above it (searchsorted, side='right'), less one for a value
   equal to the last edge; positions 0 and bins+1 are outliers and are cut off *)
Definition edges (a : axis) : list R :=
  map (fun i => a_min a + INR i * ((a_max a - a_min a) / INR (a_bins a))) (seq 0 (a_bins a + 1)).
(* searchsorted of numpy, as used by NDMonitor.py:116-117 *)
Definition searchsorted_right (es : list R) (x : R) : nat := List.length (filter (fun e => Rleb e x) es).
(* the position of a value on one axis, in numpy.histogramdd: NDMonitor.py:116-117 *)
Definition bin_of (a : axis) (x : R) : option nat :=
  let c := searchsorted_right (edges a) x in
  let c := if Req_EM_T x (a_max a) then (c - 1)%nat else c in
  match c with O => None | S k => if Nat.ltb k (a_bins a) then Some k else None end.
(* the positions on all axes, in numpy.histogramdd: NDMonitor.py:116-117 *)
Fixpoint multi_index (axes : list axis) (n : event) : option (list nat) :=
  match axes with
  | [] => Some []
  | a :: t => match a_expr a n with
              | None => None
              | Some x => match bin_of a x, multi_index t n with Some k, Some l => Some (k :: l) | _, _ => None end
              end
  end.
(* equality of positions (no counterpart in /repo) *)
Definition index_dec : forall i j : list nat, {i = j} + {i <> j} := list_eq_dec Nat.eq_dec.
(* numpy.histogramdd: NDMonitor.py:116-117 *)
Definition histogramdd (axes : list axis) (ns : list event) (w : event -> R) : narray :=
  fun idx => fold_right Rplus 0 (map (fun n => match multi_index axes n with
                                               | Some i => if index_dec i idx then w n else 0
                                               | None => 0 end) ns).

(* the filter of NDMonitor.py:100 *)
Definition in_area (w h : R) (n : event) : bool :=
  (Rleb (- w / 2) (vx (e_r n)) && Rleb (vx (e_r n)) (w / 2) && Rleb (- h / 2) (vy (e_r n)) && Rleb (vy (e_r n)) (h / 2))%bool.

(* NDMonitorEngine.process: NDMonitor.py:81-118.  The neutrons are copied into an array (85), so the buffer, returned second, keeps its content.
   Arrays of different shapes cannot be added: ValueError in 116. *)
Definition engine_process (g : engine) (neutrons : list event) : result (engine * list event) :=
  match neutrons with
  | [] => Ok (g, neutrons)                                                         (* 82-83 *)
  | _ =>
    if (Rltb 0 (g_xwidth g) && Rltb 0 (g_yheight g))%bool then                     (* 97 *)
      let arr := neutrons in                                                       (* 85 *)
      match propagated_rows (in_area (g_xwidth g) (g_yheight g)) arr with          (* 94-103 *)
      | [] => Ok (g, neutrons)                                                     (* 105-106 *)
      | rows =>
        match g_axes g with
        | [] => Err ValueError                                                     (* histogramdd without an axis *)
        | _ =>
          if list_eq_dec Nat.eq_dec (g_shape g) (map a_bins (g_axes g)) then
            Ok (mkEngine (g_axes g) (g_xwidth g) (g_yheight g) (g_shape g)
                  (fun i => g_I g i + histogramdd (g_axes g) rows e_p i)                          (* 116 *)
                  (fun i => g_E2 g i + histogramdd (g_axes g) rows (fun n => e_p n * e_p n) i),   (* 117 *)
                neutrons)
          else Err ValueError
        end
      end
    else Err AssertionError
  end.

(* NDMonitor.process: NDMonitor.py:26-30, 72-75: the engine works on the batch, its histogram is dumped, a new engine replaces it.
   The state is the engine; the result holds the new engine, the arrays that are dumped and the buffer. *)
Definition monitor_process (g : engine) (neutrons : list event) : result (engine * (narray * narray) * list event) :=
  let! (g1, ns) := engine_process g neutrons in
  let! g2 := new_engine (g_axes g) (g_xwidth g) (g_yheight g) in
  Ok (g2, (g_I g1, g_E2 g1), ns).

(** ** EventAreaMonitor *)

(* constructor arguments: components/EventAreaMonitor.py:104-122 *)
Record area := mkArea { xmin : R; xmax : R; ymin : R; ymax : R; tmin : R; tmax : R; nx : Z; ny : Z; ntof : Z }.
(* a row of the structured array: datatype of event_utils.py:22-26 *)
Record aevent := mkA { a_pixel : Z; a_tofch : Z; a_p : R }.

(* the filter of EventAreaMonitor.py:62 *)
Definition in_window (a : area) (n : event) : bool :=
  (Rleb (xmin a) (vx (e_r n)) && Rltb (vx (e_r n)) (xmax a) && Rleb (ymin a) (vy (e_r n)) && Rltb (vy (e_r n)) (ymax a) &&
   Rleb (tmin a) (e_t n) && Rltb (e_t n) (tmax a))%bool.

(* assignment of a double to a field of type uint32: the fraction is dropped; numbers outside the range have no defined conversion *)
Definition to_u32 (x : R) : result Z :=
  let z := truncZ x in if ((0 <=? z) && (z <? 2 ^ 32))%Z%bool then Ok z else Err UndefinedBehaviour.

(* lines 80-89 for one row: dx, dy, dt are quotients of a float and an int; zero divisors raise *)
Definition area_event (a : area) (n : event) : result aevent :=
  if ((nx a =? 0) || (ny a =? 0) || (ntof a =? 0))%Z%bool then Err ZeroDivisionError
  else
    let dx := (xmax a - xmin a) / IZR (nx a) in                        (* 80 *)
    let x_index := (vx (e_r n) - xmin a) / dx in                       (* 81 *)
    let dy := (ymax a - ymin a) / IZR (ny a) in                        (* 82 *)
    let y_index := (vy (e_r n) - ymin a) / dy in                       (* 83 *)
    let! pix := to_u32 (x_index * IZR (ny a) + y_index) in             (* 84 *)
    let dt := (tmax a - tmin a) / IZR (ntof a) in                      (* 86 *)
    let! ch := to_u32 ((e_t n - tmin a) / dt) in                       (* 87 *)
    Ok (mkA pix ch (e_p n)).                                           (* 89 *)
(* all rows: components/EventAreaMonitor.py:80-89 *)
Definition area_events (a : area) (rows : list event) : result (list aevent) :=
  fold_result (fun l n => let! e := area_event a n in Ok (l ++ [e])) rows [].

(* EventAreaMonitor.process: components/EventAreaMonitor.py:43-92.  The state is the attribute self.events, [None] while it has not been set *)
Definition area_process (a : area) (events : option (list aevent)) (neutrons : list event) : result (option (list aevent)) :=
  match neutrons with
  | [] => Ok events                                                    (* 44-45 *)
  | _ =>
    if (Rltb (xmin a) (xmax a) && Rltb (ymin a) (ymax a) && Rltb (tmin a) (tmax a))%bool then     (* 59 *)
      match propagated_rows (in_window a) neutrons with                (* 56, 62-72 *)
      | [] => Ok events                                                (* 66-67 *)
      | rows => let! es := area_events a rows in Ok (Some es)          (* 74-91 *)
      end
    else Err AssertionError
  end.

(* process of the pyre component: pyre_components/EventAreaMonitor.py:58-78: the engine processes the batch and its events are written to the
   output file of the batch (second component).  engine.events raises AttributeError while it has not been set. *)
Definition area_component (a : area) (events : option (list aevent)) (neutrons : list event)
  : result (option (list aevent) * list aevent) :=
  let! ev := area_process a events neutrons in
  match ev with
  | None => Err AttributeError                                         (* 67 *)
  | Some es => Ok (ev, es)                                             (* 69 *)
  end.
