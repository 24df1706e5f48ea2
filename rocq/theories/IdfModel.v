(** Model of the data files of samples: packages/mccomponents/python/mccomponents/sample/idf/ {E,Q,Sqe,Omega2,Polarizations,DOS,__init__}.py.

    Files are lists of bytes, doubles 64-bit words as in StorageModel.v; an array is its shape and its numbers in C order (arrays that are not of doubles,
    which struct converts, are left out).  DOS.py computes with the energies: there doubles are reals and the conversion to and from words is an argument. *)
From Coq Require Import Reals.
From Verif Require Import Base RotModel StorageModel ChanModel.
Open Scope Z_scope.

(* numpy arrays, the arguments of write and results of read: shape and content; Q.py:12-36 *)
Record arr := mkArr { a_shape : list Z; a_data : list Z }.
(* the product of the sizes, ndarray.size: idf/__init__.py:22, 27 *)
Definition size_of (shape : list Z) : Z := fold_right Z.mul 1 shape.
(* tuple of sizes, with the IndexError of a missing one: E.py:18, Q.py:18-19, Sqe.py:18-19, Omega2.py:21-22, Polarizations.py:22-24 *)
Definition shape_at (a : arr) (i : nat) : result Z := match nth_error (a_shape a) i with Some n => Ok n | None => Err IndexError end.

(* pack('<i', n): E.py:16, 18 and the like *)
Definition pack_i (n : Z) : result (list Z) := if (- 2 ^ 31 <=? n) && (n <? 2 ^ 31) then Ok (le_bytes 4 n) else Err StructError.
(* pack('<64s', ...), pack('<1024s', ...): E.py:15, 17 and the like *)
Definition pack_name (s : list Z) : result (list Z) := Ok (pack_s 64 s).
(* in the group above: E.py:15, 17 *)
Definition pack_comment (s : list Z) : result (list Z) := let! c := encode_ascii s in Ok (pack_s 1024 c).
(* pack('<%id' % len(x), *x): E.py:20 and the like *)
Definition pack_d (ws : list Z) : result (list Z) := Ok (words_tostring ws).
(* a sequence of f.write(...) in with open(filename, 'wb'): what is in the file in the end, and what was raised.  E.py:14-20 and the like *)
Fixpoint written (chunks : list (result (list Z))) : list Z * option exn :=
  match chunks with
  | [] => ([], None)
  | Ok b :: cs => let '(f, e) := written cs in (b ++ f, e)
  | Err e :: _ => ([], Some e)
  end.
(* the first three fields: E.py:15-17, Q.py:15-17, Sqe.py:15-17, Omega2.py:15-17, Polarizations.py:16-18, DOS.py:23-25; version is 1, E.py:6 and the like *)
Definition header (name comment : list Z) : list (result (list Z)) := [pack_name name; pack_i 1; pack_comment comment].

(* the names of the files: E.py:15, Q.py:15, Sqe.py:15, Omega2.py:15, Polarizations.py:16, DOS.py:23 *)
Definition nE : list Z := [69].
(* Q.py:15 *)
Definition nQ : list Z := [81].
(* Sqe.py:15 *)
Definition nSqe : list Z := [83; 113; 101].
(* Omega2.py:15 *)
Definition nOmega2 : list Z := [79; 109; 101; 103; 97; 50].
(* Polarizations.py:16 *)
Definition nPol : list Z := [80; 111; 108; 97; 114; 105; 122; 97; 116; 105; 111; 110; 115].
(* DOS.py:23 *)
Definition nDOS : list Z := [68; 79; 83].

(* tuple(E) packed as doubles: E.py:19-20.  Rows with one number are converted, others are refused *)
Definition pack_rows (a : arr) : result (list Z) :=
  match a_shape a with
  | [] => Err TypeError
  | n :: rest => if (n =? 0) || (size_of rest =? 1) then pack_d (a_data a) else Err StructError
  end.
(* E.write: E.py:12-21 *)
Definition E_write (a : arr) (comment : list Z) : list Z * option exn :=
  written (header nE comment ++ [(let! n := shape_at a 0 in pack_i n); pack_rows a]).
(* Q.write: Q.py:12-22 *)
Definition Q_write (a : arr) (comment : list Z) : list Z * option exn :=
  written (header nQ comment ++ [(let! n := shape_at a 1 in pack_i n); (let! n := shape_at a 0 in pack_i n); pack_d (a_data a)]).
(* Sqe.write: Sqe.py:12-22 *)
Definition Sqe_write (a : arr) (comment : list Z) : list Z * option exn :=
  written (header nSqe comment ++ [(let! n := shape_at a 0 in pack_i n); (let! n := shape_at a 1 in pack_i n); pack_d (a_data a)]).
(* Omega2.write: Omega2.py:12-25 *)
Definition Omega2_write (a : arr) (comment : list Z) (D : Z) : list Z * option exn :=
  written (header nOmega2 comment ++ [pack_i D; (let! n := shape_at a 1 in let! b := py_div n D in pack_i b); (let! n := shape_at a 0 in pack_i n); pack_d (a_data a)]).

(* complex arrays, the argument of Polarizations.write (12-14): real and imaginary parts in C order *)
Record carr := mkC { c_shape : list Z; c_data : list (Z * Z) }.
(* pairs of neighbours, for the fifth axis: Polarizations.py:20-21 *)
Fixpoint pairs {A} (l : list A) : list (A * A) := match l with x :: y :: l => (x, y) :: pairs l | _ => [] end.
(* res[:,:,:,:,0] = real(Pols), res[:,:,:,:,1] = imag(Pols): Polarizations.py:19-21.  With four axes each number becomes (real, imaginary); with a fifth
   axis of size two the two real parts come before the two imaginary parts.  More than five axes are not modelled. *)
Definition split_complex (c : carr) : result arr :=
  match c_shape c with
  | [n; bd; b; d] => Ok (mkArr [n; bd; b; d; 2] (flat_map (fun z => [fst z; snd z]) (c_data c)))
  | [n; bd; b; d; m] => if m <? 2 then Err IndexError
                        else if m =? 2 then Ok (mkArr [n; bd; b; d; 2; 2] (flat_map (fun p => [fst (fst p); fst (snd p); snd (fst p); snd (snd p)]) (pairs (c_data c))))
                        else Err ValueError
  | [] | [_] | [_; _] | [_; _; _] => Err IndexError
  | _ => Err ValueError
  end.
(* Polarizations.write: Polarizations.py:12-29 *)
Definition Pol_write (c : carr) (comment : list Z) : list Z * option exn :=
  written (header nPol comment ++ [(let! _ := split_complex c in Ok []); (let! r := split_complex c in let! n := shape_at r 3 in pack_i n); (let! r := split_complex c in let! n := shape_at r 2 in pack_i n);
                                   (let! r := split_complex c in let! n := shape_at r 0 in pack_i n); (let! r := split_complex c in pack_d (a_data r))]).

(* f[i:i+n]: E.py:28-31 and the like *)
Definition slice (i n : nat) (f : list Z) : list Z := firstn n (skipn i f).
(* unpack('<ns', b): E.py:28, 30 *)
Definition unpack_s (n : nat) (b : list Z) : result (list Z) := if (Z.of_nat (List.length b) =? Z.of_nat n) then Ok b else Err StructError.
(* unpack('<i', b), one of the integers of '<2i', '<3i': E.py:29, 31, Q.py:32, Omega2.py:35 *)
Definition unpack_i (b : list Z) : result Z := if (Z.of_nat (List.length b) =? 4) then Ok (le_signed 4 b) else Err StructError.
(* unpack('<%id' % n, b): E.py:32 and the like.  A negative count is not a format *)
Definition unpack_d (n : Z) (b : list Z) : result (list Z) := if (n <? 0) then Err StructError else if (Z.of_nat (List.length b) =? 8 * n) then Ok (words_of b) else Err StructError.
(* (filetype.strip(b'\x00').decode(), version, comment.strip(b'\x00').decode()): E.py:34 and the like *)
Record info := mkInfo { i_type : list Z; i_ver : Z; i_text : list Z }.
(* in the group above: E.py:34 *)
Definition make_info (t : list Z) (v : Z) (c : list Z) : result info := let! t := decode_bytes (strip0 t) in let! c := decode_bytes (strip0 c) in Ok (mkInfo t v c).
(* the first three fields: E.py:28-30, Q.py:29-31, Sqe.py:29-31, Omega2.py:32-34, Polarizations.py:37-39, DOS.py:37-39; and the position behind them *)
Definition read_header (f : list Z) : result (list Z * Z * list Z) :=
  let! t := unpack_s 64 (slice 0 64 f) in let! v := unpack_i (slice 64 4 f) in let! c := unpack_s 1024 (slice 68 1024 f) in Ok (t, v, c).
(* in the group above: E.py:28-30, Q.py:29-31, Sqe.py:29-31, Omega2.py:32-34, Polarizations.py:37-39, DOS.py:37-39 *)
Definition after_header : nat := 1092.
(* X.shape = (...): Q.py:35, Sqe.py:35, Omega2.py:38, Polarizations.py:44.  The numbers fit, by unpack; negative sizes are refused *)
Definition set_shape (shape : list Z) (ws : list Z) : result arr := if forallb (fun n => 0 <=? n) shape then Ok (mkArr shape ws) else Err ValueError.

(* E.read: E.py:23-34 *)
Definition E_read (f : list Z) : result (info * arr) :=
  let! h := read_header f in let '(t, v, c) := h in
  let! n := unpack_i (slice after_header 4 f) in
  let! ws := unpack_d n (skipn (after_header + 4) f) in
  let! i := make_info t v c in Ok (i, mkArr [n] ws).
(* Q.read: Q.py:24-36 *)
Definition Q_read (f : list Z) : result (info * arr) :=
  let! h := read_header f in let '(t, v, c) := h in
  let! D := unpack_i (slice after_header 4 f) in let! N_q := unpack_i (slice (after_header + 4) 4 f) in
  let! ws := unpack_d (N_q * D) (skipn (after_header + 8) f) in
  let! a := set_shape [N_q; D] ws in
  let! i := make_info t v c in Ok (i, a).
(* Sqe.read: Sqe.py:24-36 *)
Definition Sqe_read (f : list Z) : result (info * arr) :=
  let! h := read_header f in let '(t, v, c) := h in
  let! N_e := unpack_i (slice after_header 4 f) in let! N_q := unpack_i (slice (after_header + 4) 4 f) in
  let! ws := unpack_d (N_e * N_q) (skipn (after_header + 8) f) in
  let! a := set_shape [N_e; N_q] ws in
  let! i := make_info t v c in Ok (i, a).
(* filetype == 'Omega2': Omega2.py:40 *)
Definition text_eqb (a b : list Z) : bool := if list_eq_dec Z.eq_dec a b then true else false.
(* Omega2.read: Omega2.py:27-41 *)
Definition Omega2_read (f : list Z) : result (info * arr) :=
  let! h := read_header f in let '(t, v, c) := h in
  let! D := unpack_i (slice after_header 4 f) in let! N_b := unpack_i (slice (after_header + 4) 4 f) in let! N_q := unpack_i (slice (after_header + 8) 4 f) in
  let! ws := unpack_d (N_q * N_b * D) (skipn (after_header + 12) f) in
  let! a := set_shape [N_q; N_b * D] ws in
  let! ft := decode_bytes (strip0 t) in
  if text_eqb ft nOmega2 then (let! i := make_info t v c in Ok (i, a)) else Err AssertionError.
(* Polarizations.read: Polarizations.py:31-45 *)
Definition Pol_read (f : list Z) : result (info * arr) :=
  let! h := read_header f in let '(t, v, c) := h in
  let! D := unpack_i (slice after_header 4 f) in let! N_b := unpack_i (slice (after_header + 4) 4 f) in let! N_q := unpack_i (slice (after_header + 8) 4 f) in
  let! ws := unpack_d (N_q * N_b * D * N_b * D * 2) (skipn (after_header + 12) f) in
  let! a := set_shape [N_q; N_b * D; N_b; D; 2] ws in
  let! i := make_info t v c in Ok (i, a).

(** DOS.py.  [enc]: the word of a double, [dec]: its value; [h2m]: hertz2mev of units.py:4-11.  E_unit: DOS.py:12. *)
Inductive eunit := TeraHz | MeV | OtherUnit.
(* E/hertz2mev/1e12/2/pi: DOS.py:14-21 *)
Definition to_terahertz (h2m : R) (u : eunit) (E : list R) : result (list R) :=
  match u with
  | TeraHz => Ok E
  | MeV => Ok (map (fun e => (e / h2m / 10 ^ 12 / 2 / PI)%R) E)
  | OtherUnit => Err NotImplementedError
  end.
(* DOS.write: DOS.py:12-30; the unit is looked at before the file is opened *)
Definition DOS_write (enc : R -> Z) (h2m : R) (E DOS : list R) (comment : list Z) (u : eunit) : result (list Z * option exn) :=
  let! E := to_terahertz h2m u E in
  Ok (written (header nDOS comment ++ [pack_i (Z.of_nat (List.length DOS)); (match E with e0 :: e1 :: _ => pack_d [enc (e1 - e0)%R] | _ => Err IndexError end); pack_d (map enc DOS)])).
(* numpy.arange(0, (N_Bins-0.1)*dE, dE): DOS.py:44; ceil(stop/step) numbers, no numbers if that is negative.  A step of zero gives nan and ValueError *)
Definition arange_bins (N : Z) (dE : R) : result (list R) :=
  if Req_EM_T dE 0 then Err ValueError
  else let n := 1 - up (- ((IZR N - 1 / 10) * dE / dE)) in Ok (map (fun i => (INR i * dE)%R) (seq 0 (Z.to_nat n))).
(* DOS.read: DOS.py:32-45 *)
Definition DOS_read (dec : Z -> R) (f : list Z) : result (info * list R * list R) :=
  let! h := read_header f in let '(t, v, c) := h in
  let! N := unpack_i (slice after_header 4 f) in
  let! dE := unpack_d 1 (slice (after_header + 4) 8 f) in
  let! ws := unpack_d N (skipn (after_header + 12) f) in
  let! E := arange_bins N (dec (hd 0 dE)) in
  let! i := make_info t v c in Ok (i, E, map dec ws).
(* readDOS: idf/__init__.py:121-128 *)
Definition readDOS (dec : Z -> R) (h2m : R) (f : list Z) : result (list R * list R) :=
  let! r := DOS_read dec f in let '(_, v, Z) := r in Ok (map (fun x => (x * 2 * PI * 10 ^ 12 * h2m)%R) v, Z).

(** idf/__init__.py *)
(* files of a directory: idf/__init__.py:19, 24, 29; by name *)
Definition disk := string -> option (list Z).
(* in the group above: idf/__init__.py:19, 24, 29 *)
Definition read_file {A} (d : disk) (name : string) (rd : list Z -> result A) : result A := match d name with Some f => rd f | None => Err IOError end.
(* in the group above: idf/__init__.py:19, 24, 29 *)
Definition put (d : disk) (name : string) (f : list Z) : disk := fun n => if string_dec n name then Some f else d n.
(* one writer after the other; the first exception ends it: idf/__init__.py:43-61 *)
Fixpoint put_all (d : disk) (l : list (string * (list Z * option exn))) : disk * option exn :=
  match l with
  | [] => (d, None)
  | (n, (f, None)) :: l => put_all (put d n f) l
  | (n, (f, Some e)) :: _ => (put d n f, Some e)
  end.
(* the parts of a histogram of the histogram package (external) that are used: boundaries of the axes and data *)
Record sqe_hist := mkSH { sh_q : list Z; sh_e : list Z; sh_data : arr }.
(* writeSQE: idf/__init__.py:43-61 *)
Definition writeSQE (h : sqe_hist) (d : disk) (nQ nE nS : string) : disk * option exn :=
  put_all d [(nQ, Q_write (mkArr [Z.of_nat (List.length (sh_q h)); 1] (sh_q h)) []); (nE, E_write (mkArr [Z.of_nat (List.length (sh_e h))] (sh_e h)) []); (nS, Sqe_write (sh_data h) [])].
(* readSQE: idf/__init__.py:17-39; q.shape = q.size, flattens *)
Definition readSQE (d : disk) (nQ nE nS : string) : result sqe_hist :=
  let! q := read_file d nQ Q_read in let! e := read_file d nE E_read in let! s := read_file d nS Sqe_read in
  Ok (mkSH (a_data (snd q)) (a_data (snd e)) (snd s)).

(* what readDispersion checks and returns of the arrays: idf/__init__.py:86-118; [ngrid]: sizes of the grid, [ncell]: number of reciprocal vectors.  Returned:
   nAtoms, dimension, shapes of polarizations and energies, and the energies in reals *)
Definition dispersion_of (dec : Z -> R) (h2m : R) (omega2 pol : arr) (ngrid : list Z) (ncell : nat) : result (Z * Z * list Z * list Z * list R) :=
  let energies := map (fun w => (sqrt (if Rltb (dec w) 0 then 0 else dec w) * h2m)%R) (a_data omega2) in
  match a_shape pol with
  | [N_q; N_bD; N_b; D; temp] =>
      if negb (temp =? 2) then Err AssertionError
      else if negb (N_bD =? N_b * D) then Err AssertionError
      else if negb (D =? Z.of_nat (List.length ngrid)) then Err AssertionError
      else if negb (D =? Z.of_nat ncell) then Err AssertionError
      else match ngrid with
           | [] => Err TypeError
           | _ => if negb (N_q =? size_of ngrid) then Err AssertionError
                  else if negb (Z.of_nat (List.length (a_data omega2)) =? size_of ngrid * N_bD) then Err ValueError
                  else Ok (N_b, D, ngrid ++ [N_bD; N_b; D; 2], ngrid ++ [N_bD], energies)
           end
  | _ => Err ValueError
  end.
