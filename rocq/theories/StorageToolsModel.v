(** Model of merging and normalising neutron files:
    packages/mcni/python/mcni/neutron_storage/_merge.py, neutron_storage/__init__.py and
    components/NeutronToStorage.py. *)
From Verif Require Import Base StorageModel.
From Coq Require Import QArith.
Open Scope Z_scope.

(** ** Programs over the file system with crash windows

    A program maps a file system to the list of its crash windows, the final file system and its result.
    A window (d, p) stands for the execution of one call during which only the content of path [p] may be in
    flux: a crash inside it leaves every path other than [p] as in [d] and anything (torn writes
    included) at [p].  Atomic calls (os.rename) contribute no in-flux window: only the states before
    and after are possible. *)
Definition window : Type := (fs * string)%type.
(* the type of such programs (part of the semantics, no counterpart in /repo) *)
Definition prog (A : Type) := fs -> list window * fs * result A.

(* no call, a result (part of the semantics) *)
Definition ret {A} (a : A) : prog A := fun d => ([], d, Ok a).
(* no call, an exception (part of the semantics) *)
Definition fail {A} (e : exn) : prog A := fun d => ([], d, Err e).
(* one program after another (part of the semantics) *)
Definition pbind {A B} (m : prog A) (f : A -> prog B) : prog B :=
  fun d => match m d with
           | (w1, d1, Err e) => (w1, d1, Err e)
           | (w1, d1, Ok a) => let '(w2, d2, r) := f a d1 in (w1 ++ w2, d2, r)
           end.
Notation "'do!' x ':=' c1 'in' c2" := (pbind c1 (fun x => c2))
  (at level 61, x pattern, c1 at next level, right associativity).

(* a call that may only write path p *)
Definition touching {A} (p : string) (f : fs -> fs * result A) : prog A :=
  fun d => let '(d', r) := f d in ([(d, p)], d', r).

(* Storage(path, 'w'): default buffersize 10000, no packet size (Storage.py:39-40) *)
Definition p_open_w (path : string) : prog storage :=
  touching path (fun d => st_open d path MW None 10000).
(* Storage(path, 'r'): does not write anything *)
Definition p_open_r (path : string) : prog storage :=
  fun d => let '(d', r) := st_open d path MR None 10000 in ([], d', r).
(* Storage.write *)
Definition p_write (s : storage) (ns : list neutron) : prog storage :=
  touching (s_path s) (fun d => let '(s', d', r) := st_write s d ns in
                                (d', match r with Ok _ => Ok s' | Err e => Err e end)).
(* Storage.close, also run by Storage.__del__ (Storage.py:243) *)
Definition p_close (s : storage) : prog unit :=
  touching (s_path s) (fun d => let '(s', d', r) := st_close s d in (d', r)).
(* Storage.read: does not write *)
Definition p_read (s : storage) (n : option Z) (asnpyarr : bool) : prog (storage * option (list neutron)) :=
  fun d => let '(s', r) := st_read s d n asnpyarr true in
           ([], d, match r with Ok x => Ok (s', x) | Err e => Err e end).

(* os.remove *)
Definition p_remove (p : string) : prog unit :=
  touching p (fun d => match d p with
                       | Some (File _) => (fs_set d p None, Ok tt)
                       | _ => (d, Err IOError) end).
(* os.rename(src, dst): atomic replacement of dst *)
Definition p_rename (src dst : string) : prog unit :=
  fun d => match d src with
           | Some e => ([], fs_set (fs_set d src None) dst (Some e), Ok tt)
           | None => ([], d, Err IOError)
           end.
(* idf_usenumpy.count(filename): open for reading fails with IOError on a missing path or directory *)
Definition p_count (p : string) : prog Z :=
  fun d => match d p with
           | Some (File b) => ([], d, Ok (idf_count b))
           | _ => ([], d, Err IOError)
           end.
(* os.path.exists (library, not code of /repo) *)
Definition p_exists (p : string) : prog bool := fun d => ([], d, Ok (fs_exists d p)).

(** ** merge: _merge.py:9-27 *)
(* loop body 19-26; the reader s goes out of scope at the end of each iteration and is closed, which does not write *)
Fixpoint merge_loop (out : storage) (paths : list string) : prog storage :=
  match paths with
  | [] => ret out
  | p :: rest =>
      do! s := p_open_r p in
      do! (s', neutrons) := p_read s None false in
      match neutrons with
      | Some (x :: xs) => do! out' := p_write out (x :: xs) in merge_loop out' rest   (* if neutrons: 24-25 *)
      | _ => merge_loop out rest
      end
  end.
(* out is closed when the function returns, by Storage.__del__ (CPython finalisation) *)
Definition merge (paths : list string) (newpath : string) : prog unit :=
  match paths with
  | [] => fail AssertionError                       (* 16 *)
  | _ =>
      do! out := p_open_w newpath in               (* 17 *)
      do! out' := merge_loop out paths in
      p_close out'
  end.

(** ** normalize: neutron_storage/__init__.py:71-125 *)
(* neutrons[:, -1] /= N (118) on one row; [scale] is division by N on 64-bit doubles *)
Definition scale_last (scale : Z -> Z) (n : neutron) : neutron :=
  firstn 9 n ++ map scale (skipn 9 n).

(* the while loop 113-124; fuel is the number of iterations allowed *)
Fixpoint normalize_loop (fuel : nat) (scale : Z -> Z) (chunk : Z) (remain : Z) (inp out : storage) : prog storage :=
  if remain =? 0 then ret out
  else match fuel with
       | O => fail OutOfFuel
       | S fuel' =>
           let n := Z.min remain chunk in                               (* 114 *)
           do! (inp', arr) := p_read inp (Some n) true in               (* 116 *)
           match arr with
           | None => fail TypeError                                     (* None[:, -1] *)
           | Some rows =>
               do! out' := p_write out (map (scale_last scale) rows) in (* 118-121 *)
               normalize_loop fuel' scale chunk (remain - n) inp' out'  (* 123 *)
           end
       end.

(* _normalize: 91-125 with the chunk size of line 109 as a parameter *)
Definition normalize_into (chunk : Z) (scale : Z -> Z) (input output : string) : prog unit :=
  if String.eqb input output then fail AssertionError                    (* 99 *)
  else
    do! ex := p_exists output in
    if ex then fail IOError                                              (* 100-101 *)
    else
      do! remain := p_count input in                                     (* 103 *)
      do! out := p_open_w output in                                     (* 105 *)
      do! inp := p_open_r input in                                      (* 107 *)
      do! out' := normalize_loop (Z.to_nat remain) scale chunk remain inp out in
      p_close out'.                                                      (* __del__ at return *)

Definition chunk_size : Z := 1000000.                                    (* int(1e6), 109 *)

(* normalize(neutronsfile, N) with output=None: 71-88.  [tmp] is the name chosen by tempfile.mkstemp
   (78), which creates the file; it is then removed (80). *)
Definition normalize_chunked (chunk : Z) (scale : Z -> Z) (tmp path : string) : prog unit :=
  do! _ := touching tmp (fun d => (fs_set d tmp (Some (File [])), Ok tt)) in
  do! _ := p_remove tmp in
  do! _ := normalize_into chunk scale path tmp in
  p_rename tmp path.                                                     (* 87 *)
(* normalize(neutronsfile, N): neutron_storage/__init__.py:71-88 *)
Definition normalize := normalize_chunked chunk_size.

(** ** merge_and_normalize *)
(* sum of the numbers in the number_of_mc_samples files: components/outputs.py:31-39 *)
Definition mcs_sum (mcs : list Q) : Q := fold_right Qplus 0%Q mcs.

(* NeutronToStorage.merge_and_normalize_serial: components/NeutronToStorage.py:103-141.
   [nsfiles] is the result of the glob at 108-109, [mcs] the contents of the files found by mcsamples_files
   (outputs.py:42-44); [dbl_div f] is division by the number f on 64-bit doubles. *)
Definition merge_and_normalize_serial (dbl_div : Q -> Z -> Z) (nsfiles : list string) (mcs : list Q)
  (tmp out : string) (overwrite : bool) : prog unit :=
  if negb (Nat.eqb (List.length nsfiles) (List.length mcs)) then fail AssertionError    (* 111-113 *)
  else match nsfiles with
  | [] => ret tt                                                                     (* 114-115 *)
  | _ =>
    do! ex := p_exists out in
    do! _ := (if overwrite && ex then p_remove out else ret tt) in                   (* 119-121 *)
    do! _ := merge nsfiles out in                                                    (* 124 *)
    do! nevts := p_count out in                                                      (* 128 *)
    if nevts =? 0 then ret tt                                                        (* 129-130 *)
    else normalize (dbl_div (mcs_sum mcs / inject_Z nevts)%Q) tmp out                (* 133-140 *)
  end.

(* neutron_storage.merge_and_normalize: neutron_storage/__init__.py:25-62: the same without the guard for nevts == 0;
   Python's mcs/nevts raises ZeroDivisionError *)
Definition merge_and_normalize (dbl_div : Q -> Z -> Z) (nsfiles : list string) (mcs : list Q)
  (tmp out : string) (overwrite : bool) : prog unit :=
  if negb (Nat.eqb (List.length nsfiles) (List.length mcs)) then fail AssertionError    (* 34-36 *)
  else match nsfiles with
  | [] => ret tt                                                                     (* 37-38 *)
  | _ =>
    do! ex := p_exists out in
    do! _ := (if overwrite && ex then p_remove out else ret tt) in                   (* 42-44 *)
    do! _ := merge nsfiles out in                                                    (* 47 *)
    do! nevts := p_count out in                                                      (* 51 *)
    if nevts =? 0 then fail ZeroDivisionError                                        (* 57 *)
    else normalize (dbl_div (mcs_sum mcs / inject_Z nevts)%Q) tmp out
  end.
