(** The geometer: resolution of positions and orientations given relative to other elements.
    packages/mcni/python/mcni/Geometer2.py, packages/mcni/python/mcni/Geometer.py.
    Positions and orientations are elements of arbitrary types, with an arbitrary transformer (Geometer2.py:96-105); elements are strings. *)
From Verif Require Import Base.

Section Geometer.
Variables (P O : Type).
(* the transformer, (0,0,0) and I: Geometer2.py:22-24, 102-104, 132, 141-143; the default one is transformCoordinateSystem *)
Variables (transformer : P -> O -> P -> O -> P * O) (zero : P) (ident : O).

(* AbsoluteCoord, RelativeCoord: Geometer2.py:27-73; plain values become absolute coordinates (_toCoord, 79-82) *)
Inductive coord (A : Type) := Absolute (v : A) | Relative (v : A) (ref : string).
Arguments Absolute {A}. Arguments Relative {A}.

(* _registry (Geometer.py:19-21), _abspos and _absori (Geometer2.py:99-100), element_sequence (93) *)
Record geometer := mkG {
  g_registry : string -> option (coord P * coord O);
  g_abspos : string -> option P;
  g_absori : string -> option O;
  g_sequence : option (list string) }.

(* dict assignment *)
Definition dset {A} (d : string -> option A) (k : string) (v : A) : string -> option A :=
  fun q => if String.eqb k q then Some v else d q.

(* __init__: Geometer.py:19-21, Geometer2.py:96-105; element_sequence is assigned by its user *)
Definition new_geometer (seq : option (list string)) : geometer :=
  mkG (fun _ => None) (fun _ => None) (fun _ => None) seq.

(* register: Geometer.py:24-26 *)
Definition register (g : geometer) (e : string) (p : coord P) (o : coord O) : geometer :=
  mkG (dset (g_registry g) e (p, o)) (g_abspos g) (g_absori g) (g_sequence g).

(* list.index: first position of e, or ValueError *)
Fixpoint index_of (e : string) (l : list string) : option nat :=
  match l with
  | [] => None
  | x :: l' => if String.eqb x e then Some 0%nat else option_map S (index_of e l')
  end.

(* _findReference: Geometer2.py:155-164 *)
Definition findReference (g : geometer) (ref e : string) : result string :=
  if String.eqb ref "previous" then
    match g_sequence g with
    | None => Err RuntimeError
    | Some seq =>
        match index_of e seq with
        | None => Err ValueError
        | Some 0%nat => Err RuntimeError
        | Some (S i) => match nth_error seq i with Some r => Ok r | None => Err IndexError end
        end
    end
  else Ok ref.

Definition cache_ori (g : geometer) (e : string) (v : O) : geometer :=      (* Geometer2.py:120 *)
  mkG (g_registry g) (g_abspos g) (dset (g_absori g) e v) (g_sequence g).
Definition cache_pos (g : geometer) (e : string) (v : P) : geometer :=      (* Geometer2.py:111 *)
  mkG (g_registry g) (dset (g_abspos g) e v) (g_absori g) (g_sequence g).

(* orientation, _calcAbsOrientation: Geometer2.py:115-121, 135-144.  [limit] bounds the depth of the recursion; running out of
   it (OutOfFuel) is Python's RecursionError. *)
Fixpoint orientation (limit : nat) (g : geometer) (e : string) : geometer * result O :=
  match g_absori g e with
  | Some o => (g, Ok o)
  | None =>
      match limit with
      | 0%nat => (g, Err OutOfFuel)
      | S limit' =>
          match g_registry g e with
          | None => (g, Err KeyError)
          | Some (_, Absolute v) => (cache_ori g e v, Ok v)
          | Some (_, Relative v ref) =>
              match findReference g ref e with
              | Err x => (g, Err x)
              | Ok r =>
                  match orientation limit' g r with
                  | (g', Err x) => (g', Err x)
                  | (g', Ok refori) => let ret := snd (transformer zero refori zero v) in (cache_ori g' e ret, Ok ret)
                  end
              end
          end
      end
  end.

(* position, _calcAbsPosition: Geometer2.py:108-112, 124-132 *)
Fixpoint position (limit : nat) (g : geometer) (e : string) : geometer * result P :=
  match g_abspos g e with
  | Some p => (g, Ok p)
  | None =>
      match limit with
      | 0%nat => (g, Err OutOfFuel)
      | S limit' =>
          match g_registry g e with
          | None => (g, Err KeyError)
          | Some (Absolute v, _) => (cache_pos g e v, Ok v)
          | Some (Relative v ref, _) =>
              match findReference g ref e with
              | Err x => (g, Err x)
              | Ok r =>
                  match position limit' g r with
                  | (g1, Err x) => (g1, Err x)
                  | (g1, Ok refpos) =>
                      match orientation limit' g1 r with
                      | (g2, Err x) => (g2, Err x)
                      | (g2, Ok refori) => let ret := fst (transformer refpos refori v ident) in (cache_pos g2 e ret, Ok ret)
                      end
                  end
              end
          end
      end
  end.

(* calls of the methods by a user of the geometer, and what they return (no code of its own in /repo) *)
Inductive gop := ORegister (e : string) (p : coord P) (o : coord O) | OPosition (e : string) | OOrientation (e : string).
(* what a call returns (no code of its own in /repo) *)
Inductive gans := ANone | APos (r : result P) | AOri (r : result O).
(* one call (no code of its own in /repo) *)
Definition gstep (limit : nat) (g : geometer) (x : gop) : geometer * gans :=
  match x with
  | ORegister e p o => (register g e p o, ANone)
  | OPosition e => let (g', r) := position limit g e in (g', APos r)
  | OOrientation e => let (g', r) := orientation limit g e in (g', AOri r)
  end.
(* a sequence of calls (no code of its own in /repo) *)
Fixpoint gsteps (limit : nat) (g : geometer) (l : list gop) : geometer * list gans :=
  match l with
  | [] => (g, [])
  | x :: l' => let (g', a) := gstep limit g x in let (g'', l'') := gsteps limit g' l' in (g'', a :: l'')
  end.
End Geometer.
Arguments Absolute {A}. Arguments Relative {A}.
Arguments ORegister {P O}. Arguments OPosition {P O}. Arguments OOrientation {P O}.
Arguments ANone {P O}. Arguments APos {P O}. Arguments AOri {P O}.
Arguments g_registry {P O}. Arguments g_abspos {P O}. Arguments g_absori {P O}. Arguments g_sequence {P O}.
Arguments new_geometer {P O}. Arguments findReference {P O}. Arguments cache_ori {P O}. Arguments cache_pos {P O}.
Arguments orientation {P O}. Arguments position {P O}. Arguments gstep {P O}. Arguments gsteps {P O}.
Arguments mkG {P O}. Arguments register {P O}.
