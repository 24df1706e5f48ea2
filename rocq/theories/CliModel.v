(** Model of some text handling at the command line.
    cache keys: /repo/packages/mcvine/python/mcvine/cli/_provenance.py
    component specifiers: /repo/packages/mcni/python/mcni/pyre_support/NeutronComponentFacility.py
    super application: /repo/packages/mcvine/python/mcvine/applications/SuperAppBase.py

    A Python str is a list of ASCII characters here. *)
From Coq Require Import List Ascii String Bool Arith.
From Verif Require Import Base.
Import ListNotations.
Open Scope list_scope.

(** a Python str, ASCII only (SuperAppBase.py line 121, NeutronComponentFacility.py line 153, _provenance.py line 91) *)
Definition text : Type := list ascii.
(** a literal as text *)
Definition T (s : string) : text := list_ascii_of_string s.

(** str equality (e.g. SuperAppBase.py lines 86, 92) *)
Fixpoint text_eqb (a b : text) : bool :=
  match a, b with
  | [], [] => true
  | x :: a', y :: b' => Ascii.eqb x y && text_eqb a' b'
  | _, _ => false
  end.

(** s.startswith(p), used for str.find and str.split below *)
Fixpoint starts (p s : text) : bool :=
  match p, s with
  | [], _ => true
  | a :: p', b :: s' => Ascii.eqb a b && starts p' s'
  | _ :: _, [] => false
  end.
(** s.find(p) != -1: NeutronComponentFacility.py lines 154, 160, 166 *)
Fixpoint found (p s : text) : bool :=
  starts p s || match s with [] => false | _ :: s' => found p s' end.
(** s.split(sep) for a non-empty sep: NeutronComponentFacility.py lines 158, 164, 170, 175 *)
Fixpoint split_go (sep : text) (skip : nat) (cur s : text) : list text :=
  match s with
  | [] => [rev cur]
  | a :: s' =>
      match skip with
      | S k => split_go sep k cur s'
      | O => if starts sep s then rev cur :: split_go sep (List.length sep - 1) [] s'
             else split_go sep 0 (a :: cur) s'
      end
  end.
(** s.split(sep): see split_go *)
Definition split (sep s : text) : list text := split_go sep 0 [] s.

(** the ASCII characters that str.strip() removes (NeutronComponentFacility.py lines 170, 173, 176) *)
Definition is_space (a : ascii) : bool :=
  let n := nat_of_ascii a in (Nat.leb 9 n && Nat.leb n 13) || (Nat.leb 28 n && Nat.leb n 32).
(** s.lstrip() *)
Fixpoint lstrip (s : text) : text :=
  match s with a :: s' => if is_space a then lstrip s' else s | [] => [] end.
(** s.rstrip() *)
Definition rstrip (s : text) : text := rev (lstrip (rev s)).
(** s.strip(): NeutronComponentFacility.py lines 170, 173, 176 *)
Definition strip (s : text) : text := rstrip (lstrip s).
(** s[:-1]: NeutronComponentFacility.py line 170 *)
Definition chop (s : text) : text := removelast s.

(** sep.join(l): NeutronComponentFacility.py line 143, _provenance.py lines 94, 96 *)
Fixpoint join (sep : text) (l : list text) : text :=
  match l with
  | [] => []
  | [a] => a
  | a :: t => a ++ sep ++ join sep t
  end.

(** ** Component specifiers *)

(** _encode: NeutronComponentFacility.py lines 141-150.  The supplier is not used.
    args None or [] is falsy. *)
Definition encode (supplier category type : text) (args : option (list text)) : text :=
  let argsstr := match args with
                 | None | Some [] => []
                 | Some l => T "(" ++ join (T ",") l ++ T ")"
                 end in
  category ++ T "/" ++ type ++ argsstr.

(** what _decode returns: NeutronComponentFacility.py line 177 *)
Definition decoded : Type := option text * option text * text * option (list text).

(** "a, b = s.split(sep)" raises ValueError unless there are exactly two parts:
    NeutronComponentFacility.py lines 158, 164, 170 *)
Definition unpack2 (sep s : text) : result (text * text) :=
  match split sep s with
  | [a; b] => Ok (a, b)
  | _ => Err ValueError
  end.
(** NeutronComponentFacility.py lines 154-158 (sep "://") and 160-164 (sep "/") *)
Definition before (sep s : text) : result (option text * text) :=
  if found sep s then (let! p := unpack2 sep s in Ok (Some (fst p), snd p)) else Ok (None, s).
(** NeutronComponentFacility.py lines 166-170 *)
Definition type_args (t2 : text) : result (text * text) :=
  if found (T "(") t2 then unpack2 (T "(") (chop (strip t2)) else Ok (t2, []).
(** NeutronComponentFacility.py lines 172-176 *)
Definition arg_list (argsstr : text) : option (list text) :=
  match strip argsstr with
  | [] => None
  | _ => Some (map strip (split (T ",") (strip argsstr)))
  end.

(** _decode: NeutronComponentFacility.py lines 153-177 *)
Definition decode (specifier : text) : result decoded :=
  let! st := before (T "://") specifier in
  let! ct := before (T "/") (snd st) in
  let! ta := type_args (snd ct) in
  Ok (fst st, fst ct, fst ta, arg_list (snd ta)).

(** ** Arguments of super applications *)

(** _argName: SuperAppBase.py lines 120-124 *)
Fixpoint lstrip_dash (s : text) : text :=
  match s with a :: s' => if Ascii.eqb a "-" then lstrip_dash s' else s | [] => [] end.
(** the part before the first "=": SuperAppBase.py lines 122-124 *)
Fixpoint before_eq (s : text) : text :=
  match s with [] => [] | a :: s' => if Ascii.eqb a "=" then [] else a :: before_eq s' end.
(** _argName: SuperAppBase.py lines 120-124 *)
Definition argName (a : text) : text := before_eq (lstrip_dash a).

(** argv.index('---'): SuperAppBase.py lines 86, 112 *)
Fixpoint index_sep (argv : list text) : option nat :=
  match argv with
  | [] => None
  | a :: t => if text_eqb a (T "---") then Some 0 else option_map S (index_sep t)
  end.

(** _setSuperApplicationCommandLineOptions: SuperAppBase.py lines 106-117.  Returns
    self.sysargv and the new sys.argv, which is what the super application parses. *)
Definition set_super (sysargv : list text) : option (list text) * list text :=
  match index_sep sysargv with
  | None => (None, sysargv)
  | Some i => (Some sysargv, firstn i sysargv)
  end.

(** "name in names": SuperAppBase.py lines 92, 94, 98 *)
Definition member (names : list text) (n : text) : bool := existsb (text_eqb n) names.

(** _setApplicationCommandLineOptions: SuperAppBase.py lines 73-103.  [names]: the
    options of the super application.  Returns the sys.argv that the wrapped
    application parses.  (argv[0] on an empty list raises IndexError.) *)
Definition set_app (names : list text) (self_sysargv : option (list text)) (sysargv : list text)
  : result (list text) :=
  let argv := match self_sysargv with Some (a :: t) => a :: t | _ => sysargv end in
  if Nat.eqb (List.length argv) 1 then Ok sysargv
  else
    match argv with
    | [] => Err IndexError
    | arg0 :: rest =>
        let! index :=
          match index_sep argv with
          | Some i => Ok i
          | None =>
              match rest with
              | [] => Err IndexError
              | a1 :: more =>
                  if member names (argName a1)
                  then if forallb (fun a => member names (argName a)) more
                       then Ok (List.length argv - 1) else Err AssertionError
                  else if forallb (fun a => negb (member names (argName a))) more
                       then Ok 0 else Err AssertionError
              end
          end in
        Ok (arg0 :: skipn (S index) argv)
    end.

(** construction, parsing by pyre (which does not touch sys.argv), then main:
    SuperAppBase.py lines 41-55.  Returns what the super application parses and what
    the application parses. *)
Definition run_super (names : list text) (sysargv : list text) : list text * result (list text) :=
  let '(saved, now) := set_super sysargv in
  (now, set_app names saved now).

(** ** The cache of results *)

Section Cache.
  Variable V : Type.                 (* values of parameters *)
  Variable D : Type.                 (* contents of a directory *)
  Variable md5 : text -> text.       (* hashlib.md5(s).hexdigest() *)
  Variable shell : text -> option D. (* what running a command line leaves in the directory; None: it fails *)
  Variable overlay : D -> D -> D.    (* copying a directory over another *)

  (** comparison of str: lexicographic by code point (_provenance.py line 95) *)
  Fixpoint text_leb (a b : text) : bool :=
    match a, b with
    | [], _ => true
    | _ :: _, [] => false
    | x :: a', y :: b' =>
        let n := nat_of_ascii x in let m := nat_of_ascii y in
        if Nat.ltb n m then true else if Nat.ltb m n then false else text_leb a' b'
    end.
  (** sorted(): _provenance.py line 95 *)
  Fixpoint insert (a : text) (l : list text) : list text :=
    match l with [] => [a] | b :: t => if text_leb a b then a :: l else b :: insert a t end.
  (** sorted(): _provenance.py line 95 *)
  Fixpoint sorted (l : list text) : list text :=
    match l with [] => [] | a :: t => insert a (sorted t) end.

  (** arg_str: _provenance.py lines 91-97.  params is a dict, in insertion order;
      ' '.join(params) joins its keys.  plist (line 93) is computed but not used. *)
  Definition arg_str (params : list (text * V)) (args : list text) : text :=
    join (T " ") (map fst params) ++ T " " ++ join (T " ") (sorted args).

  (** cache_path: _provenance.py lines 100-112.  The path is given as the list of its
      parts below app_cache_root; the command path is given by its words. *)
  Definition cache_path (cmdpath : list text) (params : list (text * V)) (args : list text) : list text :=
    cmdpath ++ [md5 (arg_str params args)].

  (** one invocation of a command with the decorator save_metadata: the words of the
      command, its parameters without the three provenance options, its remaining
      arguments and the three options.  _provenance.py lines 11-31 *)
  Record invocation := mkInv {
    i_cmd : list text; i_params : list (text * V); i_args : list text;
    i_use_cache : bool; i_only_metadata : bool; i_keep : bool }.

  (** what the invocation did *)
  Inductive outcome :=
  | FromCache (d : D)                     (* lines 34-41 *)
  | MetadataOnly                          (* line 53 *)
  | RanHere (params : list (text * V)) (args : list text)   (* line 57 *)
  | RanCommand (line : text)              (* lines 61-72 *)
  | CommandFailed (line : text).          (* line 64: RuntimeError *)

  (** the cache: which paths exist and what they hold (_provenance.py lines 34, 67) *)
  Definition cache : Type := list text -> option D.
  (** equality of two paths *)
  Fixpoint path_eqb (p q : list text) : bool :=
    match p, q with
    | [], [] => true
    | a :: p', b :: q' => text_eqb a b && path_eqb p' q'
    | _, _ => false
    end.

  (** save_metadata: _provenance.py lines 22-72.  Writing the metadata file (lines
      44-50) is not modelled. *)
  Definition invoke (c : cache) (i : invocation) : cache * outcome :=
    let path := cache_path (i_cmd i) (i_params i) (i_args i) in
    match (if i_use_cache i && negb (i_only_metadata i) then c path else None) with
    | Some d => (c, FromCache d)
    | None =>
        if i_only_metadata i then (c, MetadataOnly)
        else if negb (i_keep i) then (c, RanHere (i_params i) (i_args i))
        else
          let line := join (T " ") (i_cmd i) ++ T " " ++ arg_str (i_params i) (i_args i) in
          match shell line with
          | None => (c, CommandFailed line)
          | Some d =>
              (fun q => if path_eqb q path
                        then Some (match c path with None => d | Some old => overlay old d end)
                        else c q,
               RanCommand line)
          end
    end.

  (** a sequence of invocations (no code of its own in /repo) *)
  Fixpoint invocations (c : cache) (l : list invocation) : cache * list outcome :=
    match l with
    | [] => (c, [])
    | i :: t => let '(c1, o) := invoke c i in let '(c2, os) := invocations c1 t in (c2, o :: os)
    end.
End Cache.
Arguments mkInv {V}. Arguments i_cmd {V}. Arguments i_params {V}. Arguments i_args {V}.
Arguments i_use_cache {V}. Arguments i_only_metadata {V}. Arguments i_keep {V}.
Arguments arg_str {V}. Arguments cache_path {V}. Arguments FromCache {V D}. Arguments MetadataOnly {V D}.
Arguments RanHere {V D}. Arguments RanCommand {V D}. Arguments CommandFailed {V D}.
Arguments invoke {V D}. Arguments invocations {V D}.
