(** Model of the Python proxy of a McStas component: parameters given at
    construction, parameters changed by attribute assignment, and what a run
    hands to the C++ component.
    /repo/packages/legacycomponents/mcstas2/python/mcstas2/components/_proxies/base.py

    Not modelled: names the class itself uses ("_factory_kwds",
    "_cpp_instance_factory", "process", ...) as names of parameters. *)
From Coq Require Import List String Bool.
From Verif Require Import Base.
Import ListNotations.
Open Scope string_scope.
Open Scope list_scope.

Section Proxy.
  Variable V : Type.              (* Python values *)
  Variable vFalse : V.            (* False *)
  Variable truthy : V -> bool.    (* bool(v), as in "if restore_neutron" (lines 54, 62) *)

  (** a Python dict with string keys, as the lookup function (base.py lines 14-20) *)
  Definition dict := string -> option V.
  (** {} (base.py line 14) *)
  Definition dempty : dict := fun _ => None.
  (** d[k] = v (base.py lines 16, 42) *)
  Definition dput (d : dict) (k : string) (v : V) : dict :=
    fun k' => if String.eqb k' k then Some v else d k'.
  (** if k in d: del d[k] (base.py line 35) *)
  Definition ddel (d : dict) (k : string) : dict :=
    fun k' => if String.eqb k' k then None else d k'.
  (** d.update(l), and the loops over (name, value) pairs (base.py lines 11-12, 16, 18) *)
  Definition dupdate (d : dict) (l : list (string * V)) : dict :=
    fold_left (fun d kv => dput d (fst kv) (snd kv)) l d.
  (** k in d (base.py lines 35, 41, 47) *)
  Definition din (d : dict) (k : string) : bool := match d k with Some _ => true | None => false end.

  (** The object: its __dict__ (only the names that are not the class's own), its
      _factory_kwds, and __cpp_instance as the keywords it was made with.
      base.py lines 6-24 *)
  Record proxy := mkP { p_dict : dict; p_kwds : dict; p_cpp : option dict }.

  (** __setattr__, once _factory_kwds exists: base.py lines 40-44 *)
  Definition setattr (p : proxy) (n : string) (v : V) : proxy :=
    if din (p_kwds p) n then mkP (p_dict p) (dput (p_kwds p) n v) (p_cpp p)
    else mkP (dput (p_dict p) n v) (p_kwds p) (p_cpp p).

  (** attribute access: the instance __dict__ first, then __getattr__: base.py lines 46-49 *)
  Definition getattr (p : proxy) (n : string) : result V :=
    match p_dict p n with
    | Some v => Ok v
    | None => match p_kwds p n with Some v => Ok v | None => Err AttributeError end
    end.

  (** __init__ : base.py lines 6-24.  [params] are the input parameters with their
      defaults, [kwds] the keywords of the call (a positional name is already in). *)
  Definition init (params kwds : list (string * V)) : proxy :=
    let own := dupdate dempty kwds in                                   (* 11-12 *)
    let all := dupdate (dupdate dempty params) kwds in                  (* 14-18 *)
    setattr (mkP own all None) "restore_neutron" vFalse.                (* 20-23 *)

  (** the property _cpp_instance: base.py lines 27-37 *)
  Definition cpp_instance (p : proxy) : proxy * dict :=
    match p_cpp p with
    | Some k => (p, k)
    | None =>
        let k := ddel (p_kwds p) "restore_neutron" in
        (mkP (p_dict p) k (Some k), k)
    end.

  (** process: base.py lines 51-64.  Returns whether the neutrons are restored
      afterwards and the keywords of the C++ component that processes them; what
      happens to the neutrons is SimModel.proxy_process. *)
  Definition process (p : proxy) : proxy * result (bool * dict) :=
    let p1 := mkP (p_dict p) (p_kwds p) None in                          (* 52 *)
    match getattr p1 "restore_neutron" with                              (* 53 *)
    | Err e => (p1, Err e)
    | Ok r => let (p2, k) := cpp_instance p1 in (p2, Ok (truthy r, k))    (* 58 *)
    end.

  (** what a user can do with the object (no code of its own in /repo); OTouch is
      any use of _cpp_instance outside process, such as asking a monitor for its
      histogram (_proxies/monitors/*.py) *)
  Inductive op := OSet (n : string) (v : V) | OGet (n : string) | OTouch | OProcess.
  (* what such a use gives (no code of its own in /repo) *)
  Inductive ans := ANone | AVal (r : result V) | ARun (r : result (bool * dict)).
  (** one step of a user (no code of its own in /repo) *)
  Definition step (p : proxy) (o : op) : proxy * ans :=
    match o with
    | OSet n v => (setattr p n v, ANone)
    | OGet n => (p, AVal (getattr p n))
    | OTouch => (fst (cpp_instance p), ANone)
    | OProcess => let (p', r) := process p in (p', ARun r)
    end.
  (** a history (no code of its own in /repo) *)
  Definition after (p : proxy) (h : list op) : proxy := fold_left (fun p o => fst (step p o)) h p.
End Proxy.
Arguments OSet {V}. Arguments OGet {V}. Arguments OTouch {V}. Arguments OProcess {V}.
Arguments ANone {V}. Arguments AVal {V}. Arguments ARun {V}.
