(** Model of the component registries.
    mcni: /repo/packages/mcni/python/mcni/components/RegistryBase.py, Registry.py, repositories.py, __init__.py
    mcstas2: /repo/packages/legacycomponents/mcstas2/python/mcstas2/components/Registry.py

    [F] is the type of factories.  What "import repository.type" does is given by
    a table that does not change in time (Python caches modules). *)
From Coq Require Import List String Bool.
From Verif Require Import Base.
Import ListNotations.
Open Scope string_scope.
Open Scope list_scope.

Section Reg.
  Variable F : Type.

  (** (category, type): RegistryBase.py line 60 *)
  Definition key : Type := string * string.
  (** equality of two keys as dict keys (RegistryBase.py lines 55, 68) *)
  Definition key_eqb (a b : key) : bool := String.eqb (fst a) (fst b) && String.eqb (snd a) (snd b).

  (** A module that can be imported: its attribute "category" and its attribute
      of the name of the type (RegistryBase.py lines 118, 121), each of which may
      be missing. *)
  Record module := mkMod { m_category : option string; m_factory : option F }.
  (** what __import__ does: RegistryBase.py lines 112-115 *)
  Inductive import := Imported (m : module) | ImportError | OtherError (e : exn).

  (** The registry object: the dict factories and the dict types, both in order of
      insertion.  RegistryBase.py lines 22-26 *)
  Record registry := mkReg { r_factories : list (key * F); r_types : list (string * list string) }.
  (** __init__: RegistryBase.py lines 22-26 *)
  Definition new_registry : registry := mkReg [] [].

  (** factories[key]: RegistryBase.py lines 68-70 *)
  Fixpoint kget (d : list (key * F)) (k : key) : option F :=
    match d with
    | [] => None
    | (k', f) :: t => if key_eqb k' k then Some f else kget t k
    end.
  (** factories[key] = f: RegistryBase.py line 61 *)
  Fixpoint kset (d : list (key * F)) (k : key) (f : F) : list (key * F) :=
    match d with
    | [] => [(k, f)]
    | (k', f') :: t => if key_eqb k' k then (k', f) :: t else (k', f') :: kset t k f
    end.

  (** _addType: RegistryBase.py lines 130-141 (mcstas2 Registry.py lines 143-155 is the same).
      Category and type are strings here, so the assertions hold. *)
  Fixpoint addType (types : list (string * list string)) (category type : string)
    : list (string * list string) :=
    match types with
    | [] => [(category, [type])]
    | (c, l) :: t =>
        if String.eqb c category
        then (if existsb (String.eqb type) l then (c, l) :: t else (c, l ++ [type]) :: t)
        else (c, l) :: addType t category type
    end.

  (** register: RegistryBase.py lines 58-62 *)
  Definition register (r : registry) (k : key) (f : F) : registry :=
    mkReg (kset (r_factories r) k f) (addType (r_types r) (fst k) (snd k)).

  (** registered: RegistryBase.py lines 53-55 *)
  Definition registered (r : registry) (k : key) : bool :=
    match kget (r_factories r) k with Some _ => true | None => false end.

  (** registeredComponentsInCategory: mcni/components/__init__.py lines 35-37 *)
  Fixpoint types_of (types : list (string * list string)) (category : string) : list string :=
    match types with
    | [] => []
    | (c, l) :: t => if String.eqb c category then l else types_of t category
    end.

  (** setup_repos: mcni/components/Registry.py lines 20-25 *)
  Definition setup_repos (all : list string) : list string := rev all.

  (** the loop of _getStaticComponent over self.repos: RegistryBase.py lines 108-115.
      There is no "break": it goes on after a success. *)
  Fixpoint static_loop (imp : string -> string -> import) (repos : list string) (type : string)
      (found : option module) : result (option module) :=
    match repos with
    | [] => Ok found
    | repo :: rest =>
        match imp repo type with
        | Imported m => static_loop imp rest type (Some m)
        | ImportError => static_loop imp rest type found
        | OtherError e => Err e
        end
    end.

  (** _getStaticComponent: RegistryBase.py lines 103-127 *)
  Definition getStaticComponent (imp : string -> string -> import) (all : list string)
      (r : registry) (k : key) : registry * result F :=
    match static_loop imp (setup_repos all) (snd k) None with
    | Err e => (r, Err e)
    | Ok None => (r, Err NotRegisteredError)
    | Ok (Some m) =>
        match m_category m with
        | None => (r, Err AttributeError)
        | Some c =>
            if String.eqb (fst k) c then
              match m_factory m with
              | None => (r, Err AttributeError)
              | Some f => (register r k f, Ok f)
              end
            else (r, Err RuntimeError)
        end
    end.

  (** getFactory: RegistryBase.py lines 65-70 *)
  Definition getFactory (imp : string -> string -> import) (all : list string)
      (r : registry) (k : key) : registry * result F :=
    match kget (r_factories r) k with
    | Some f => (r, Ok f)
    | None => getStaticComponent imp all r k
    end.

  (** mcstas2: _importComponent looks at repository.category.type, the last
      repository first, stops at the first that can be imported, and takes any
      exception for "not there".  mcstas2 Registry.py lines 117-140. *)
  Fixpoint mcstas_loop (imp : string -> key -> import) (repos : list string) (k : key) : option module :=
    match repos with
    | [] => None
    | repo :: rest =>
        match imp repo k with
        | Imported m => Some m
        | _ => mcstas_loop imp rest k
        end
    end.

  (** mcstas2 getFactory, register: Registry.py lines 31-45, 117-140.  The factory
      of a module is what createFactory makes of it (_proxies/__init__.py lines
      1-20); it raises AttributeError if the module has no "factory", after the
      type has been added to the list of types. *)
  Definition mcstas_getFactory (imp : string -> key -> import) (all : list string)
      (r : registry) (k : key) : registry * result F :=
    match kget (r_factories r) k with
    | Some f => (r, Ok f)
    | None =>
        match mcstas_loop imp (rev all) k with
        | None => (r, Err NotRegisteredError)
        | Some m =>
            match m_factory m with
            | None => (mkReg (r_factories r) (addType (r_types r) (fst k) (snd k)), Err AttributeError)
            | Some f => (register r k f, Ok f)
            end
        end
    end.

  (** calls by a user (no code of its own in /repo) *)
  Inductive rop := ORegister (k : key) (f : F) | OLookup (k : key).
  (** a sequence of calls on the mcni registry (no code of its own in /repo) *)
  Definition rstep (imp : string -> string -> import) (all : list string) (r : registry) (o : rop) : registry :=
    match o with
    | ORegister k f => register r k f
    | OLookup k => fst (getFactory imp all r k)
    end.
  (** a sequence of calls on the mcni registry (no code of its own in /repo) *)
  Definition rafter imp all (h : list rop) : registry := fold_left (rstep imp all) h new_registry.
  (** the same on the mcstas2 registry *)
  Definition mstep (imp : string -> key -> import) (all : list string) (r : registry) (o : rop) : registry :=
    match o with
    | ORegister k f => register r k f
    | OLookup k => fst (mcstas_getFactory imp all r k)
    end.
  (** the same on the mcstas2 registry *)
  Definition mafter imp all (h : list rop) : registry := fold_left (mstep imp all) h new_registry.
End Reg.
Arguments mkMod {F}. Arguments Imported {F}. Arguments ImportError {F}. Arguments OtherError {F}.
Arguments ORegister {F}. Arguments OLookup {F}. Arguments m_category {F}. Arguments m_factory {F}.
Arguments getFactory {F}. Arguments getStaticComponent {F}. Arguments mcstas_getFactory {F}. Arguments registered {F}.
Arguments r_factories {F}. Arguments r_types {F}. Arguments rafter {F}. Arguments mafter {F}.
Arguments new_registry {F}. Arguments mkReg {F}. Arguments register {F}. Arguments kget {F}. Arguments kset {F}.
Arguments rstep {F}. Arguments mstep {F}. Arguments static_loop {F}. Arguments mcstas_loop {F}.
