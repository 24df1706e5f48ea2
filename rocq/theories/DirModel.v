(** Model of working in directories.
    /repo/packages/mcni/python/mcni/AbstractComponent.py (ChangeDirectory, run_in_dir)
    /repo/packages/mcvine/python/mcvine/run_script.py (_check_workdir, run_mpi, run1_mpi, run1) *)
From Coq Require Import List String Bool Arith.
From Verif Require Import Base.
Import ListNotations.
Open Scope string_scope.
Open Scope list_scope.

(** ** Changing directory *)

(** an absolute path, by its components (AbstractComponent.py line 92) *)
Definition path : Type := list string.
(** equality of paths *)
Definition path_dec : forall p q : path, {p = q} + {p <> q} := list_eq_dec string_dec.
(** a directory as given by the caller: absolute, or relative to the current one (AbstractComponent.py line 86) *)
Inductive dirspec := Abs (p : path) | Rel (p : path).
(** one component of a relative path; "." and ".." as the operating system reads them; no symbolic links (AbstractComponent.py line 93) *)
Definition walk1 (cwd : path) (c : string) : path :=
  if String.eqb c "." then cwd else if String.eqb c ".." then removelast cwd else cwd ++ [c].
(** the directory meant: AbstractComponent.py line 93 *)
Definition resolve (cwd : path) (d : dirspec) : path :=
  match d with Abs p => p | Rel p => fold_left walk1 p cwd end.

Section Dir.
  Variable X : Type.   (* whatever else there is in the world *)

  (** the current directory of the process, the directories that exist, everything else *)
  Record world := mkW { cwd : path; dirs : path -> bool; other : X }.
  (** a Python function without arguments: it changes the world and returns or raises *)
  Definition action (A : Type) : Type := world -> world * result A.

  (** os.chdir(p): AbstractComponent.py lines 93, 98.  FileNotFoundError is an OSError. *)
  Definition chdir (p : path) : action unit := fun w =>
    if dirs w p then (mkW p (dirs w) (other w), Ok tt) else (w, Err IOError).
  (** os.path.abspath(os.curdir): AbstractComponent.py line 92; fails if the current directory was removed *)
  Definition getcwd : action path := fun w => if dirs w (cwd w) then (w, Ok (cwd w)) else (w, Err IOError).

  (** ChangeDirectory.__enter__: AbstractComponent.py lines 90-94; returns savedir *)
  Definition enter (d : dirspec) : action path := fun w =>
    match getcwd w with
    | (w1, Err e) => (w1, Err e)
    | (w1, Ok saved) =>
        match chdir (resolve (cwd w1) d) w1 with
        | (w2, Err e) => (w2, Err e)
        | (w2, Ok _) => (w2, Ok saved)
        end
    end.

  (** run_in_dir: AbstractComponent.py lines 97-105.  __exit__ runs whether func
      returned or raised; it returns None, so an exception goes on; an exception of
      __exit__ itself replaces it. *)
  Definition run_in_dir {A : Type} (func : action A) (d : dirspec) : action A := fun w =>
    match enter d w with
    | (w1, Err e) => (w1, Err e)
    | (w1, Ok saved) =>
        let '(w2, r) := func w1 in
        match chdir saved w2 with
        | (w3, Err e) => (w3, Err e)
        | (w3, Ok _) => (w3, r)
        end
    end.

  (** nested use: run_in_dir inside run_in_dir (AbstractComponent.py lines 73-75) *)
  Fixpoint nested {A : Type} (func : action A) (ds : list dirspec) : action A :=
    match ds with
    | [] => func
    | d :: t => run_in_dir (nested func t) d
    end.
End Dir.
Arguments mkW {X}. Arguments cwd {X}. Arguments dirs {X}. Arguments other {X}.
Arguments run_in_dir {X A}. Arguments nested {X A}.

(** ** Ranks sharing a work directory *)

(** where a rank is in run1: before the test "os.path.exists(workdir)"; after it, with its
    answer; past _check_workdir; its data written (it works in rank<r>-step<i> below workdir);
    ended with an exception.  run_script.py lines 134-158, 186-192 *)
Inductive pc := Start | Tested (present : bool) | Checked | Done | Failed.

(** the work directory: is it there, and which ranks' data are in it; where the ranks are *)
Record shared := mkS { present : bool; data : list nat; at_ : nat -> pc }.
(** a rank moves on *)
Definition moved (f : nat -> pc) (r : nat) (p : pc) : nat -> pc := fun k => if Nat.eqb k r then p else f k.

(** One step of rank [r]; a rank that has ended makes no step.
    Start: run_script.py line 187.  Tested: lines 188-191 (shutil.rmtree, taken to be one
    step; it raises if the directory is gone).  Checked: lines 144-155 and
    SimulationContext.py lines 52-55 (the directories are made, the data written; making an
    existing parent directory is no error in os.makedirs). *)
Definition step (overwrite : bool) (s : shared) (r : nat) : shared :=
  match at_ s r with
  | Start => mkS (present s) (data s) (moved (at_ s) r (Tested (present s)))
  | Tested false => mkS (present s) (data s) (moved (at_ s) r Checked)
  | Tested true =>
      if overwrite then
        if present s then mkS false [] (moved (at_ s) r Checked)
        else mkS (present s) (data s) (moved (at_ s) r Failed)
      else mkS (present s) (data s) (moved (at_ s) r Failed)
  | Checked => mkS true (r :: data s) (moved (at_ s) r Done)
  | Done | Failed => s
  end.

(** an execution: which rank moves next (no code of its own in /repo) *)
Definition execute (overwrite : bool) (s : shared) (sched : list nat) : shared := fold_left (step overwrite) sched s.
(** the state when the workers start: run_script.py lines 97-107 *)
Definition initial (present : bool) : shared := mkS present [] (fun _ => Start).
(** has this rank ended *)
Definition ended (p : pc) : bool := match p with Done | Failed => true | _ => false end.
