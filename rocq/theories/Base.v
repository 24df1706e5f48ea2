(** Common vocabulary of all models: exceptions as values.

    Every Python function that may raise is modelled as a function into [result];
    the constructors of [exn] are the Python (or C++) exception classes raised
    by the code under /repo, plus [OutOfFuel] for recursions that the Python code
    bounds only by the interpreter stack, [UndefinedBehaviour] where the C++ standard gives no meaning and [Terminated] where
    it ends the process (std::terminate). *)
From Coq Require Export List ZArith Lia Bool String.
Export ListNotations.
Open Scope list_scope.

Inductive exn : Type :=
| AssertionError | RuntimeError | IOError | ValueError | TypeError | IndexError
| KeyError | AttributeError | ZeroDivisionError | NameError | StructError
| UnicodeError | UnsupportedOperation | NotRegisteredError | CppException
| NotImplementedError | Storage_MCsample_Mismatch | UndefinedBehaviour | Terminated | OutOfFuel.

Inductive result (A : Type) : Type :=
| Ok (a : A)
| Err (e : exn).
Arguments Ok {A} a.
Arguments Err {A} e.

Definition bind {A B : Type} (x : result A) (f : A -> result B) : result B :=
  match x with Ok a => f a | Err e => Err e end.

Notation "'let!' x ':=' c1 'in' c2" := (bind c1 (fun x => c2))
  (at level 61, x pattern, c1 at next level, right associativity).

(** The fold of a fallible step over a list: a Python [for] loop whose body may raise. *)
Fixpoint fold_result {A B : Type} (f : B -> A -> result B) (l : list A) (b : B) : result B :=
  match l with
  | [] => Ok b
  | a :: l' => match f b a with Ok b' => fold_result f l' b' | Err e => Err e end
  end.

(** Python's ceiling division pattern [(a-1)//b + 1] appears in several places; it is
    written out in the models.  Python's [//] and [%] on ints with positive divisor are
    [Z.div] and [Z.modulo]; with a zero divisor Python raises, hence: *)
Definition py_div (a b : Z) : result Z :=
  if (b =? 0)%Z then Err ZeroDivisionError else Ok (a / b)%Z.
Definition py_mod (a b : Z) : result Z :=
  if (b =? 0)%Z then Err ZeroDivisionError else Ok (a mod b)%Z.
