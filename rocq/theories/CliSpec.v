(** Vocabulary for C28, C48, C49. *)
From Coq Require Import List Ascii String Bool Permutation.
From Verif Require Import Base CliModel.
Import ListNotations.
Open Scope list_scope.

(** the character does not occur *)
Definition without (c : ascii) (s : text) : Prop := ~ In c s.
(** only white space *)
Definition blank (s : text) : Prop := forall a, In a s -> is_space a = true.
(** no white space at either end *)
Definition trimmed (s : text) : Prop :=
  (forall a t, s = a :: t -> is_space a = false) /\ (forall t a, s = t ++ [a] -> is_space a = false).

(** the documented forms of a component specifier, with white space allowed around the arguments *)
Definition opt_sup (s : option text) : text := match s with Some u => u ++ T "://" | None => [] end.
Definition opt_cat (s : option text) : text := match s with Some u => u ++ T "/" | None => [] end.
(** [padded raw a]: raw is a with white space around it *)
Inductive padded : text -> text -> Prop :=
| pad : forall l a r, blank l -> blank r -> trimmed a -> padded (l ++ a ++ r) a.
(** separated by commas *)
Inductive commas : list text -> text -> Prop :=
| commas_one : forall a, commas [a] a
| commas_more : forall a l s, commas l s -> commas (a :: l) (a ++ T "," ++ s).

(** position of the first separator *)
Definition separator : text := T "---".
Definition no_separator (argv : list text) : Prop := ~ In separator argv.

(** a word: neither empty nor with a space *)
Definition word (s : text) : Prop := s <> [] /\ ~ In " "%char s.

(** the outputs of the invocations that ran the command line and kept the result at [path], in order *)
Fixpoint kept {V D} (md5 : text -> text) (shell : text -> option D) (path : list text) (l : list (invocation V * outcome V D)) : list D :=
  match l with
  | [] => []
  | (j, RanCommand line) :: l' =>
      if list_eq_dec (list_eq_dec ascii_dec) (cache_path md5 (i_cmd j) (i_params j) (i_args j)) path
      then match shell line with Some d => [d] | None => [] end ++ kept md5 shell path l'
      else kept md5 shell path l'
  | _ :: l' => kept md5 shell path l'
  end.
(** one directory copied over the other, in order *)
Definition overlaid {D} (overlay : D -> D -> D) (l : list D) : option D :=
  match l with [] => None | d :: l' => Some (fold_left overlay l' d) end.
