(** Vocabulary for C63 and C64: what a file of reflections says. *)
From Coq Require Import Ascii Reals.
From Verif Require Import Base PyStr RotModel PeakModel LazModel.
Open Scope Z_scope.

(** Blanks and tabs; printable characters of ASCII. *)
Definition gap_char (c : ascii) : Prop := c = " "%char \/ c = ascii_of_nat 9.
Definition visible (c : ascii) : Prop := (33 <= nat_of_ascii c <= 126)%nat.
Fixpoint all_chars (P : ascii -> Prop) (s : string) : Prop := match s with EmptyString => True | String c s' => P c /\ all_chars P s' end.
Definition gap (s : string) : Prop := all_chars gap_char s.
Definition word (w : string) : Prop := w <> EmptyString /\ all_chars visible w.
(** A line that consists of the words [ws]. *)
Inductive layout : string -> list string -> Prop :=
| layout_nil : forall g, gap g -> layout g []
| layout_cons : forall g w rest ws, gap g -> word w -> (rest = EmptyString \/ exists c r, rest = String c r /\ gap_char c) -> layout rest ws -> layout (g ++ w ++ rest) (w :: ws).
(** A line with its words. *)
Definition line := (string * list string)%type.
Definition comment_line (l : line) : Prop := exists t, fst l = String "#" t.
Definition data_line (l : line) : Prop := all_chars (fun c => c <> "#"%char) (fst l).
(** A well-formed file: every line is a comment, from its first character on, or has no comment. *)
Definition well_formed (f : list line) : Prop := Forall (fun l => layout (fst l) (snd l) /\ (comment_line l \/ data_line l)) f.
(** The text of a file: the lines, separated by ends of line. *)
Fixpoint text_of (f : list line) : string :=
  match f with [] => EmptyString | [l] => fst l | l :: f' => (fst l ++ String (ascii_of_nat 10) (text_of f'))%string end.
(** The last line is ended (there is an empty one behind it) or is no comment. *)
Definition ended (f : list line) : Prop := exists f0 l, f = f0 ++ [l] /\ data_line l.
(** The words of the lines of the table and of the comments, in the order of the file. *)
Definition rows (f : list line) : list (list string) :=
  map snd (filter (fun l => match snd l with [] => false | _ => negb (match fst l with String c _ => Ascii.eqb c "#" | EmptyString => false end) end) f).
Definition remarks (f : list line) : list (list string) :=
  map snd (filter (fun l => match fst l with String c _ => Ascii.eqb c "#" | EmptyString => false end) f).
(** The name of a comment is its second word; for words that begin with "atom" the third is added. *)
Definition atom_word (w : string) : Prop := exists a t o m r, w = String a (String t (String o (String m r))) /\ (a = "a" \/ a = "A")%char /\ (t = "t" \/ t = "T")%char /\ (o = "o" \/ o = "O")%char /\ (m = "m" \/ m = "M")%char.
Inductive named : list string -> string -> Prop :=
| named_plain : forall w k ws, ~ atom_word k -> named (w :: k :: ws) k
| named_atom : forall w k x ws, atom_word k -> named (w :: k :: x :: ws) (k ++ "_" ++ x).
(** Comments without a name have at most one word; all others have one. *)
Definition nameable (f : list line) : Prop := forall ws, In ws (remarks f) -> (List.length ws <= 1)%nat \/ exists k, named ws k.
(** No two comments have the same name. *)
Definition distinct_names (f : list line) : Prop :=
  forall f1 l1 f2 l2 f3 k, f = f1 ++ l1 :: f2 ++ l2 :: f3 -> comment_line l1 -> comment_line l2 -> named (snd l1) k -> named (snd l2) k -> False.
Definition same_names (f : list line) : Prop :=
  exists f1 l1 f2 l2 f3 k, f = f1 ++ l1 :: f2 ++ l2 :: f3 /\ comment_line l1 /\ comment_line l2 /\ named (snd l1) k /\ named (snd l2) k.
(** The comment that gives the number of a column. *)
Definition column (f : list line) (name : string) (n : Z) : Prop := exists w ws, In (w :: name :: str_of_Z n :: ws) (remarks f) /\ 1 <= n.
(** Every comment whose name begins with "column" gives a number. *)
Definition columns_ok (f : list line) : Prop := forall w k ws, In (w :: ("column" ++ k)%string :: ws) (remarks f) -> exists n ws', ws = str_of_Z n :: ws'.
(** The n-th word of a row. *)
Definition entry (ws : list string) (n : Z) (w : string) : Prop := 1 <= n /\ nth_error ws (Z.to_nat (n - 1)) = Some w.

(** The line "# CELL a b c alpha beta gamma". *)
Definition says_cell (f : list line) (a b c al be ga : string) : Prop :=
  exists ws, In ("#"%string :: "CELL"%string :: a :: b :: c :: al :: be :: ga :: ws) (remarks f) /\ Forall (all_chars (fun x => x <> "#"%char)) [a; b; c; al; be; ga].
(** The line "# sigma_x value ... [barn]". *)
Definition says_sigma (f : list line) (x value : string) : Prop := exists ws, In ("#"%string :: ("sigma_" ++ x)%string :: value :: ws ++ ["[barn]"%string]) (remarks f).
Definition says_atoms (f : list line) (n : Z) : Prop := exists w ws, In (w :: "nb_atoms"%string :: str_of_Z n :: ws) (remarks f).
(** No other comment has a name that begins with "sigma". *)
Definition three_sigmas (f : list line) : Prop :=
  forall w k ws, In (w :: ("sigma" ++ k)%string :: ws) (remarks f) -> In k ["_coh"; "_inc"; "_abs"]%string.

(** The number that a row has in a column. *)
Definition reads (py_float : string -> option R) (row : list string) (n : Z) (x : R) : Prop := exists w, entry row n w /\ py_float w = Some x.
Definition reads_int (row : list string) (n : Z) (x : Z) : Prop := entry row n (str_of_Z x).
(** The length of h a + k b + l c for the rows a, b, c of a matrix, times 2 pi. *)
Definition row_length (m : mat3) (h k l : Z) : R :=
  (2 * PI * sqrt ((IZR h * m00 m + IZR k * m10 m + IZR l * m20 m)² + (IZR h * m01 m + IZR k * m11 m + IZR l * m21 m)² + (IZR h * m02 m + IZR k * m12 m + IZR l * m22 m)²))%R.
(** What a row of a laz file says of F squared: the column F2, or the square of the column F if no column F2 is named. *)
Definition says_F2 (py_float : string -> option R) (f : list line) (row : list string) (x : R) : Prop :=
  (exists n, column f "column_F2" n /\ reads py_float row n x) \/
  ((forall w ws, ~ In (w :: "column_F2"%string :: ws) (remarks f)) /\ exists n y, column f "column_F" n /\ reads py_float row n y /\ x = (y * y)%R).
(** The peak of a row. *)
Definition says_peak (py_float : string -> option R) (m : mat3) (width dw : R) (f : list line) (nh nk nn nj : Z) (row : list string) (p : Peak) : Prop :=
  says_F2 py_float f row (z_F2 p) /\ reads_int row nj (z_mult p) /\ z_width p = width /\ z_dw p = dw /\
  exists h k l, reads_int row nh h /\ reads_int row nk k /\ reads_int row nn l /\ z_q p = row_length m h k l.
