(** Files of reflections: packages/mccomponents/python/mccomponents/sample/diffraction/parsers/{laz,lau}.py and create_lau of
    packages/mccomponents/python/mccomponents/sample/diffraction/__init__.py.

    Texts are lists of characters of Latin-1.  What float() makes of a text, how a number is printed and the lattice of diffpy.Structure are
    arguments. *)
From Coq Require Import Ascii Reals.
From Verif Require Import Base PyStr RotModel PeakModel.
Open Scope Z_scope.

(** ** Python's str *)

(* str.isspace of one character, as used by split() and strip(): lau.py:29, 31, 55, 64, 67, 86, laz.py:38, 40, 64, 72, 100, 103, 106, 147 *)
Definition is_space (a : ascii) : bool :=
  let n := nat_of_ascii a in (((9 <=? n) && (n <=? 13)) || ((28 <=? n) && (n <=? 32)) || (n =? 133) || (n =? 160))%nat%bool.
(* the characters that end a line for splitlines(): lau.py:25, laz.py:34 *)
Definition is_break (a : ascii) : bool :=
  let n := nat_of_ascii a in (((10 <=? n) && (n <=? 13)) || ((28 <=? n) && (n <=? 30)) || (n =? 133))%nat%bool.
(* "\n": lau.py:62, laz.py:96 *)
Definition nl : ascii := ascii_of_nat 10.
(* '#': lau.py:28, laz.py:37 *)
Definition hash : ascii := ascii_of_nat 35.
(* the parts of a text between separators, as many as there are separators and one more: str.split, lau.py:62, laz.py:96 *)
Fixpoint pieces (sep : ascii -> bool) (s : string) : list string :=
  match s with
  | EmptyString => [EmptyString]
  | String c s' => if sep c then EmptyString :: pieces sep s'
                   else match pieces sep s' with [] => [String c EmptyString] | p :: ps => String c p :: ps end
  end.
(* not s: lau.py:65, laz.py:104 *)
Definition is_empty (s : string) : bool := match s with EmptyString => true | _ => false end.
(* s.split(): lau.py:29, 55, 67, 86, laz.py:38, 64, 72, 100, 106, 147 *)
Definition words (s : string) : list string := filter (fun w => negb (is_empty w)) (pieces is_space s).
(* "\r\n" counts as one end of line in splitlines(): lau.py:25, laz.py:34 *)
Fixpoint fold_crlf (s : string) : string :=
  match s with
  | EmptyString => EmptyString
  | String c s' => match s' with
                   | String d _ => if (nat_of_ascii c =? 13)%nat && Ascii.eqb d nl then fold_crlf s' else String c (fold_crlf s')
                   | EmptyString => s
                   end
  end.
(* an end of line at the end of the text starts no new line in splitlines(): lau.py:25, laz.py:34 *)
Fixpoint drop_last_empty (l : list string) : list string :=
  match l with [] => [] | [s] => if is_empty s then [] else [s] | s :: l' => s :: drop_last_empty l' end.
(* text.splitlines(): lau.py:25, laz.py:34 *)
Definition splitlines (s : string) : list string := drop_last_empty (pieces is_break (fold_crlf s)).
(* s.lstrip(), half of strip(): lau.py:64, laz.py:71, 103 *)
Fixpoint lstrip (s : string) : string := match s with String c s' => if is_space c then lstrip s' else s | EmptyString => s end.
(* s.rstrip(), half of strip(): lau.py:64, laz.py:71, 103 *)
Fixpoint rstrip (s : string) : string :=
  match s with
  | EmptyString => EmptyString
  | String c s' => let r := rstrip s' in if (is_space c && is_empty r)%bool then EmptyString else String c r
  end.
(* s.strip(): lau.py:31, 64, laz.py:40, 64, 71, 103 *)
Definition strip (s : string) : string := rstrip (lstrip s).
(* cell.replace("#", ""): lau.py:85, laz.py:146 *)
Fixpoint remove_char (a : ascii) (s : string) : string :=
  match s with EmptyString => EmptyString | String c s' => if Ascii.eqb c a then remove_char a s' else String c (remove_char a s') end.
(* re.sub of "(#[^\n]*\n)" by '': lau.py:17, 59-60, laz.py:26, 94-95; [skip]: within a match *)
Fixpoint sub_comments (skip : bool) (s : string) : string :=
  match s with
  | EmptyString => EmptyString
  | String c s' => if skip then sub_comments (negb (Ascii.eqb c nl)) s'
                   else if (Ascii.eqb c hash && has_char nl s')%bool then sub_comments true s'
                   else String c (sub_comments false s')
  end.
(* int() of a word: digits, with an optional sign; single underscores between digits: lau.py:55, laz.py:64, 100, 109-111, 117.
   [some]: the character before was a digit *)
Fixpoint int_digits (s : string) (acc : Z) (some : bool) : option Z :=
  match s with
  | EmptyString => if some then Some acc else None
  | String c s' => if is_digit c then int_digits s' (10 * acc + Z.of_nat (nat_of_ascii c - 48)) true
                   else if (Ascii.eqb c "_"%char && some)%bool then int_digits s' acc false else None
  end.
(* in the group above: lau.py:55, laz.py:64, 100, 109-111 *)
Definition py_int (s : string) : option Z :=
  match s with
  | String c s' => if Ascii.eqb c "-"%char then option_map Z.opp (int_digits s' 0 false)
                   else if Ascii.eqb c "+"%char then int_digits s' 0 false else int_digits s 0 false
  | EmptyString => None
  end.
(* a list indexed by an int, negative ones count from the end: lau.py:33, 55, 70-73, 90-91, laz.py:43, 64, 73-74, 100, 109-117, 151-152 *)
Definition at_index {A} (l : list A) (i : Z) : result A :=
  let n := Z.of_nat (List.length l) in
  let j := if i <? 0 then i + n else i in
  if (j <? 0) || (n <=? j) then Err IndexError else match nth_error l (Z.to_nat j) with Some x => Ok x | None => Err IndexError end.
(* int(...), float(...) raise ValueError: lau.py:55, 70-73, 90-91, laz.py:64, 78, 100, 109-117, 151-152 *)
Definition number {A} (o : option A) : result A := match o with Some x => Ok x | None => Err ValueError end.
(* a dictionary: keys in the order of insertion: lau.py:26, laz.py:35, 97 *)
Definition dict := list (string * string).
(* d[key] : lau.py:41, 55, 70-73, laz.py:50, 64, 70, 100, 109-117 *)
Fixpoint lookup {A} (d : list (string * A)) (k : string) : result A :=
  match d with [] => Err KeyError | (k', v) :: d' => if String.eqb k' k then Ok v else lookup d' k end.

(** ** Comments: the same in both parsers *)

(* the key of a comment: lau.py:29-33, laz.py:38-42; none for a line of one word *)
Definition comment_key (l : string) : result (option string) :=
  match words l with
  | _ :: w :: rest => let ky := strip w in
                      if String.prefix "atom" (lower ky)
                      then match rest with [] => Err IndexError | x :: _ => Ok (Some (ky ++ "_" ++ x)%string) end
                      else Ok (Some ky)
  | _ => Ok None
  end.
(* l.startswith('#'): lau.py:28, laz.py:37 *)
Definition is_comment (l : string) : bool := String.prefix "#" l.
(* the loop over the lines: lau.py:27-39, laz.py:36-47 *)
Fixpoint read_comments (d : dict) (lines : list string) : result dict :=
  match lines with
  | [] => Ok d
  | l :: rest => if is_comment l
                 then let! k := comment_key l in
                      match k with
                      | None => read_comments d rest
                      | Some ky => if existsb (fun kv => String.eqb (fst kv) ky) d then Err RuntimeError else read_comments (d ++ [(ky, l)]) rest
                      end
                 else read_comments d rest
  end.
(* the columns: lau.py:51-55, laz.py:89, 97-100 *)
Fixpoint col_idx (d : dict) : result (list (string * Z)) :=
  match d with
  | [] => Ok []
  | (k, l) :: d' => if String.prefix "column" k
                    then let! w := at_index (words l) 2 in let! n := number (py_int w) in let! r := col_idx d' in Ok ((k, n - 1) :: r)
                    else col_idx d'
  end.
(* row[col_idx[column]]: lau.py:70-73, laz.py:109-117 *)
Definition cell (cols : list (string * Z)) (row : list string) (column : string) : result string :=
  let! i := lookup cols column in at_index row i.
(* the rows of the table: lau.py:59-67, laz.py:94-106 *)
Definition table (text : string) : list (list string) :=
  map words (filter (fun l => negb (is_empty l)) (map strip (pieces (Ascii.eqb nl) (sub_comments false text)))).
(* a loop that stops at the first exception: lau.py:63-78, laz.py:102-127 *)
Fixpoint each {A B} (f : A -> result B) (l : list A) : result (list B) :=
  match l with [] => Ok [] | x :: l' => let! y := f x in let! r := each f l' in Ok (y :: r) end.

Section numbers.
(* float(text), a part of Python: lau.py:70-73, 90-91, laz.py:78, 113, 115, 151-152 *)
Context (py_float : string -> option R).
(* diffpy.Structure.Lattice(a, b, c, alpha, beta, gamma): lau.py:93-94, laz.py:154-155 *)
Context (L : Type) (Lattice : R -> R -> R -> R -> R -> R -> result L).
(* lattice.recbase: laz.py:137 *)
Context (recbase_of : L -> mat3).

(* float(par[i]): lau.py:90-91, laz.py:151-152 *)
Definition par (p : list string) (i : Z) : result R := let! w := at_index p i in number (py_float w).
(* getLattice: lau.py:82-95, laz.py:143-156 *)
Definition getLattice (l : string) : result L :=
  let p := words (remove_char hash l) in
  let! a := par p 1 in let! b := par p 2 in let! c := par p 3 in let! al := par p 4 in let! be := par p 5 in let! ga := par p 6 in Lattice a b c al be ga.

(** ** lau *)

(* HKL: singlecrystal.py:6-16 *)
Record HKL := mkHKL { x_h : R; x_k : R; x_l : R; x_F2 : R }.
(* float(row[col_idx[column]]): lau.py:70-73 *)
Definition float_cell (cols : list (string * Z)) (row : list string) (column : string) : result R := let! w := cell cols row column in number (py_float w).
(* one row: lau.py:70-76 *)
Definition lau_row (cols : list (string * Z)) (row : list string) : result HKL :=
  let! h := float_cell cols row "column_h" in let! k := float_cell cols row "column_k" in let! l := float_cell cols row "column_l" in
  let! F2 := float_cell cols row "column_F2" in Ok (mkHKL h k l F2).
(* getHKLs: lau.py:46-79 *)
Definition getHKLs (text : string) (d : dict) : result (list HKL) := let! cols := col_idx d in each (lau_row cols) (table text).
(* parse: lau.py:20-43 *)
Definition lau_parse (text : string) : result (L * list HKL) :=
  let! d := read_comments [] (splitlines text) in
  let! c := lookup d "CELL" in
  let! lat := getLattice c in
  let! hkls := getHKLs text d in Ok (lat, hkls).

(** ** laz *)

(* Peak, the attributes set: laz.py:120-125, powder.py:72-90 *)
Record Peak := mkZ { z_q : R; z_F2 : R; z_mult : Z; z_width : R; z_dw : R }.
(* int(row[col_idx[column]]): laz.py:109-111, 117 *)
Definition int_cell (cols : list (string * Z)) (row : list string) (column : string) : result Z := let! w := cell cols row column in number (py_int w).
(* one row: laz.py:109-125; laz_q is _q, laz.py:134-140 *)
Definition laz_row (d : dict) (lat : L) (width dw : R) (cols : list (string * Z)) (row : list string) : result Peak :=
  let! h := int_cell cols row "column_h" in let! k := int_cell cols row "column_k" in let! l := int_cell cols row "column_l" in
  let! F2 := (if existsb (fun kv => String.eqb (fst kv) "column_F2") d then float_cell cols row "column_F2"
              else let! F := float_cell cols row "column_F" in Ok (F * F)%R) in
  let! mult := int_cell cols row "column_j" in Ok (mkZ (laz_q (recbase_of lat) (h, k, l)) F2 mult width dw).
(* sorted(peaks, key=lambda p: p.q), which keeps the order of equal keys: laz.py:130 *)
Fixpoint insert_peak (x : Peak) (l : list Peak) : list Peak :=
  match l with [] => [x] | y :: l' => if Rltb (z_q y) (z_q x) then y :: insert_peak x l' else x :: l end.
(* in the group above: laz.py:130 *)
Definition sort_peaks (l : list Peak) : list Peak := fold_right insert_peak [] l.
(* getPeaks: laz.py:84-131 *)
Definition getPeaks (text : string) (d : dict) (lat : L) (width dw : R) : result (list Peak) :=
  let! cols := col_idx d in let! l := each (laz_row d lat width dw cols) (table text) in Ok (sort_peaks l).
(* s[n:]: laz.py:71, 78 *)
Fixpoint drop (n : nat) (s : string) : string := match n, s with S n', String _ s' => drop n' s' | _, _ => s end.
(* ' '.join(tokens): laz.py:75 *)
Definition spaced (l : list string) : string := String.concat " " l.
(* comment[-6:]: laz.py:77 *)
Definition last6 (s : string) : string := drop (String.length s - 6) s.
(* setattr(xs, name, value): laz.py:78 *)
Fixpoint setattr (xs : list (string * R)) (name : string) (v : R) : list (string * R) :=
  match xs with [] => [(name, v)] | (k, w) :: xs' => if String.eqb k name then (k, v) :: xs' else (k, w) :: setattr xs' name v end.
(* one line of the loop: laz.py:70-78 *)
Definition one_sigma (nb : Z) (xs : list (string * R)) (l : string) : result (list (string * R)) :=
  let tokens := words (strip (drop 2 l)) in
  let! name := at_index tokens 0 in let! value := at_index tokens 1 in
  if negb (String.eqb (last6 (spaced (skipn 2 tokens))) "[barn]") then Err AssertionError
  else let! v := number (py_float value) in Ok (setattr xs (drop 6 name) (v * IZR nb)%R).
(* getCrossSections: laz.py:56-81 *)
Definition getCrossSections (d : dict) : result (list (string * R)) :=
  let! l := lookup d "nb_atoms" in
  let! w := at_index (words (strip l)) 2 in
  let! nb := number (py_int w) in
  let sigma_list := filter (fun kv => String.prefix "sigma" (fst kv)) d in
  if negb (List.length sigma_list =? 3)%nat then Err AssertionError else fold_result (fun xs kv => one_sigma nb xs (snd kv)) sigma_list [].
(* parse: laz.py:29-53 *)
Definition laz_parse (text : string) (width dw : R) : result (L * list Peak * list (string * R)) :=
  let! d := read_comments [] (splitlines text) in
  let! c := lookup d "CELL" in
  let! lat := getLattice c in
  let! peaks := getPeaks text d lat width dw in
  let! xs := getCrossSections d in Ok (lat, peaks, xs).

(** ** create_lau *)

(* how '{x}'.format prints a float: __init__.py:46-47, 50-53 *)
Context (fmt : R -> string).
(* a peak of iter_peaks as far as it is printed: calcpeaks.py:50-52 *)
Record reflection := mkRf { f_h : Z; f_k : Z; f_l : Z; f_mult : Z; f_d : R; f_F2 : R }.
(* the header: __init__.py:38-47 *)
Definition header (a b c alpha beta gamma : R) : string :=
  ("# CELL " ++ fmt a ++ " " ++ fmt b ++ " " ++ fmt c ++ " " ++ fmt alpha ++ " " ++ fmt beta ++ " " ++ fmt gamma ++ String nl
   ("# column_j  4 multiplicity 'j'" ++ String nl
   ("# column_d  5 d-spacing 'd' in [Angs]" ++ String nl
   ("# column_F2 6 norm of scattering factor |F|^2 in [fm^2]" ++ String nl
   ("# column_h  1" ++ String nl
   ("# column_k  2" ++ String nl
   ("# column_l  3" ++ String nl
   ("# h   k   l Mult. d-space  F-squared" ++ String nl EmptyString))))))))%string.
(* one line: __init__.py:49-53 *)
Definition lau_line (pk : reflection) : string :=
  (str_of_Z (f_h pk) ++ " " ++ str_of_Z (f_k pk) ++ " " ++ str_of_Z (f_l pk) ++ " " ++ str_of_Z (f_mult pk) ++ " " ++ fmt (f_d pk) ++ " " ++ fmt (f_F2 pk * 100)%R)%string.
(* create_lau, the text written: __init__.py:36-57 *)
Definition create_lau (a b c alpha beta gamma : R) (pks : list reflection) : string :=
  String.concat (String nl EmptyString) (header a b c alpha beta gamma :: map lau_line pks).
End numbers.
