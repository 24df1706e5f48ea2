(** Model of event-mode detectors: the multi-channel analyzer that writes detector events
    (packages/mccomponents/lib/kernels/detector/EventModeMCA.{h,cc}) and the handling of its files
    (packages/mccomponents/python/mccomponents/detector/event_utils.py, reduction_utils.py, DetectorSystemFromXml.py).

    Numbers of type unsigned int are integers modulo 2^32; a weight is an opaque 64-bit word as in StorageModel.v. *)
From Verif Require Import Base StorageModel StorageToolsModel CliModel.
From Coq Require Import QArith Ascii.
Open Scope Z_scope.

(* the struct Event {index_t pixelID, tofChannelNo; double n;}: EventModeMCA.h:39-45; the dtype of event_utils.py:22-26 *)
Record detevent := mkE { pixelID : Z; tofChannelNo : Z; ev_n : Z }.

(* arithmetic of index_t = unsigned int (32 bits): EventModeMCA.h:39 *)
Definition u32 (z : Z) : Z := z mod 2 ^ 32.

(* what the test loop of accept finds: EventModeMCA.cc:63-73 *)
Inductive channel_test := AllGood | Negative | OutOfBound.
(* the loop: first the sign of channels[i] (64), then, for channels that have a dimension, the bound (65-72).
   channels[i] >= m_dims[i] compares as unsigned; channels[i] is not negative at that point. *)
Fixpoint test_channels (dims channels : list Z) : channel_test :=
  match channels with
  | [] => AllGood
  | c :: cs =>
      if c <? 0 then Negative
      else match dims with
           | [] => test_channels [] cs
           | d :: ds => if d <=? c then OutOfBound else test_channels ds cs
           end
  end.

(* the loop pixelID = pixelID * m_dims[i] + channels[i]: EventModeMCA.cc:76-80, in unsigned arithmetic *)
Fixpoint pixel_loop (acc : Z) (dims channels : list Z) : Z :=
  match dims, channels with
  | d :: ds, c :: cs => pixel_loop (u32 (u32 (acc * d) + c)) ds cs
  | _, _ => acc
  end.

(* sizeof(m_buffer) bytes at &m_buffer, little endian, no padding: EventModeMCA.cc:86; events.tofile of event_utils.py:39 *)
Definition event_bytes (e : detevent) : list Z :=
  le_bytes 4 (pixelID e) ++ le_bytes 4 (tofChannelNo e) ++ le_bytes 8 (ev_n e).

(* accept: EventModeMCA.cc:49-87.  The analyzer is its dimensions and the bytes written to m_out. The assertion of line
   61 aborts the process; it is reported as AssertionError. *)
Definition accept (dims : list Z) (file : list Z) (channels : list Z) (n : Z) : result (list Z) :=
  if negb (Nat.eqb (List.length channels) (List.length dims + 1)) then Err CppException      (* 52-59 *)
  else if Nat.eqb (List.length dims) 0 then Err AssertionError                               (* 61 *)
  else match test_channels dims channels with
       | Negative => Ok file                                                             (* 64 *)
       | OutOfBound => Err CppException                                                  (* 65-72 *)
       | AllGood =>
           Ok (file ++ event_bytes (mkE (pixel_loop 0 dims channels) (u32 (last channels 0)) n))  (* 76-86 *)
       end.

(* a sequence of calls of accept, stopped by the first exception *)
Definition accept_all (dims : list Z) (file : list Z) (hits : list (list Z * Z)) : result (list Z) :=
  fold_result (fun f h => accept dims f (fst h) (snd h)) hits file.

(* numpy.fromfile(file, datatype): event_utils.py:29-32; 16 bytes per item, an incomplete last item is ignored *)
Fixpoint events_of (bs : list Z) : list detevent :=
  match bs with
  | a :: b :: c :: d :: e :: f :: g :: h :: i :: j :: k :: l :: m :: n :: o :: p :: t =>
      mkE (le_value [a;b;c;d]) (le_value [e;f;g;h]) (le_value [i;j;k;l;m;n;o;p]) :: events_of t
  | _ => []
  end.
(* numpy.fromfile on a path: event_utils.py:29-32 *)
Definition p_readEvents (path : string) : prog (list detevent) :=
  fun d => match d path with
           | Some (File b) => ([], d, Ok (events_of b))
           | _ => ([], d, Err IOError)
           end.

(* open(path, 'w...') and write everything: a new content for the file; fails on a directory *)
Definition p_write_file (path : string) (bytes : list Z) : prog unit :=
  touching path (fun d => match d path with
                          | Some Dir => (d, Err IOError)
                          | _ => (fs_set d path (Some (File bytes)), Ok tt)
                          end).

(* events['p'] /= n: event_utils.py:38; [scale] is division by n on 64-bit doubles *)
Definition scale_event (scale : Z -> Z) (e : detevent) : detevent :=
  mkE (pixelID e) (tofChannelNo e) (scale (ev_n e)).
(* normalizeEventFile: event_utils.py:35-39 *)
Definition normalizeEventFile (scale : Z -> Z) (path : string) : prog unit :=
  do! events := p_readEvents path in
  p_write_file path (flat_map event_bytes (map (scale_event scale) events)).

(** ** mergeEventFiles *)
(* os.path.dirname, posixpath of the Python library: the part up to the last slash, without trailing slashes unless it consists of slashes only;
   used in event_utils.py:47 *)
Definition is_slash (a : ascii) : bool := Ascii.eqb a "/".
(* in the group above: event_utils.py:47 *)
Fixpoint drop_while (f : ascii -> bool) (s : list ascii) : list ascii :=
  match s with a :: t => if f a then drop_while f t else s | [] => [] end.
(* in the group above: event_utils.py:47 *)
Definition text_dirname (s : list ascii) : list ascii :=
  let head := rev (drop_while (fun a => negb (is_slash a)) (rev s)) in
  if forallb is_slash head then head else rev (drop_while is_slash (rev head)).
(* os.path.join with two arguments: event_utils.py:49, DetectorSystemFromXml.py:84 *)
Definition text_join (a b : list ascii) : list ascii :=
  match b with
  | "/"%char :: _ => b
  | _ => match rev a with
         | [] => b
         | c :: _ => if is_slash c then a ++ b else a ++ "/"%char :: b
         end
  end.
(* filelist = os.path.join(outdir, 'eventfiles-to-merge.list'): event_utils.py:47-49 *)
Definition filelist_of (out : string) : string :=
  string_of_list_ascii (text_join (text_dirname (list_ascii_of_string out)) (T "eventfiles-to-merge.list")).

(* text files: the bytes of ASCII strings *)
Definition bytes_of_text (s : list ascii) : list Z := map (fun a => Z.of_nat (nat_of_ascii a)) s.
(* ASCII text of bytes (library, not code of /repo) *)
Definition text_of_bytes (b : list Z) : list ascii := map (fun z => ascii_of_nat (Z.to_nat z)) b.
(* a newline (not code of /repo) *)
Definition newline : ascii := ascii_of_nat 10.
(* for f in files: ostream.write("%s\n" % f): event_utils.py:50-51 *)
Definition list_content (files : list string) : list Z :=
  bytes_of_text (flat_map (fun f => list_ascii_of_string f ++ [newline]) files).

(* words into which the shell divides the unquoted %s of event_utils.py:52.  Only blanks (space, tab, newline) are
   treated; quotes, backslashes, globs, dollar signs, redirections and other special characters are not modelled *)
Definition is_blank (a : ascii) : bool :=
  (Ascii.eqb a " " || Ascii.eqb a newline || Ascii.eqb a (ascii_of_nat 9))%bool.
(* the words, with the one being read in [cur]: the unquoted %s of event_utils.py:52 *)
Fixpoint words_go (cur : list ascii) (s : list ascii) : list (list ascii) :=
  match s with
  | [] => match cur with [] => [] | _ => [cur] end
  | a :: t => if is_blank a then match cur with [] => words_go [] t | _ => cur :: words_go [] t end
              else words_go (cur ++ [a]) t
  end.
(* the words of a string: the unquoted %s of event_utils.py:52 *)
Definition shell_words (s : string) : list string := map string_of_list_ascii (words_go [] (list_ascii_of_string s)).

(* the command cat with arguments: the contents of the files that can be read, and whether all could.
   (Arguments that start with a dash are not modelled.) *)
Definition cat_files (d : fs) (files : list string) : list Z * bool :=
  (flat_map (fun f => match d f with Some (File b) => b | _ => [] end) files,
   forallb (fun f => match d f with Some (File _) => true | _ => false end) files).

(* items of xargs -0 -d "\n": the lines of its input.  What follows the last newline is an item unless it is empty *)
Fixpoint lines_go (cur : list ascii) (s : list ascii) : list (list ascii) :=
  match s with
  | [] => match cur with [] => [] | _ => [cur] end
  | a :: t => if Ascii.eqb a newline then cur :: lines_go [] t else lines_go (cur ++ [a]) t
  end.
(* the items of xargs: event_utils.py:52 *)
Definition xargs_items (input : list Z) : list string := map string_of_list_ascii (lines_go [] (text_of_bytes input)).

(* cat FILELIST | xargs -0 -d "\n" cat > "OUT": event_utils.py:52-54.  The redirection truncates OUT first.  The exit
   status is that of xargs alone; without items GNU xargs runs cat once on /dev/null, which prints nothing.  However many times xargs starts cat,
   the outputs follow each other in OUT. *)
Definition shell_cat (filelist out : string) : prog bool :=
  do! _ := p_write_file out [] in
  fun d =>
    let input := fst (cat_files d (shell_words filelist)) in
    let '(output, ok) := cat_files d (xargs_items input) in
    ([(d, out)], fs_set d out (Some (File output)), Ok ok).

(* mergeEventFiles: event_utils.py:42-55 on linux (45-46) *)
Definition mergeEventFiles (files : list string) (out : string) : prog unit :=
  let filelist := filelist_of out in
  do! _ := p_write_file filelist (list_content files) in                  (* 50-51 *)
  do! ok := shell_cat filelist out in                                     (* 52-53 *)
  if ok then ret tt else fail RuntimeError.                               (* 54 *)

(* merge_and_normalize_serial: DetectorSystemFromXml.py:64-97.  [files] is the result of the glob in lines 73-74, [mcs] the numbers in the
   files found by mcsamples_files (mcni/components/outputs.py:42-44), [dbl_div] division of doubles, as in StorageToolsModel.v. *)
Definition merge_and_normalize_events (dbl_div : Q -> Z -> Z) (files : list string) (mcs : list Q)
  (out : string) (overwrite : bool) : prog unit :=
  if negb (Nat.eqb (List.length files) (List.length mcs)) then fail Storage_MCsample_Mismatch    (* 75-79 *)
  else match files with
  | [] => ret tt                                                                          (* 80-81 *)
  | _ =>
      do! ex := p_exists out in
      do! _ := (if overwrite && ex then p_remove out else ret tt) in                      (* 85-87 *)
      do! _ := mergeEventFiles files out in                                               (* 90 *)
      normalizeEventFile (dbl_div (mcs_sum mcs)) out                                       (* 93-96 *)
  end.

(* events2Ipixtof: reduction_utils.py:16-20, with the two-dimensional array as a list of rows and [add] addition of
   doubles.  Indexes come from unsigned fields and are not negative; an index outside the array raises IndexError. *)
Fixpoint add_at {A : Type} (f : A -> A) (k : nat) (l : list A) {struct l} : option (list A) :=
  match l, k with
  | [], _ => None
  | x :: t, O => Some (f x :: t)
  | x :: t, S k' => option_map (cons x) (add_at f k' t)
  end.
(* one pass of the loop: reduction_utils.py:16-20 *)
Definition add_event (add : Z -> Z -> Z) (a : list (list Z)) (e : detevent) : result (list (list Z)) :=
  match nth_error a (Z.to_nat (pixelID e)) with
  | None => Err IndexError
  | Some row =>
      match add_at (fun w => add w (ev_n e)) (Z.to_nat (tofChannelNo e)) row with
      | None => Err IndexError
      | Some row' => match add_at (fun _ => row') (Z.to_nat (pixelID e)) a with Some a' => Ok a' | None => Err IndexError end
      end
  end.
(* events2Ipixtof: reduction_utils.py:16-20 *)
Definition events2Ipixtof (add : Z -> Z -> Z) (events : list detevent) (a : list (list Z)) : result (list (list Z)) :=
  fold_result (add_event add) events a.
