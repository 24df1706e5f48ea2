(** Model of the neutron storage: mcni/neutron_storage.

    Files are byte lists.  A byte is a [Z] in [0,256).  A double is an opaque 64-bit
    word, a [Z] in [0,2^64): the storage code never looks inside a double (the code that does,
    normalize, is modelled in StorageToolsModel.v).  A neutron is the list of its ten words. *)
From Verif Require Import Base.
Open Scope Z_scope.

(** ** Little-endian integers: the "<" of struct formats, and numpy's [tostring]
    on a little-endian machine
    (packages/mcni/python/mcni/neutron_storage/idf_usenumpy.py:15-17 states the restriction). *)
Fixpoint le_bytes (k : nat) (z : Z) : list Z :=
  match k with
  | O => []
  | S k' => (z mod 256) :: le_bytes k' (z / 256)
  end.

(* little-endian value, inverse of the above: struct.unpack / numpy.fromstring,
   idf_usenumpy.py:77,91-92 *)
Definition le_value (bs : list Z) : Z := fold_right (fun b acc => b + 256 * acc) 0 bs.

(** ** Constants: idfneutron.py:2-46 *)
Definition ndblsperneutron : Z := 10.      (* idfneutron.py:5 *)
Definition nbytesperdbl : Z := 8.          (* idfneutron.py:8 *)
Definition titlesize : nat := 64.          (* idfneutron.py:11 *)
Definition commentsize : nat := 1024.      (* idfneutron.py:13 *)
Definition neutronsize : Z := ndblsperneutron * nbytesperdbl.   (* idfneutron.py:15 *)
Definition idf_version : Z := 1.           (* idfneutron.py:19 *)
(* filetype = 'Neutron', idfneutron.py:2, as ASCII codes *)
Definition idf_filetype : list Z := [78; 101; 117; 116; 114; 111; 110].
(* calcsize('<64si1024sq') = 64+4+1024+8, idfneutron.py:35-39 *)
Definition headersize : Z := 1100.
(* filesize(n), idfneutron.py:43-46 *)
Definition filesize (n : Z) : Z := headersize + 8 * (n * ndblsperneutron).

(** ** Neutron arrays *)
Notation neutron := (list Z) (only parsing).

(* ndarray.tostring of an array of doubles: 8 bytes per word, idf_usenumpy.py:115,124 *)
Definition words_tostring (ws : list Z) : list Z := flat_map (le_bytes 8) ws.

(* numpy.fromstring(s, numpy.double): idf_usenumpy.py:77,92.  Length must be a multiple of 8. *)
Fixpoint words_of (bs : list Z) : list Z :=
  match bs with
  | a :: b :: c :: d :: e :: f :: g :: h :: t => le_value [a;b;c;d;e;f;g;h] :: words_of t
  | _ => []
  end.
(* numpy.fromstring(s, numpy.double): idf_usenumpy.py:77,92 *)
Definition fromstring (bs : list Z) : result (list Z) :=
  if Z.of_nat (List.length bs) mod 8 =? 0 then Ok (words_of bs) else Err ValueError.

(* neutrons.shape = -1, ndblsperneutron: idf_usenumpy.py:78,93 *)
Fixpoint rows_of (ws : list Z) : list neutron :=
  match ws with
  | a :: b :: c :: d :: e :: f :: g :: h :: i :: j :: t =>
      [a;b;c;d;e;f;g;h;i;j] :: rows_of t
  | _ => []
  end.
(* neutrons.shape = -1, ndblsperneutron: idf_usenumpy.py:78,93 *)
Definition reshape10 (ws : list Z) : result (list neutron) :=
  if Z.of_nat (List.length ws) mod 10 =? 0 then Ok (rows_of ws) else Err ValueError.

(* neutrons_as_npyarr: neutron_storage/__init__.py:188-197 -- a flat array of 10*n doubles *)
Definition neutrons_as_npyarr (ns : list neutron) : list Z := List.concat ns.

(** ** idf_usenumpy.py *)

(* struct.pack of a "<ks" field: zero padded or truncated to k bytes *)
Definition pack_s (k : nat) (s : list Z) : list Z :=
  firstn k s ++ repeat 0 (k - List.length s).

(* str.encode('ascii') on a list of code points: idf_usenumpy.py:110-111 *)
Definition encode_ascii (s : list Z) : result (list Z) :=
  if forallb (fun c => (0 <=? c) && (c <? 128)) s then Ok s else Err UnicodeError.

(* header = pack(headerfmtstr, filetype, version, comment, len(neutrons)): idf_usenumpy.py:108-112.
   The last argument is the len() of the array handed in: number of rows for a 2-d array, number of
   doubles for a flat one. *)
Definition pack_header (comment : list Z) (n : Z) : list Z :=
  pack_s titlesize idf_filetype ++ le_bytes 4 idf_version ++ pack_s commentsize comment ++ le_bytes 8 n.

(* bytes produced by write(neutrons, comment=...): idf_usenumpy.py:103-118; [len] is len(neutrons) as above,
   [ws] the flattened content. *)
Definition idf_write (len : Z) (ws : list Z) (comment : list Z) : result (list Z) :=
  let! c := encode_ascii comment in
  Ok (pack_header c len ++ words_tostring ws).

(* count: idf_usenumpy.py:40-46; Python's // is floor division *)
Definition idf_count (file : list Z) : Z :=
  (Z.of_nat (List.length file) - headersize) / neutronsize.

(* stream.seek(p); stream.read(k) on a byte stream with p, k >= 0 *)
Definition seek_read (file : list Z) (p k : Z) : list Z :=
  firstn (Z.to_nat k) (skipn (Z.to_nat p) file).

(* read(filename/stream, start, n): idf_usenumpy.py:58-80.  [None] is Python's None. *)
Definition idf_read (file : list Z) (start n : option Z) : result (option (list neutron)) :=
  let '(start, n) :=
    match start, n with
    | None, None => (Some 0, Some (idf_count file))          (* 63-65 *)
    | _, _ => (start, n)
    end in
  match start, n with
  | Some start, Some n =>
      if n =? 0 then Ok None                                  (* 70-72 *)
      else if (0 <=? start) && (0 <? n) then                  (* 74 *)
        let s := seek_read file (headersize + neutronsize * start) (n * neutronsize) in  (* 75-76 *)
        let! ws := fromstring s in
        let! rows := reshape10 ws in
        Ok (Some rows)
      else Err AssertionError
  | _, _ => Err AssertionError                                (* 67 *)
  end.

(* bytes.strip(b'\x00'): idf_usenumpy.py:98-99 *)
Fixpoint strip_front (s : list Z) : list Z :=
  match s with
  | c :: t => if c =? 0 then strip_front t else s
  | [] => []
  end.
(* strip of zero bytes at both ends: idf_usenumpy.py:98-99 *)
Definition strip0 (s : list Z) : list Z := rev (strip_front (rev (strip_front s))).

(* struct.unpack "i"/"q" of k bytes: signed *)
Definition le_signed (k : nat) (bs : list Z) : Z :=
  let v := le_value bs in
  if 2 ^ (8 * Z.of_nat k - 1) <=? v then v - 2 ^ (8 * Z.of_nat k) else v.

(* bytes.decode() (UTF-8): only the ASCII range is modelled, other bytes are reported as UnicodeError
   (a valid multi-byte UTF-8 sequence would decode; idf_write never produces one). idf_usenumpy.py:98-99 *)
Definition decode_bytes (s : list Z) : result (list Z) :=
  if forallb (fun c => (0 <=? c) && (c <? 128)) s then Ok s else Err UnicodeError.

(* what readall returns: idf_usenumpy.py:83-100 *)
Record idf_content := mkIdf {
  i_filetype : list Z; i_version : Z; i_comment : list Z; i_neutrons : list neutron }.

(* readall: idf_usenumpy.py:83-100; unpack demands exactly headersize bytes (91) *)
Definition idf_readall (file : list Z) : result idf_content :=
  let h := firstn (Z.to_nat headersize) file in
  if Z.of_nat (List.length h) =? headersize then
    let title := firstn titlesize h in
    let ver := le_signed 4 (firstn 4 (skipn titlesize h)) in
    let comment := firstn commentsize (skipn (titlesize + 4) h) in
    let! ws := fromstring (skipn (Z.to_nat headersize) file) in
    let! rows := reshape10 ws in
    let! ft := decode_bytes (strip0 title) in
    let! cm := decode_bytes (strip0 comment) in
    Ok (mkIdf ft ver cm rows)
  else Err StructError.

(* readneutrons_asnpyarr / load: neutron_storage/__init__.py:142-159 *)
Definition zlist_eqb (a b : list Z) : bool :=
  if list_eq_dec Z.eq_dec a b then true else false.
(* load: neutron_storage/__init__.py:142-159 *)
Definition idf_load (file : list Z) : result (list neutron) :=
  let! c := idf_readall file in
  if zlist_eqb (i_filetype c) idf_filetype && (i_version c =? idf_version)
  then Ok (i_neutrons c) else Err AssertionError.

(* dump(neutrons, filename): neutron_storage/__init__.py:128-139; the array handed to write is flat, so
   len(neutrons) in the header is 10 times the number of neutrons *)
Definition idf_dump (ns : list neutron) : result (list Z) :=
  let arr := neutrons_as_npyarr ns in
  idf_write (Z.of_nat (List.length arr)) arr [].

(** ** File system

    A file system maps absolute paths to entries.  Paths are opaque strings: [os.path.abspath] is
    taken to be the identity, parent directories are assumed to exist. *)
Inductive entry := Dir | File (content : list Z).
(* a file system (not code of /repo) *)
Definition fs := string -> option entry.
(* change of one path (not code of /repo) *)
Definition fs_set (d : fs) (p : string) (e : option entry) : fs :=
  fun q => if String.eqb p q then e else d q.
(* os.path.exists (library, not code of /repo) *)
Definition fs_exists (d : fs) (p : string) : bool :=
  match d p with Some _ => true | None => false end.
(* os.path.isdir (library, not code of /repo) *)
Definition fs_isdir (d : fs) (p : string) : bool :=
  match d p with Some Dir => true | _ => false end.
(* bytes seen by an open stream on path p *)
Definition fs_bytes (d : fs) (p : string) : list Z :=
  match d p with Some (File b) => b | _ => [] end.
(* stream.write at the end of the file (modes wb and ab write at the end) *)
Definition fs_append (d : fs) (p : string) (b : list Z) : fs :=
  fs_set d p (Some (File (fs_bytes d p ++ b))).

(** ** Storage.py *)
(* the modes r, w and a: Storage.py:51-96 *)
Inductive mode := MR | MW | MA.

(* comparison of modes: Storage.py:51-96 *)
Definition mode_eqb (a b : mode) : bool :=
  match a, b with MR, MR | MW, MW | MA, MA => true | _, _ => false end.

(* attributes of a Storage object: Storage.py:51-96 *)
Record storage := mkStorage {
  s_path : string;
  s_mode : mode;
  s_closed : bool;
  s_buffersize : Z;
  s_buffer : list neutron;
  s_packetsize : option Z;
  s_position : Z;
  s_ntotal : Z }.

(* assignment to an attribute set up in Storage.py:51-96 *)
Definition set_buffer (s : storage) (b : list neutron) : storage :=
  mkStorage (s_path s) (s_mode s) (s_closed s) (s_buffersize s) b
            (s_packetsize s) (s_position s) (s_ntotal s).
(* assignment to an attribute set up in Storage.py:51-96 *)
Definition set_position (s : storage) (p : Z) : storage :=
  mkStorage (s_path s) (s_mode s) (s_closed s) (s_buffersize s) (s_buffer s)
            (s_packetsize s) p (s_ntotal s).
(* assignment to an attribute set up in Storage.py:51-96 *)
Definition set_closed (s : storage) : storage :=
  mkStorage (s_path s) (s_mode s) true (s_buffersize s) (s_buffer s)
            (s_packetsize s) (s_position s) (s_ntotal s).

Definition is_readonly (s : storage) : bool := mode_eqb (s_mode s) MR.   (* Storage.py:71 *)

(* header written in w mode: _write_header, Storage.py:281-286: an empty array *)
Definition empty_header : list Z := pack_header [] 0.

(* Storage.__init__: Storage.py:39-96.  Only the documented modes r, w, a. *)
Definition st_open (d : fs) (path : string) (m : mode) (packetsize : option Z) (buffersize : Z)
  : fs * result storage :=
  if mode_eqb m MW && fs_exists d path then (d, Err RuntimeError)                   (* 55-58 *)
  else if negb (fs_exists d path) && (mode_eqb m MR || mode_eqb m MA)
       then (d, Err RuntimeError)                                                   (* 62-63 *)
  else if fs_isdir d path then (d, Err IOError)                                     (* 65-66 *)
  else
    match m with
    | MW => (* 74: open(path,'wb') creates an empty file; 86-87: header *)
        (fs_append (fs_set d path (Some (File []))) path empty_header,
         Ok (mkStorage path MW false buffersize [] packetsize 0 0))
    | MA => (d, Ok (mkStorage path MA false buffersize [] packetsize 0 0))
    | MR => (d, Ok (mkStorage path MR false buffersize [] packetsize 0 (idf_count (fs_bytes d path))))
    end.

(* _write_neutrons: Storage.py:271-278.  Writing to a closed stream raises ValueError, to a read stream
   io.UnsupportedOperation. *)
Definition st_write_neutrons (s : storage) (d : fs) (ns : list neutron) : fs * result unit :=
  if s_closed s then (d, Err ValueError)
  else if is_readonly s then (d, Err UnsupportedOperation)
  else (fs_append d (s_path s) (words_tostring (neutrons_as_npyarr ns)), Ok tt).

(* _dump: Storage.py:246-268 *)
Definition st_dump (s : storage) (d : fs) (ns : list neutron) : storage * fs * result unit :=
  let N := Z.of_nat (List.length (s_buffer s)) + Z.of_nat (List.length ns) in
  if s_buffersize s <=? N then
    match st_write_neutrons s d (s_buffer s) with
    | (d1, Err e) => (s, d1, Err e)
    | (d1, Ok _) =>
        match st_write_neutrons s d1 ns with
        | (d2, Err e) => (s, d2, Err e)
        | (d2, Ok _) => (set_buffer s [], d2, Ok tt)
        end
    end
  else (set_buffer s (s_buffer s ++ ns), d, Ok tt).

(* write: Storage.py:99-108 *)
Definition st_write (s : storage) (d : fs) (ns : list neutron) : storage * fs * result unit :=
  if is_readonly s then (s, d, Err RuntimeError) else st_dump s d ns.

(* flush: Storage.py:227-231 *)
Definition st_flush (s : storage) (d : fs) : storage * fs * result unit :=
  match st_write_neutrons s d (s_buffer s) with
  | (d1, Err e) => (s, d1, Err e)
  | (d1, Ok _) => (set_buffer s [], d1, Ok tt)
  end.

(* close: Storage.py:234-240 *)
Definition st_close (s : storage) (d : fs) : storage * fs * result unit :=
  if s_closed s then (s, d, Ok tt)
  else if is_readonly s then (set_closed s, d, Ok tt)
  else match st_flush s d with
       | (s1, d1, Ok _) => (set_closed s1, d1, Ok tt)
       | (s1, d1, Err e) => (s1, d1, Err e)
       end.

Inductive whence := WStart | WCurrent | WEnd | WOther.   (* Storage.py:117-127 *)

(* seek: Storage.py:111-135.  The position is assigned before the range check. *)
Definition st_seek (s : storage) (offset : Z) (w : whence) (wrap : bool) : storage * result unit :=
  if negb (is_readonly s) then (s, Err RuntimeError)
  else
    match (match w with
           | WStart => Some offset
           | WCurrent => Some (s_position s + offset)
           | WEnd => Some (s_ntotal s + offset)
           | WOther => None
           end) with
    | None => (s, Err ValueError)
    | Some pos =>
        let s1 := set_position s pos in
        if wrap then
          match py_mod pos (s_ntotal s) with
          | Ok p => (set_position s1 p, Ok tt)
          | Err e => (s1, Err e)
          end
        else if (s_ntotal s <=? pos) || (pos <? 0) then (s1, Err RuntimeError)
        else (s1, Ok tt)
    end.

(* tell: Storage.py:138-139; _position only exists in read mode (92) *)
Definition st_tell (s : storage) : result Z :=
  if is_readonly s then Ok (s_position s) else Err AttributeError.

(* idfio.read on the stream of this storage: a closed stream raises ValueError at seek *)
Definition st_idf_read (s : storage) (d : fs) (start n : option Z) : result (option (list neutron)) :=
  let file := fs_bytes d (s_path s) in
  if s_closed s then
    match start, n with
    | None, None => Err ValueError
    | Some start, Some n =>
        if n =? 0 then Ok None
        else if (0 <=? start) && (0 <? n) then Err ValueError else Err AssertionError
    | _, _ => Err AssertionError
    end
  else idf_read file start n.

(* numpy.concatenate((a, b)) where None stands for a value that is not an array (zero-dimensional object) *)
Definition np_concatenate (a b : option (list neutron)) : result (option (list neutron)) :=
  match a, b with
  | Some x, Some y => Ok (Some (x ++ y))
  | _, _ => Err ValueError
  end.

(* the loop of Storage.py:199-201 *)
Fixpoint concat_times (k : nat) (acc all : option (list neutron)) : result (option (list neutron)) :=
  match k with
  | O => Ok acc
  | S k' => let! acc' := np_concatenate acc all in concat_times k' acc' all
  end.

(* Python's [n or default] for an optional int *)
Definition py_or (n dflt : option Z) : option Z :=
  match n with
  | Some z => if z =? 0 then dflt else n
  | None => dflt
  end.

(* Storage.py:214-220: the value returned; neutrons_from_npyarr(None) raises AttributeError on None.shape
   (neutron_storage/__init__.py:170) *)
Definition st_read_return (asnpyarr : bool) (arr : option (list neutron)) : result (option (list neutron)) :=
  if asnpyarr then Ok arr
  else match arr with Some a => Ok (Some a) | None => Err AttributeError end.

(* read: Storage.py:142-220 *)
Definition st_read (s : storage) (d : fs) (n : option Z) (asnpyarr wrap : bool)
  : storage * result (option (list neutron)) :=
  if negb (is_readonly s) then (s, Err RuntimeError)                                (* 150-151 *)
  else
    let position := s_position s in
    let ntotal := s_ntotal s in
    let n := match py_or n (s_packetsize s) with                                    (* 157 *)
             | Some z => z
             | None => ntotal - position                                            (* 165-166 *)
             end in
    if n =? 0 then (s, Ok None)                                                     (* 170-171 *)
    else
      let next := position + n in                                                   (* 174 *)
      if next <? ntotal then                                                        (* 177-183 *)
        match st_idf_read s d (Some position) (Some n) with
        | Err e => (s, Err e)
        | Ok arr => (set_position s next, st_read_return asnpyarr arr)
        end
      else
        let n1 := ntotal - position in                                              (* 187-189 *)
        match st_idf_read s d (Some position) (Some n1) with
        | Err e => (s, Err e)
        | Ok arr =>
            if wrap then
              let n2 := n - n1 in                                                   (* 193 *)
              let r :=
                if ntotal <=? n2 then                                               (* 196-204 *)
                  let! ntimes := py_div n2 ntotal in
                  let! all := st_idf_read s d None None in
                  let! arr' := concat_times (Z.to_nat ntimes) arr all in
                  let n2' := n2 - ntimes * ntotal in
                  if n2' <? ntotal then Ok (arr', n2') else Err AssertionError
                else Ok (arr, n2) in
              match r with
              | Err e => (s, Err e)
              | Ok (arr, n2) =>
                  let r2 :=
                    if 0 <? n2 then                                                 (* 206-209 *)
                      let! arr2 := st_idf_read s d (Some 0) (Some n2) in
                      np_concatenate arr arr2
                    else Ok arr in
                  match r2 with
                  | Err e => (s, Err e)
                  | Ok arr => (set_position s n2, st_read_return asnpyarr arr)      (* 210,215-220 *)
                  end
              end
            else (set_position s ntotal, st_read_return asnpyarr arr)               (* 212 *)
        end.

(** ** Histories of calls on one Storage object *)
(* a call of a method by a user (no code of its own in /repo) *)
Inductive sop :=
| OWrite (ns : list neutron)
| OFlush
| OClose
| OSeek (offset : Z) (w : whence) (wrap : bool)
| ORead (n : option Z) (asnpyarr wrap : bool)
| OTell.

(* what a call returns (no code of its own in /repo) *)
Inductive sout :=
| OutUnit (r : result unit)
| OutRead (r : result (option (list neutron)))
| OutPos (r : result Z).

(* one call (no code of its own in /repo) *)
Definition st_step (s : storage) (d : fs) (o : sop) : storage * fs * sout :=
  match o with
  | OWrite ns => let '(s', d', r) := st_write s d ns in (s', d', OutUnit r)
  | OFlush => let '(s', d', r) := st_flush s d in (s', d', OutUnit r)
  | OClose => let '(s', d', r) := st_close s d in (s', d', OutUnit r)
  | OSeek off w wr => let '(s', r) := st_seek s off w wr in (s', d, OutUnit r)
  | ORead n a w => let '(s', r) := st_read s d n a w in (s', d, OutRead r)
  | OTell => (s, d, OutPos (st_tell s))
  end.

(* a sequence of calls (no code of its own in /repo) *)
Fixpoint st_run (s : storage) (d : fs) (ops : list sop) : storage * fs * list sout :=
  match ops with
  | [] => (s, d, [])
  | o :: ops' =>
      let '(s1, d1, r) := st_step s d o in
      let '(s2, d2, rs) := st_run s1 d1 ops' in
      (s2, d2, r :: rs)
  end.
