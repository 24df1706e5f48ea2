(** Vocabulary for C29, C31 and C52: detector events and the files that hold them. *)
From Verif Require Import Base StorageModel StorageSpec StorageToolsModel StorageToolsSpec DetModel.
From Coq Require Import QArith Ascii.
Open Scope Z_scope.

(** A list of numbers, one per dimension, each at least 0 and below its dimension. *)
Definition within (dims cs : list Z) : Prop := Forall2 (fun d c => 0 <= c < d) dims cs.
(** Number of pixels of a detector. *)
Definition product (dims : list Z) : Z := fold_right Z.mul 1 dims.
(** The rank of a tuple in row-major order: each number counts as many pixels as there are in the dimensions after it. *)
Fixpoint rank_of (dims cs : list Z) : Z :=
  match dims, cs with
  | d :: ds, c :: cs' => c * product ds + rank_of ds cs'
  | _, _ => 0
  end.

(** Byte i of a number is its bits 8i..8i+7. *)
Definition spec_bytes (k : nat) (z : Z) : list Z := map (fun i => Z.land (Z.shiftr z (8 * Z.of_nat i)) 255) (seq 0 k).
(** One record of an event file: two 4-byte numbers and the 8 bytes of the weight. *)
Definition record_bytes (pix tof w : Z) : list Z := spec_bytes 4 pix ++ spec_bytes 4 tof ++ spec_bytes 8 w.
Definition spec_event_bytes (e : detevent) : list Z := record_bytes (pixelID e) (tofChannelNo e) (ev_n e).
(** Events that fit their records. *)
Definition wf_event (e : detevent) : Prop :=
  0 <= pixelID e < 2 ^ 32 /\ 0 <= tofChannelNo e < 2 ^ 32 /\ wf_word (ev_n e).
(** A file that holds these events. *)
Definition event_file (bytes : list Z) (es : list detevent) : Prop :=
  Forall wf_event es /\ bytes = flat_map spec_event_bytes es.

(** A call of the analyzer with in-range detector channels: channel tuple, time channel, weight. A time channel or a
    position channel of -1 means that the neutron is not detected. *)
Definition hit_ok (dims : list Z) (h : list Z * Z) : Prop :=
  exists cs tof, fst h = cs ++ [tof] /\ within dims cs /\ 0 <= tof < 2 ^ 31 /\ wf_word (snd h).
Definition hit_missed (dims : list Z) (h : list Z * Z) : Prop :=
  exists before c after, fst h = before ++ c :: after /\ List.length (fst h) = S (List.length dims) /\ c < 0 /\
    within (firstn (List.length before) dims) before.
(** The event that a detected hit stands for. *)
Definition hit_event (dims : list Z) (h : list Z * Z) (e : detevent) : Prop :=
  exists cs tof, fst h = cs ++ [tof] /\ e = mkE (rank_of dims cs) tof (snd h).

(** Characters without special meaning for the shell. *)
Definition plain_char (a : ascii) : bool :=
  let n := nat_of_ascii a in
  ((Nat.leb 48 n && Nat.leb n 57) || (Nat.leb 65 n && Nat.leb n 90) || (Nat.leb 97 n && Nat.leb n 122) ||
   existsb (Ascii.eqb a) ["/"; "_"; "."; "-"; "+"; ","; ":"; "="; "@"; "%"]%char)%bool.
Definition plain (s : string) : Prop := forallb plain_char (list_ascii_of_string s) = true.
Definition no_dash (s : string) : Prop := forall t, s <> String "-" t.
Definition no_slash (s : string) : Prop := ~ In "/"%char (list_ascii_of_string s).
Definition no_newline (s : string) : Prop := ~ In (ascii_of_nat 10) (list_ascii_of_string s).
(** a directory as written by a caller: not empty, no slash at the end, nothing special for the shell *)
Definition plain_dir (s : string) : Prop :=
  plain s /\ no_dash s /\ s <> EmptyString /\ forall t, s <> (t ++ "/")%string.
Definition slash (dir name : string) : string := (dir ++ "/" ++ name)%string.
(** the scratch file that mergeEventFiles leaves behind *)
Definition scratch (dir : string) : string := slash dir "eventfiles-to-merge.list".

(** Each path is an event file holding the corresponding events; none is the output or the scratch file. *)
Definition event_files (d : fs) (dir out : string) (paths : list string) (ess : list (list detevent)) : Prop :=
  Forall2 (fun p es => p <> out /\ p <> scratch dir /\ no_newline p /\ no_dash p /\
                       exists b, d p = Some (File b) /\ event_file b es) paths ess.

(** The same event with its weight replaced. *)
Definition event_reweighted (scale : Z -> Z) (e e' : detevent) : Prop :=
  pixelID e' = pixelID e /\ tofChannelNo e' = tofChannelNo e /\ ev_n e' = scale (ev_n e).
Definition total_event_weight (val : Z -> Q) (es : list detevent) : Q :=
  fold_right Qplus 0%Q (map (fun e => val (ev_n e)) es).

(** A two-dimensional array of the given shape, and its cells. *)
Definition shaped (rows cols : nat) (a : list (list Z)) : Prop :=
  List.length a = rows /\ Forall (fun r => List.length r = cols) a.
Definition cell (a : list (list Z)) (i j : nat) : option Z :=
  match nth_error a i with Some r => nth_error r j | None => None end.
(** The weights of the events of pixel i and time channel j, in order. *)
Definition weights_at (es : list detevent) (i j : nat) : list Z :=
  map ev_n (filter (fun e => (pixelID e =? Z.of_nat i) && (tofChannelNo e =? Z.of_nat j))%bool es).
