(** Specification vocabulary for the neutron storage (properties C01-C06).
    Independent of the functions of StorageModel.v: it speaks about byte lists and neutron lists, and
    uses from the model only the type of API calls ([sop]) and of their results ([sout]). *)
From Verif Require Import Base StorageModel.
Open Scope Z_scope.

(** A double is stored as an opaque 64-bit word; a neutron is ten of them. *)
Definition wf_word (w : Z) : Prop := 0 <= w < 2 ^ 64.
Definition wf_neutron (n : list Z) : Prop := List.length n = 10%nat /\ Forall wf_word n.
Definition wf_neutrons (ns : list (list Z)) : Prop := Forall wf_neutron ns.

(** Byte i of the little-endian representation of a word is bits 8i..8i+7. *)
Definition spec_word_bytes (w : Z) : list Z :=
  map (fun i => Z.land (Z.shiftr w (8 * i)) 255) [0;1;2;3;4;5;6;7].

Definition spec_neutron_bytes (n : list Z) : list Z := flat_map spec_word_bytes n.

(** A file holds the neutrons [ns]: a 1100-byte header, then 80 bytes per neutron, in order. *)
Definition file_holds (bytes : list Z) (ns : list (list Z)) : Prop :=
  exists header, List.length header = 1100%nat /\
                 bytes = header ++ flat_map spec_neutron_bytes ns.

(** The infinite repetition of a list [l], from position [p], cut after [k] elements. *)
Definition cyclic {A} (l : list A) (p k : nat) : list (option A) :=
  map (fun i => nth_error l ((p + i) mod List.length l)) (seq 0 k).

(** A complete neutron file: title "Neutron" and comment zero padded to their fields, version 1, an 8-byte count field
    (unconstrained), then the neutrons. *)
Definition spec_pad (k : nat) (s : list Z) : list Z := s ++ repeat 0 (k - List.length s).
Definition neutron_file (comment : list Z) (ns : list (list Z)) (bytes : list Z) : Prop :=
  exists nfield, List.length nfield = 8%nat /\
    bytes = spec_pad 64 [78; 101; 117; 116; 114; 111; 110] ++ [1; 0; 0; 0]
            ++ spec_pad 1024 comment ++ nfield ++ flat_map spec_neutron_bytes ns.

(** Comments that the format can carry: ASCII, fit in the field, no NUL byte at either end. *)
Definition wf_comment (c : list Z) : Prop :=
  (List.length c <= 1024)%nat /\ Forall (fun x => 0 <= x < 128) c /\
  (forall x t, c = x :: t -> x <> 0) /\ (forall x t, c = t ++ [x] -> x <> 0).

(** Calls made on a storage opened for writing, and the neutrons they hand over, in call order. *)
Definition wop_ok (o : sop) : Prop :=
  match o with OWrite ns => wf_neutrons ns | OFlush => True | _ => False end.
Definition written (ops : list sop) : list neutron :=
  flat_map (fun o => match o with OWrite ns => ns | _ => [] end) ops.

(** The neutrons delivered by one call. *)
Definition delivered (o : sout) : list neutron :=
  match o with OutRead (Ok (Some x)) => x | _ => [] end.

