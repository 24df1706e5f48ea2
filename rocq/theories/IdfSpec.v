(** Specification vocabulary for the sample data files (C43); independent of the functions of IdfModel.v. *)
From Coq Require Import Reals.
From Verif Require Import Base StorageSpec.
Open Scope Z_scope.

(** A 32-bit integer and its four bytes in two's complement, the lowest first. *)
Definition int32 (n : Z) : Prop := - 2 ^ 31 <= n < 2 ^ 31.
Definition int_bytes (n : Z) : list Z := map (fun i => Z.land (Z.shiftr n (8 * i)) 255) [0; 1; 2; 3].
Definition byte (b : Z) : Prop := 0 <= b < 256.
Definition ascii (s : list Z) : Prop := Forall (fun c => 0 <= c < 128) s.

(** [t] is [c] without the NULs at both ends. *)
Definition stripped (c t : list Z) : Prop := exists i j, c = repeat 0 i ++ t ++ repeat 0 j /\ hd 1 t <> 0 /\ last t 1 <> 0.

(** A data file: a name in 64 bytes, a version, a comment in 1024 bytes, integers, then doubles; nothing behind. *)
Definition layout (f name : list Z) (version : Z) (comment counts words : list Z) : Prop :=
  List.length name = 64%nat /\ int32 version /\ List.length comment = 1024%nat /\ Forall int32 counts /\ Forall wf_word words /\
  f = name ++ int_bytes version ++ comment ++ flat_map int_bytes counts ++ flat_map spec_word_bytes words.
(** The file a writer should make: fields filled up with NULs, the comment cut at 1024 characters. *)
Definition data_file (name comment counts words : list Z) : list Z :=
  spec_pad 64 name ++ [1; 0; 0; 0] ++ spec_pad 1024 (firstn 1024 comment) ++ flat_map int_bytes counts ++ flat_map spec_word_bytes words.

(** Arrays: sizes of the axes and as many numbers. *)
Definition count (shape : list Z) : Z := fold_right Z.mul 1 shape.
Definition array (shape words : list Z) : Prop := Forall (fun n => 0 <= n) shape /\ Forall wf_word words /\ Z.of_nat (List.length words) = count shape.

(** Names of files. *)
Definition name_E : list Z := [69].
Definition name_Q : list Z := [81].
Definition name_Sqe : list Z := [83; 113; 101].
Definition name_Omega2 : list Z := [79; 109; 101; 103; 97; 50].
Definition name_Polarizations : list Z := [80; 111; 108; 97; 114; 105; 122; 97; 116; 105; 111; 110; 115].
Definition name_DOS : list Z := [68; 79; 83].

(** Energies that start at zero and are evenly spaced. *)
Definition evenly (dE : R) (E : list R) : Prop := forall i e, nth_error E i = Some e -> e = (INR i * dE)%R.

(** A file from which a reader should get a name, a version, a comment and an array: the text fields without NULs at the ends, the integers before the
    numbers, as many numbers as the array has. *)
Definition holds (f name : list Z) (version : Z) (text counts shape words : list Z) : Prop :=
  exists t c, layout f t version c counts words /\ stripped t name /\ stripped c text /\ ascii name /\ ascii text /\ array shape words.

(** Complex numbers: their parts, real before imaginary; real numbers as complex ones (the word of the double 0 is 0). *)
Definition wf_complex (z : Z * Z) : Prop := wf_word (fst z) /\ wf_word (snd z).
Definition reim (zs : list (Z * Z)) : list Z := flat_map (fun z => [fst z; snd z]) zs.
Definition as_real (ws : list Z) : list (Z * Z) := map (fun w => (w, 0)) ws.

(** Frequencies in 10^12 Hz and energies in meV: E = 2 pi 10^12 nu hbar, with hbar in meV s. *)
Definition energy_of (hbar nu : R) : R := (nu * 2 * PI * 10 ^ 12 * hbar)%R.
