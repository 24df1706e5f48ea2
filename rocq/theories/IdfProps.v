(** C43: the data files of samples (energies, wave vectors, scattering functions, squared frequencies, polarizations, densities of states). *)
From Coq Require Import Reals Lra.
From Verif Require Import Base StorageModel StorageSpec IdfModel IdfSpec IdfProofs IdfProofs2 IdfProofs3 IdfProofs4 IdfProofs5 IdfProofs6.
Open Scope Z_scope.

(** Which arrays the writers take, and the bytes of the files they make. *)
Theorem C43_write_E : forall shape ws comment f, array shape ws ->
  (E_write (mkArr shape ws) comment = (f, None) <->
   ascii comment /\ exists n rest, shape = n :: rest /\ n < 2 ^ 31 /\ (n = 0 \/ count rest = 1) /\ f = data_file name_E comment [n] ws).
Proof. exact E_write_iff. Qed.
Print Assumptions C43_write_E.
Theorem C43_write_Q : forall shape ws comment f, array shape ws ->
  (Q_write (mkArr shape ws) comment = (f, None) <->
   ascii comment /\ exists n d rest, shape = n :: d :: rest /\ n < 2 ^ 31 /\ d < 2 ^ 31 /\ f = data_file name_Q comment [d; n] ws).
Proof. exact Q_write_iff. Qed.
Print Assumptions C43_write_Q.
Theorem C43_write_Sqe : forall shape ws comment f, array shape ws ->
  (Sqe_write (mkArr shape ws) comment = (f, None) <->
   ascii comment /\ exists n d rest, shape = n :: d :: rest /\ n < 2 ^ 31 /\ d < 2 ^ 31 /\ f = data_file name_Sqe comment [n; d] ws).
Proof. exact Sqe_write_iff. Qed.
Print Assumptions C43_write_Sqe.
Theorem C43_write_Omega2 : forall shape ws comment D f, array shape ws ->
  (Omega2_write (mkArr shape ws) comment D = (f, None) <->
   ascii comment /\ exists n s rest, shape = n :: s :: rest /\ n < 2 ^ 31 /\ int32 D /\ D <> 0 /\ int32 (s / D) /\ f = data_file name_Omega2 comment [D; s / D; n] ws).
Proof. exact Omega2_write_iff. Qed.
Print Assumptions C43_write_Omega2.
Theorem C43_write_Pol : forall q m b d zs comment f, 0 <= q -> 0 <= b -> 0 <= d ->
  (Pol_write (mkC [q; m; b; d] zs) comment = (f, None) <->
   ascii comment /\ q < 2 ^ 31 /\ b < 2 ^ 31 /\ d < 2 ^ 31 /\ f = data_file name_Polarizations comment [d; b; q] (reim zs)).
Proof. exact Pol_write_iff. Qed.
Print Assumptions C43_write_Pol.
Theorem C43_write_DOS : forall enc h2m E DOS comment f,
  (DOS_write enc h2m E DOS comment TeraHz = Ok (f, None) <->
   ascii comment /\ Z.of_nat (List.length DOS) < 2 ^ 31 /\
   exists e0 e1 r, E = e0 :: e1 :: r /\ f = data_file name_DOS comment [Z.of_nat (List.length DOS)] (enc (e1 - e0)%R :: map enc DOS)) /\
  DOS_write enc h2m E DOS comment OtherUnit = Err NotImplementedError.
Proof.
  intros. split; [|reflexivity]. etransitivity; [apply (DOS_write_iff enc h2m E DOS comment TeraHz f)|].
  split; [intros [_ H]; exact H|intros H; split; [discriminate|exact H]].
Qed.
Print Assumptions C43_write_DOS.
Example C43_write_example :
  E_write (mkArr [2] [5; 7]) [104; 105] = (data_file name_E [104; 105] [2] [5; 7], None) /\
  snd (E_write (mkArr [2; 2] [5; 7; 8; 9]) []) = Some StructError /\ snd (Q_write (mkArr [2] [5; 7]) []) = Some IndexError /\
  snd (Omega2_write (mkArr [1; 6] [1; 2; 3; 4; 5; 6]) [] 0) = Some ZeroDivisionError /\ snd (E_write (mkArr [1] [5]) [200]) = Some UnicodeError.
Proof. vm_compute. repeat split. Qed.

(** Which files the readers take, and what they give: for every sequence of bytes. *)
Theorem C43_read_E : forall f name v text shape ws, Forall byte f ->
  (E_read f = Ok (mkInfo name v text, mkArr shape ws) <-> exists n, shape = [n] /\ holds f name v text [n] [n] ws).
Proof. exact E_read_iff. Qed.
Print Assumptions C43_read_E.
Theorem C43_read_Q : forall f name v text shape ws, Forall byte f ->
  (Q_read f = Ok (mkInfo name v text, mkArr shape ws) <-> exists n d, shape = [n; d] /\ holds f name v text [d; n] [n; d] ws).
Proof. exact Q_read_iff. Qed.
Print Assumptions C43_read_Q.
Theorem C43_read_Sqe : forall f name v text shape ws, Forall byte f ->
  (Sqe_read f = Ok (mkInfo name v text, mkArr shape ws) <-> exists n d, shape = [n; d] /\ holds f name v text [n; d] [n; d] ws).
Proof. exact Sqe_read_iff. Qed.
Print Assumptions C43_read_Sqe.
Theorem C43_read_Omega2 : forall f name v text shape ws, Forall byte f ->
  (Omega2_read f = Ok (mkInfo name v text, mkArr shape ws) <->
   name = name_Omega2 /\ exists q b D, shape = [q; b * D] /\ holds f name v text [D; b; q] [q; b * D] ws).
Proof. exact Omega2_read_iff. Qed.
Print Assumptions C43_read_Omega2.
Theorem C43_read_Pol : forall f name v text shape ws, Forall byte f ->
  (Pol_read f = Ok (mkInfo name v text, mkArr shape ws) <->
   exists q b D, shape = [q; b * D; b; D; 2] /\ holds f name v text [D; b; q] [q; b * D; b; D; 2] ws).
Proof. exact Pol_read_iff. Qed.
Print Assumptions C43_read_Pol.
Theorem C43_read_DOS : forall dec f name v text E DOS, Forall byte f ->
  (DOS_read dec f = Ok (mkInfo name v text, E, DOS) <->
   exists n w ws, holds f name v text [n] [n + 1] (w :: ws) /\ (dec w <> 0)%R /\ DOS = map dec ws /\ List.length E = List.length ws /\ evenly (dec w) E).
Proof. exact DOS_read_iff. Qed.
Print Assumptions C43_read_DOS.
Example C43_read_example :
  let f := data_file name_E [104; 105] [2] [5; 7] in
  Forall byte f /\ E_read f = Ok (mkInfo name_E 1 [104; 105], mkArr [2] [5; 7]) /\ E_read (f ++ [0]) = Err StructError /\
  Pol_read (data_file name_Polarizations [] [1; 1; 2] [1; 2; 3; 4]) = Ok (mkInfo name_Polarizations 1 [], mkArr [2; 1; 1; 1; 2] [1; 2; 3; 4]) /\
  Q_read (data_file name_Q [] [- 1; - 1] [5]) = Err ValueError.
Proof.
  cbv zeta. split.
  - apply data_file_byte; repeat constructor; lia.
  - vm_compute. repeat split.
Qed.

(** What comes back of what was written: the same numbers, in an array of the axes that the file keeps; or nothing. *)
Theorem C43_back_E : forall n rest ws comment f text, array (n :: rest) ws -> stripped (firstn 1024 comment) text ->
  E_write (mkArr (n :: rest) ws) comment = (f, None) -> E_read f = Ok (mkInfo name_E 1 text, mkArr [n] ws).
Proof. exact E_back. Qed.
Print Assumptions C43_back_E.
Theorem C43_back_Q : forall n d rest ws comment f text, array (n :: d :: rest) ws -> stripped (firstn 1024 comment) text ->
  Q_write (mkArr (n :: d :: rest) ws) comment = (f, None) ->
  Q_read f = if (count rest =? 1) || (n * d =? 0) then Ok (mkInfo name_Q 1 text, mkArr [n; d] ws) else Err StructError.
Proof. exact Q_back. Qed.
Print Assumptions C43_back_Q.
Theorem C43_back_Sqe : forall n d rest ws comment f text, array (n :: d :: rest) ws -> stripped (firstn 1024 comment) text ->
  Sqe_write (mkArr (n :: d :: rest) ws) comment = (f, None) ->
  Sqe_read f = if (count rest =? 1) || (n * d =? 0) then Ok (mkInfo name_Sqe 1 text, mkArr [n; d] ws) else Err StructError.
Proof. exact Sqe_back. Qed.
Print Assumptions C43_back_Sqe.
Theorem C43_back_Omega2 : forall n s ws comment D f text, array [n; s] ws -> stripped (firstn 1024 comment) text ->
  Omega2_write (mkArr [n; s] ws) comment D = (f, None) ->
  Omega2_read f = if (s / D * D =? s) || (n =? 0) then Ok (mkInfo name_Omega2 1 text, mkArr [n; s / D * D] ws) else Err StructError.
Proof. exact Omega2_back. Qed.
Print Assumptions C43_back_Omega2.
Theorem C43_back_Pol : forall q m b d zs comment f text, 0 <= q -> 0 <= m -> 0 <= b -> 0 <= d -> Forall wf_complex zs -> Z.of_nat (List.length zs) = count [q; m; b; d] ->
  stripped (firstn 1024 comment) text -> Pol_write (mkC [q; m; b; d] zs) comment = (f, None) ->
  Pol_read f = if (m =? b * d) || (q * b * d =? 0) then Ok (mkInfo name_Polarizations 1 text, mkArr [q; b * d; b; d; 2] (reim zs)) else Err StructError.
Proof. exact Pol_back. Qed.
Print Assumptions C43_back_Pol.
Example C43_back_example :
  array [2; 3] [1; 2; 3; 4; 5; 6] /\ stripped (firstn 1024 [0; 104; 0; 105; 0]) [104; 0; 105] /\
  (let '(f, e) := Omega2_write (mkArr [2; 3] [1; 2; 3; 4; 5; 6]) [0; 104; 0; 105; 0] 3 in
   e = None /\ Omega2_read f = Ok (mkInfo name_Omega2 1 [104; 0; 105], mkArr [2; 3] [1; 2; 3; 4; 5; 6])) /\
  (let '(f, e) := Omega2_write (mkArr [2; 4] [1; 2; 3; 4; 5; 6; 7; 8]) [] 3 in e = None /\ Omega2_read f = Err StructError) /\
  (let '(f, e) := Pol_write (mkC [1; 2; 1; 2] [(1, 2); (3, 4); (5, 6); (7, 8)]) [] in
   e = None /\ Pol_read f = Ok (mkInfo name_Polarizations 1 [], mkArr [1; 2; 1; 2; 2] [1; 2; 3; 4; 5; 6; 7; 8])) /\
  (let '(f, e) := Q_write (mkArr [1; 1; 2] [1; 2]) [] in e = None /\ Q_read f = Err StructError).
Proof.
  split. { split; [repeat constructor; lia|]. split; [repeat constructor; lia|reflexivity]. }
  split. { exists 1%nat, 1%nat. cbn. repeat split; lia. }
  vm_compute. repeat split.
Qed.

(** The energies of a density of states: equal steps from zero, of the first two energies; doubles are rounded by [dec (enc _)]. *)
Theorem C43_back_DOS : forall enc dec h2m e0 e1 r DOS comment f text,
  (forall x, wf_word (enc x)) -> stripped (firstn 1024 comment) text -> DOS_write enc h2m (e0 :: e1 :: r) DOS comment TeraHz = Ok (f, None) ->
  dec (enc (e1 - e0)%R) <> 0%R ->
  exists E, DOS_read dec f = Ok (mkInfo name_DOS 1 text, E, map (fun x => dec (enc x)) DOS) /\ List.length E = List.length DOS /\ evenly (dec (enc (e1 - e0)%R)) E.
Proof. exact dos_terahertz. Qed.
Print Assumptions C43_back_DOS.
(** They are those that were written just if these started at zero, in equal steps, and were as many as the values. *)
Theorem C43_dos_kept : forall enc dec h2m e0 e1 r DOS comment f text,
  (forall x, wf_word (enc x)) -> stripped (firstn 1024 comment) text -> DOS_write enc h2m (e0 :: e1 :: r) DOS comment TeraHz = Ok (f, None) ->
  e0 <> e1 -> dec (enc (e1 - e0)%R) = (e1 - e0)%R -> Forall (fun x => dec (enc x) = x) DOS ->
  (DOS_read dec f = Ok (mkInfo name_DOS 1 text, e0 :: e1 :: r, DOS) <-> evenly (e1 - e0) (e0 :: e1 :: r) /\ List.length (e0 :: e1 :: r) = List.length DOS).
Proof. exact dos_kept. Qed.
Print Assumptions C43_dos_kept.
(** Energies in meV: kept as frequencies, and back in meV by readDOS. *)
Theorem C43_dos_mev : forall enc dec h2m e0 e1 r DOS comment f,
  (forall x, wf_word (enc x)) -> DOS_write enc h2m (e0 :: e1 :: r) DOS comment MeV = Ok (f, None) -> (0 < h2m)%R ->
  exists nu, energy_of h2m nu = (e1 - e0)%R /\
    (dec (enc nu) <> 0%R -> exists E, readDOS dec h2m f = Ok (E, map (fun x => dec (enc x)) DOS) /\ List.length E = List.length DOS /\ evenly (energy_of h2m (dec (enc nu))) E).
Proof. exact dos_mev. Qed.
Print Assumptions C43_dos_mev.
(** Equal first energies are taken and cannot be read. *)
Theorem C43_dos_flat_refuted : forall enc dec h2m e0 e1 r DOS comment u f,
  (forall x, wf_word (enc x)) -> DOS_write enc h2m (e0 :: e1 :: r) DOS comment u = Ok (f, None) ->
  e0 = e1 -> dec (enc 0%R) = 0%R -> DOS_read dec f = Err ValueError.
Proof. exact dos_flat. Qed.
Print Assumptions C43_dos_flat_refuted.
(* the integer part, as a word *)
Definition enc0 (x : R) : Z := (up x - 1) mod 2 ^ 64.
Lemma enc0_word x : wf_word (enc0 x). Proof. unfold wf_word, enc0. apply Z.mod_pos_bound. lia. Qed.
Lemma enc0_int n : 0 <= n < 2 ^ 64 -> IZR (enc0 (IZR n)) = IZR n.
Proof.
  intros H. unfold enc0. rewrite <- (tech_up (IZR n) (n + 1)); [|rewrite plus_IZR; lra|rewrite plus_IZR; lra]. replace (n + 1 - 1) with n by lia. rewrite Z.mod_small by lia. reflexivity.
Qed.
Example C43_dos_example : exists f, DOS_write enc0 1 [0; 2; 4]%R [5; 6; 7]%R [] TeraHz = Ok (f, None) /\ stripped (firstn 1024 []) [] /\ (0 <> 2)%R /\
  IZR (enc0 (2 - 0)%R) = (2 - 0)%R /\ Forall (fun x => IZR (enc0 x) = x) [5; 6; 7]%R /\ evenly (2 - 0) [0; 2; 4]%R /\
  DOS_read IZR f = Ok (mkInfo name_DOS 1 [], [0; 2; 4]%R, [5; 6; 7]%R).
Proof.
  exists (data_file name_DOS [] [3] (enc0 (2 - 0)%R :: map enc0 [5; 6; 7]%R)).
  assert (W : DOS_write enc0 1 [0; 2; 4]%R [5; 6; 7]%R [] TeraHz = Ok (data_file name_DOS [] [3] (enc0 (2 - 0)%R :: map enc0 [5; 6; 7]%R), None)).
  { apply DOS_write_iff. split; [discriminate|]. split; [constructor|]. split; [cbn; lia|]. exists 0%R, 2%R, [4%R]. split; reflexivity. }
  assert (T : stripped (firstn 1024 []) []) by (exists 0%nat, 0%nat; cbn; repeat split; lia).
  assert (D : IZR (enc0 (2 - 0)%R) = (2 - 0)%R) by (replace (2 - 0)%R with 2%R by lra; apply enc0_int; lia).
  assert (F : Forall (fun x => IZR (enc0 x) = x) [5; 6; 7]%R) by (repeat (constructor; [apply enc0_int; lia|]); constructor).
  assert (V : evenly (2 - 0) [0; 2; 4]%R). { intros [|[|[|i]]] e H; cbn in H; try (assert (e = 0 \/ e = 2 \/ e = 4)%R by (left + (right; left) + (right; right); congruence)); try discriminate H.
    - assert (e = 0)%R by congruence. subst. cbn. lra. - assert (e = 2)%R by congruence. subst. cbn. lra. - assert (e = 4)%R by congruence. subst. cbn. lra. - destruct i; discriminate H. }
  repeat (split; [first [exact W | exact T | lra | exact D | exact F | exact V]|]).
  apply (dos_kept enc0 IZR 1 0 2 [4%R] [5; 6; 7]%R [] _ [] enc0_word T W); auto; lra.
Qed.

(** A writer that raises leaves a file that its reader does not take. *)
Theorem C43_interrupted :
  (forall a comment f e, E_write a comment = (f, Some e) -> E_read f = Err StructError) /\
  (forall a comment f e, Q_write a comment = (f, Some e) -> Q_read f = Err StructError) /\
  (forall a comment f e, Sqe_write a comment = (f, Some e) -> Sqe_read f = Err StructError) /\
  (forall a comment D f e, Omega2_write a comment D = (f, Some e) -> Omega2_read f = Err StructError) /\
  (forall a comment f e, Pol_write a comment = (f, Some e) -> Pol_read f = Err StructError) /\
  (forall enc dec h2m E DOS comment u f e, DOS_write enc h2m E DOS comment u = Ok (f, Some e) -> DOS_read dec f = Err StructError).
Proof.
  repeat split; [exact E_interrupted|exact Q_interrupted|exact Sqe_interrupted|exact Omega2_interrupted|exact Pol_interrupted|].
  intros. eapply DOS_interrupted. eassumption.
Qed.
Print Assumptions C43_interrupted.
Example C43_interrupted_example : exists f, E_write (mkArr [2; 2] [5; 7; 8; 9]) [] = (f, Some StructError) /\ List.length f = 1096%nat /\
  exists g, DOS_write enc0 1 [3%R] [] [] TeraHz = Ok (g, Some IndexError) /\ List.length g = 1096%nat.
Proof. eexists. split; [reflexivity|]. split; [reflexivity|]. eexists. split; reflexivity. Qed.

(** The kind of a file is not looked at (but for squared frequencies): wave vectors read as a scattering function have their axes exchanged. *)
Theorem C43_kind_refuted : forall n d ws comment f text, array [n; d] ws -> stripped (firstn 1024 comment) text ->
  Q_write (mkArr [n; d] ws) comment = (f, None) -> Sqe_read f = Ok (mkInfo name_Q 1 text, mkArr [d; n] ws).
Proof. exact mixup. Qed.
Print Assumptions C43_kind_refuted.
Example C43_kind_example : array [1; 2] [8; 9] /\ (let '(f, e) := Q_write (mkArr [1; 2] [8; 9]) [] in e = None /\ Sqe_read f = Ok (mkInfo name_Q 1 [], mkArr [2; 1] [8; 9])).
Proof. split; [split; [repeat constructor; lia|split; [repeat constructor; lia|reflexivity]]|vm_compute; repeat split]. Qed.

(** Polarizations that were read are taken by the writer, but the file cannot be read. *)
Theorem C43_rewrite_refuted : forall f i q m b d ws comment, Forall byte f -> Pol_read f = Ok (i, mkArr [q; m; b; d; 2] ws) -> ascii comment ->
  exists f', Pol_write (mkC [q; m; b; d; 2] (as_real ws)) comment = (f', None) /\ (ws <> [] -> Pol_read f' = Err StructError).
Proof. exact rewritten. Qed.
Print Assumptions C43_rewrite_refuted.
Example C43_rewrite_example : let f := data_file name_Polarizations [] [1; 1; 1] [1; 2] in
  Forall byte f /\ Pol_read f = Ok (mkInfo name_Polarizations 1 [], mkArr [1; 1; 1; 1; 2] [1; 2]) /\
  Pol_write (mkC [1; 1; 1; 1; 2] (as_real [1; 2])) [] = (data_file name_Polarizations [] [1; 1; 1] [1; 2; 0; 0], None).
Proof. cbv zeta. split; [apply data_file_byte; repeat constructor; lia|]. vm_compute. repeat split. Qed.

(** A scattering function written to three files and read from them. *)
Theorem C43_sqe : forall qs es n m ws d q e s, Forall wf_word qs -> Forall wf_word es -> array [n; m] ws ->
  Z.of_nat (List.length qs) < 2 ^ 31 -> Z.of_nat (List.length es) < 2 ^ 31 -> n < 2 ^ 31 -> m < 2 ^ 31 -> q <> e -> q <> s -> e <> s ->
  exists d', writeSQE (mkSH qs es (mkArr [n; m] ws)) d q e s = (d', None) /\ readSQE d' q e s = Ok (mkSH qs es (mkArr [n; m] ws)) /\
             (forall x, x <> q -> x <> e -> x <> s -> d' x = d x) /\
             d' q = Some (data_file name_Q [] [1; Z.of_nat (List.length qs)] qs) /\ d' e = Some (data_file name_E [] [Z.of_nat (List.length es)] es) /\
             d' s = Some (data_file name_Sqe [] [n; m] ws).
Proof. exact sqe_back. Qed.
Print Assumptions C43_sqe.
Example C43_sqe_example : Forall wf_word [1; 2; 3] /\ Forall wf_word [4; 5] /\ array [2; 1] [6; 7] /\ "Q"%string <> "E"%string /\ "Q"%string <> "Sqe"%string /\ "E"%string <> "Sqe"%string /\
  readSQE (fst (writeSQE (mkSH [1; 2; 3] [4; 5] (mkArr [2; 1] [6; 7])) (fun _ => None) "Q" "E" "Sqe")) "Q" "E" "Sqe" = Ok (mkSH [1; 2; 3] [4; 5] (mkArr [2; 1] [6; 7])).
Proof.
  split; [repeat constructor; lia|]. split; [repeat constructor; lia|]. split; [split; [repeat constructor; lia|split; [repeat constructor; lia|reflexivity]]|].
  split; [discriminate|]. split; [discriminate|]. split; [discriminate|]. vm_compute. reflexivity.
Qed.

(** What readDispersion takes, and the energies it gives: hbar times the frequencies, zero for negative squares. *)
Theorem C43_dispersion : forall dec h2m omega2 q m b d t pw ngrid ncell r,
  dispersion_of dec h2m omega2 (mkArr [q; m; b; d; t] pw) ngrid ncell = Ok r <->
  t = 2 /\ m = b * d /\ d = Z.of_nat (List.length ngrid) /\ d = Z.of_nat ncell /\ ngrid <> [] /\ q = count ngrid /\
  Z.of_nat (List.length (a_data omega2)) = count ngrid * m /\
  r = (b, d, ngrid ++ [m; b; d; 2], ngrid ++ [m], map (fun w => (sqrt (Rmax 0 (dec w)) * h2m)%R) (a_data omega2)).
Proof. exact dispersion_iff. Qed.
Print Assumptions C43_dispersion.
Example C43_dispersion_example : exists r, dispersion_of IZR 1 (mkArr [2; 1] [4; 0]) (mkArr [2; 1; 1; 1; 2] [1; 0; 1; 0]) [2] 1 = Ok r.
Proof. eexists. apply C43_dispersion. repeat split; discriminate. Qed.
