(** Densities of states, scattering functions and dispersions as wholes. *)
From Coq Require Import Reals Lra.
From Verif Require Import Base RotModel StorageModel StorageSpec StorageProofs ChanModel ChanProofs IdfModel IdfSpec IdfProofs IdfProofs2 IdfProofs3 IdfProofs4 IdfProofs5.
Open Scope Z_scope.

Lemma strip_text comment : ascii comment -> exists text, stripped (firstn 1024 comment) text /\ ascii text.
Proof. intros A. exists (strip0 (firstn 1024 comment)). pose proof (strip_spec (firstn 1024 comment)) as S. split; [exact S|]. apply (ascii_strip _ _ S). apply ascii_firstn. exact A. Qed.
Lemma DOS_back (enc : R -> Z) (dec : Z -> R) h2m e0 e1 r DOS comment u f text :
  (forall x, wf_word (enc x)) -> stripped (firstn 1024 comment) text -> DOS_write enc h2m (e0 :: e1 :: r) DOS comment u = Ok (f, None) ->
  DOS_read dec f = if Req_EM_T (dec (enc (spacing h2m u e0 e1))) 0 then Err ValueError
                   else Ok (mkInfo name_DOS 1 text, map (fun k => (INR k * dec (enc (spacing h2m u e0 e1)))%R) (seq 0 (List.length DOS)), map (fun x => dec (enc x)) DOS).
Proof.
  intros WE T W. apply (proj1 (DOS_write_iff _ _ _ _ _ _ _)) in W. destruct W as [U [A [N [a [b [r' [E ->]]]]]]].
  assert (a = e0) by congruence. assert (b = e1) by congruence. subst a b. clear E r'.
  set (n := Z.of_nat (List.length DOS)) in *. set (s := spacing h2m u e0 e1) in *.
  assert (L : layout (data_file name_DOS comment [n] (enc s :: map enc DOS)) (spec_pad 64 name_DOS) 1 (spec_pad 1024 (firstn 1024 comment)) [n] (enc s :: map enc DOS)).
  { apply data_file_layout; [cbn; lia|constructor; [apply lt_int32; unfold n in *; lia|constructor]|]. constructor; [auto|]. apply Forall_forall. intros x X. apply in_map_iff in X. destruct X as [y [<- _]]. auto. }
  rewrite (DOS_layout dec _ _ _ _ _ _ _ (mkInfo name_DOS 1 text) L).
  2: { apply make_info_inv. cbn [i_ver i_type i_text]. split; [reflexivity|]. split. { apply pad_strip. exists 0%nat, 0%nat. cbn. repeat split; lia. }
       split; [apply pad_strip; exact T|]. split; [repeat constructor; lia|]. apply (ascii_strip _ _ T), ascii_firstn, A. }
  rewrite map_length. fold n. rewrite Z.eqb_refl. rewrite map_map. reflexivity.
Qed.
Lemma spacing_mev h2m e0 e1 : (0 < h2m)%R -> energy_of h2m (spacing h2m MeV e0 e1) = (e1 - e0)%R.
Proof.
  intros H. unfold energy_of, spacing. pose proof PI_RGT_0. assert ((10 ^ 12)%R <> 0%R) by (apply pow_nonzero; lra). set (t := (10 ^ 12)%R) in *. field. split; [lra|]. split; [assumption|lra].
Qed.
Lemma spacing_nonzero h2m e0 e1 : (0 < h2m)%R -> e0 <> e1 -> spacing h2m MeV e0 e1 <> 0%R.
Proof. intros H N Z. pose proof (spacing_mev h2m e0 e1 H) as S. rewrite Z in S. unfold energy_of in S. rewrite !Rmult_0_l in S. lra. Qed.
Lemma evenly_energy h2m dE E : evenly dE E -> evenly (energy_of h2m dE) (map (energy_of h2m) E).
Proof.
  intros H i e N. rewrite nth_error_map in N. destruct (nth_error E i) as [x|] eqn:X; [|discriminate N]. cbn in N. apply H in X. subst x.
  assert (e = energy_of h2m (INR i * dE)) by congruence. subst e. unfold energy_of. ring.
Qed.
(** When are the energies those that were written? *)
Lemma evenly_unique dE E E' : evenly dE E -> evenly dE E' -> List.length E = List.length E' -> E = E'.
Proof. intros A B L. apply (proj1 (evenly_is _ _)) in A. apply (proj1 (evenly_is _ _)) in B. rewrite A, B, L. reflexivity. Qed.
Lemma dos_terahertz enc dec h2m e0 e1 r DOS comment f text :
  (forall x, wf_word (enc x)) -> stripped (firstn 1024 comment) text -> DOS_write enc h2m (e0 :: e1 :: r) DOS comment TeraHz = Ok (f, None) ->
  dec (enc (e1 - e0)%R) <> 0%R ->
  exists E, DOS_read dec f = Ok (mkInfo name_DOS 1 text, E, map (fun x => dec (enc x)) DOS) /\ List.length E = List.length DOS /\ evenly (dec (enc (e1 - e0)%R)) E.
Proof.
  intros WE T W N. rewrite (DOS_back enc dec h2m e0 e1 r DOS comment TeraHz f text WE T W). unfold spacing.
  destruct (Req_EM_T (dec (enc (e1 - e0)%R)) 0); [contradiction|]. eexists. split; [reflexivity|]. split; [rewrite map_length, seq_length; reflexivity|apply evenly_seq].
Qed.
Lemma dos_kept enc dec h2m e0 e1 r DOS comment f text :
  (forall x, wf_word (enc x)) -> stripped (firstn 1024 comment) text -> DOS_write enc h2m (e0 :: e1 :: r) DOS comment TeraHz = Ok (f, None) ->
  e0 <> e1 -> dec (enc (e1 - e0)%R) = (e1 - e0)%R -> Forall (fun x => dec (enc x) = x) DOS ->
  (DOS_read dec f = Ok (mkInfo name_DOS 1 text, e0 :: e1 :: r, DOS) <-> evenly (e1 - e0) (e0 :: e1 :: r) /\ List.length (e0 :: e1 :: r) = List.length DOS).
Proof.
  intros WE T W N D0 DD. destruct (dos_terahertz enc dec h2m e0 e1 r DOS comment f text WE T W ltac:(rewrite D0; lra)) as [E [R [L V]]]. rewrite D0 in V.
  assert (M : map (fun x => dec (enc x)) DOS = DOS). { rewrite <- (map_id DOS) at 2. apply map_ext_in. intros x X. rewrite Forall_forall in DD. apply DD. exact X. }
  rewrite M in R. rewrite R. split.
  - intros H. assert (EE : E = e0 :: e1 :: r) by congruence. rewrite <- EE. auto.
  - intros [V2 L2]. rewrite (evenly_unique _ _ _ V V2) by congruence. reflexivity.
Qed.
Lemma dos_mev enc dec h2m e0 e1 r DOS comment f :
  (forall x, wf_word (enc x)) -> DOS_write enc h2m (e0 :: e1 :: r) DOS comment MeV = Ok (f, None) -> (0 < h2m)%R ->
  exists nu, energy_of h2m nu = (e1 - e0)%R /\
    (dec (enc nu) <> 0%R -> exists E, readDOS dec h2m f = Ok (E, map (fun x => dec (enc x)) DOS) /\ List.length E = List.length DOS /\ evenly (energy_of h2m (dec (enc nu))) E).
Proof.
  intros WE W H. exists (spacing h2m MeV e0 e1). split; [apply spacing_mev; auto|]. intros N.
  assert (A : ascii comment) by (apply (proj1 (DOS_write_iff _ _ _ _ _ _ _)) in W; apply W). destruct (strip_text comment A) as [text [T _]].
  unfold readDOS. rewrite (DOS_back enc dec h2m e0 e1 r DOS comment MeV f text WE T W). destruct (Req_EM_T _ 0); [contradiction|]. cbn [bind].
  eexists. split; [reflexivity|]. split; [rewrite !map_length, seq_length; reflexivity|].
  change (fun x : R => (x * 2 * PI * 10 ^ 12 * h2m)%R) with (energy_of h2m). apply evenly_energy, evenly_seq.
Qed.
Lemma dos_flat enc dec h2m e0 e1 r DOS comment u f : (forall x, wf_word (enc x)) -> DOS_write enc h2m (e0 :: e1 :: r) DOS comment u = Ok (f, None) ->
  e0 = e1 -> dec (enc 0%R) = 0%R -> DOS_read dec f = Err ValueError.
Proof.
  intros WE W E Z. assert (A : ascii comment) by (apply (proj1 (DOS_write_iff _ _ _ _ _ _ _)) in W; apply W). destruct (strip_text comment A) as [text [T _]].
  rewrite (DOS_back enc dec h2m e0 e1 r DOS comment u f text WE T W). subst e1. replace (spacing h2m u e0 e0) with 0%R by (unfold spacing; destruct u; ring).
  destruct (Req_EM_T (dec (enc 0%R)) 0); [reflexivity|contradiction].
Qed.

(** Scattering functions. *)
Lemma put_same d n f : put d n f n = Some f. Proof. unfold put. destruct (string_dec n n); [reflexivity|contradiction]. Qed.
Lemma put_other d n f m : m <> n -> put d n f m = d m. Proof. intros. unfold put. destruct (string_dec m n); [contradiction|reflexivity]. Qed.
Lemma sqe_back qs es n m ws d q e s : Forall wf_word qs -> Forall wf_word es -> array [n; m] ws ->
  Z.of_nat (List.length qs) < 2 ^ 31 -> Z.of_nat (List.length es) < 2 ^ 31 -> n < 2 ^ 31 -> m < 2 ^ 31 -> q <> e -> q <> s -> e <> s ->
  exists d', writeSQE (mkSH qs es (mkArr [n; m] ws)) d q e s = (d', None) /\ readSQE d' q e s = Ok (mkSH qs es (mkArr [n; m] ws)) /\
             (forall x, x <> q -> x <> e -> x <> s -> d' x = d x) /\
             d' q = Some (data_file name_Q [] [1; Z.of_nat (List.length qs)] qs) /\ d' e = Some (data_file name_E [] [Z.of_nat (List.length es)] es) /\
             d' s = Some (data_file name_Sqe [] [n; m] ws).
Proof.
  intros Wq We K Lq Le Ln Lm N1 N2 N3.
  assert (A0 : ascii []) by constructor. assert (T0 : stripped (firstn 1024 []) []) by (exists 0%nat, 0%nat; cbn; repeat split; lia).
  assert (Kq : array [Z.of_nat (List.length qs); 1] qs). { split; [constructor; [lia|constructor; [lia|constructor]]|]. split; [auto|]. unfold count. cbn [fold_right]. lia. }
  assert (Ke : array [Z.of_nat (List.length es)] es). { split; [constructor; [lia|constructor]|]. split; [auto|]. unfold count. cbn [fold_right]. lia. }
  assert (one : 1 < 2 ^ 31) by lia.
  pose proof (proj2 (Q_write_iff _ _ [] (data_file name_Q [] [1; Z.of_nat (List.length qs)] qs) Kq)
                (conj A0 (ex_intro _ _ (ex_intro _ 1 (ex_intro _ [] (conj eq_refl (conj Lq (conj one eq_refl)))))))) as Fq.
  pose proof (proj2 (E_write_iff _ _ [] (data_file name_E [] [Z.of_nat (List.length es)] es) Ke)
                (conj A0 (ex_intro _ _ (ex_intro _ [] (conj eq_refl (conj Le (conj (or_intror eq_refl) eq_refl))))))) as Fe.
  pose proof (proj2 (Sqe_write_iff _ _ [] (data_file name_Sqe [] [n; m] ws) K)
                (conj A0 (ex_intro _ _ (ex_intro _ _ (ex_intro _ [] (conj eq_refl (conj Ln (conj Lm eq_refl)))))))) as Fs.
  pose proof (Q_back _ _ _ _ _ _ _ Kq T0 Fq) as Rq. cbn [count fold_right] in Rq. change (1 =? 1) with true in Rq. cbn [orb] in Rq.
  pose proof (E_back _ _ _ _ _ _ Ke T0 Fe) as Re.
  pose proof (Sqe_back _ _ _ _ _ _ _ K T0 Fs) as Rs. change (count [] =? 1) with true in Rs. cbn [orb] in Rs.
  unfold writeSQE, readSQE, read_file. cbn [sh_q sh_e sh_data put_all]. rewrite Fq. cbn [put_all]. rewrite Fe. cbn [put_all]. rewrite Fs. cbn [put_all].
  set (fq := data_file name_Q [] [1; Z.of_nat (List.length qs)] qs) in *. set (fe := data_file name_E [] [Z.of_nat (List.length es)] es) in *. set (fs := data_file name_Sqe [] [n; m] ws) in *.
  exists (put (put (put d q fq) e fe) s fs).
  assert (G1 : put (put (put d q fq) e fe) s fs q = Some fq) by (rewrite put_other, put_other, put_same by congruence; reflexivity).
  assert (G2 : put (put (put d q fq) e fe) s fs e = Some fe) by (rewrite put_other, put_same by congruence; reflexivity).
  assert (G3 : put (put (put d q fq) e fe) s fs s = Some fs) by (rewrite put_same by congruence; reflexivity).
  split; [reflexivity|]. split; [|split; [|auto]].
  - rewrite G1, G2, G3, Rq. cbn [bind]. rewrite Re. cbn [bind]. rewrite Rs. reflexivity.
  - intros x X1 X2 X3. rewrite !put_other by auto. reflexivity.
Qed.

(** Dispersions. *)
Lemma dispersion_iff dec h2m omega2 q m b d t pw ngrid ncell r :
  dispersion_of dec h2m omega2 (mkArr [q; m; b; d; t] pw) ngrid ncell = Ok r <->
  t = 2 /\ m = b * d /\ d = Z.of_nat (List.length ngrid) /\ d = Z.of_nat ncell /\ ngrid <> [] /\ q = count ngrid /\
  Z.of_nat (List.length (a_data omega2)) = count ngrid * m /\
  r = (b, d, ngrid ++ [m; b; d; 2], ngrid ++ [m], map (fun w => (sqrt (Rmax 0 (dec w)) * h2m)%R) (a_data omega2)).
Proof.
  assert (MX : map (fun w => (sqrt (if Rltb (dec w) 0 then 0 else dec w) * h2m)%R) (a_data omega2) = map (fun w => (sqrt (Rmax 0 (dec w)) * h2m)%R) (a_data omega2)).
  { apply map_ext. intros w. f_equal. f_equal. destruct (Rltb (dec w) 0) eqn:L; [apply Rltb_t in L; rewrite Rmax_left by lra; reflexivity|apply Rltb_f in L; rewrite Rmax_right by lra; reflexivity]. }
  unfold dispersion_of. cbn [a_shape]. rewrite MX. cbv zeta. change size_of with count.
  destruct (t =? 2) eqn:B1; [apply Z.eqb_eq in B1 | apply Z.eqb_neq in B1]; cbn [negb]; [|split; [discriminate|tauto]].
  destruct (m =? b * d) eqn:B2; [apply Z.eqb_eq in B2 | apply Z.eqb_neq in B2]; cbn [negb]; [|split; [discriminate|tauto]].
  destruct (d =? Z.of_nat (List.length ngrid)) eqn:B3; [apply Z.eqb_eq in B3 | apply Z.eqb_neq in B3]; cbn [negb]; [|split; [discriminate|tauto]].
  destruct (d =? Z.of_nat ncell) eqn:B4; [apply Z.eqb_eq in B4 | apply Z.eqb_neq in B4]; cbn [negb]; [|split; [discriminate|tauto]].
  destruct ngrid as [|g gs]; [split; [discriminate|tauto]|]. set (ngrid := g :: gs) in *.
  destruct (q =? count ngrid) eqn:B5; [apply Z.eqb_eq in B5 | apply Z.eqb_neq in B5]; cbn [negb]; [|split; [discriminate|tauto]].
  destruct (Z.of_nat (List.length (a_data omega2)) =? count ngrid * m) eqn:B6; [apply Z.eqb_eq in B6 | apply Z.eqb_neq in B6]; cbn [negb]; [|split; [discriminate|tauto]].
  split.
  - intros H. assert (NE : ngrid <> []) by (unfold ngrid; discriminate). repeat (split; [assumption|]). congruence.
  - intros [_ [_ [_ [_ [_ [_ [_ ->]]]]]]]. reflexivity.
Qed.
