(** Proofs for C63: lau files. *)
From Coq Require Import Ascii Reals.
From Verif Require Import Base PyStr RotModel PeakModel LazModel LazSpec LazProofs LazProofs2.
Open Scope Z_scope.

Lemma remove_app : forall c a b, remove_char c (a ++ b) = (remove_char c a ++ remove_char c b)%string.
Proof. induction a as [|d a IH]; intros b; [reflexivity|]. cbn [append remove_char]. destruct (Ascii.eqb d c); rewrite IH; reflexivity. Qed.
Lemma remove_none : forall s, all_chars (fun c => c <> "#"%char) s -> remove_char hash s = s.
Proof. induction s as [|c s IH]; intros H; [reflexivity|]. destruct H as [A B]. cbn [remove_char]. rewrite (proj2 (Ascii.eqb_neq c hash) A). now rewrite (IH B). Qed.
Lemma remove_chars : forall P s, all_chars P s -> all_chars P (remove_char hash s).
Proof. induction s as [|c s IH]; intros H; [exact I|]. destruct H as [A B]. cbn [remove_char]. destruct (Ascii.eqb c hash); [now apply IH|split; [exact A|now apply IH]]. Qed.
Lemma gap_nohash : forall c, gap_char c -> c <> "#"%char.
Proof. intros c [->| ->]; discriminate. Qed.
Lemma words_remove : forall l ws, layout l ws -> words (remove_char hash l) = filter (fun w => negb (is_empty w)) (map (remove_char hash) ws).
Proof.
  induction 1 as [g G|g w rest ws G W R H IH].
  - rewrite remove_none by (eapply all_impl; [exact gap_nohash|exact G]). exact (words_layout g [] (layout_nil g G)).
  - rewrite !remove_app, (remove_none g) by (eapply all_impl; [exact gap_nohash|exact G]). rewrite words_gap by now apply gap_spaces.
    cbn [map filter]. destruct (word_nospace w W) as [_ A]. apply (remove_chars _ w) in A. destruct R as [->|(c & r & -> & C)].
    + cbn [remove_char] in *. rewrite append_nil. destruct (remove_char hash w) as [|d w'] eqn:E.
      * cbn [is_empty negb]. rewrite <- IH. reflexivity.
      * cbn [is_empty negb]. rewrite <- IH. apply words_one; [discriminate|exact A].
    + cbn [remove_char] in *. rewrite (proj2 (Ascii.eqb_neq c hash) (gap_nohash c C)) in *. rewrite words_space in IH by now apply gap_is_space.
      destruct (remove_char hash w) as [|d w'] eqn:E.
      * cbn [is_empty negb append]. rewrite words_space by now apply gap_is_space. exact IH.
      * cbn [is_empty negb]. rewrite words_cons; [now rewrite IH|discriminate|exact A|now apply gap_is_space].
Qed.

Section numbers.
Context (py_float : string -> option R) (L : Type) (Lattice : R -> R -> R -> R -> R -> R -> result L).
Lemma par_at : forall p i w x, (0 <= i)%nat -> nth_error p i = Some w -> py_float w = Some x -> par py_float p (Z.of_nat i) = Ok x.
Proof.
  intros p i w x _ E F. unfold par, at_index. rewrite (proj2 (Z.ltb_ge (Z.of_nat i) 0)) by lia. cbv iota. rewrite (proj2 (Z.ltb_ge (Z.of_nat i) 0)) by lia.
  assert (Q : (i < List.length p)%nat) by (apply nth_error_Some; congruence). rewrite (proj2 (Z.leb_gt _ (Z.of_nat i))) by lia. cbn [orb]. rewrite Nat2Z.id, E. cbn [bind]. now rewrite F.
Qed.
Lemma nonempty_word : forall w, word w -> is_empty w = false.
Proof. intros w [N _]. destruct w; [congruence|reflexivity]. Qed.
Lemma lattice_line : forall s wa wb wc wal wbe wga a b c al be ga ws,
  layout s ("#"%string :: "CELL"%string :: wa :: wb :: wc :: wal :: wbe :: wga :: ws) -> Forall (all_chars (fun x => x <> "#"%char)) [wa; wb; wc; wal; wbe; wga] ->
  py_float wa = Some a -> py_float wb = Some b -> py_float wc = Some c -> py_float wal = Some al -> py_float wbe = Some be -> py_float wga = Some ga ->
  getLattice py_float L Lattice s = Lattice a b c al be ga.
Proof.
  intros s wa wb wc wal wbe wga a b c al be ga ws LY NH Ea Eb Ec Eal Ebe Ega. unfold getLattice. rewrite (words_remove _ _ LY).
  pose proof (layout_words _ _ LY) as WW. cbn [map]. change (remove_char hash "#") with EmptyString. change (remove_char hash "CELL") with "CELL"%string.
  repeat match goal with H : Forall _ (_ :: _) |- _ => let A := fresh in let B := fresh in pose proof (Forall_inv H) as A; pose proof (Forall_inv_tail H) as B; clear H end.
  rewrite !remove_none by assumption. cbn [filter is_empty negb]. rewrite !nonempty_word by assumption. cbn [negb].
  pose proof (par_at) as PA.
  set (p := "CELL"%string :: _).
  rewrite (PA p 1%nat wa a ltac:(lia) eq_refl Ea : par py_float p 1 = Ok a). cbn [bind].
  rewrite (PA p 2%nat wb b ltac:(lia) eq_refl Eb : par py_float p 2 = Ok b). cbn [bind].
  rewrite (PA p 3%nat wc c ltac:(lia) eq_refl Ec : par py_float p 3 = Ok c). cbn [bind].
  rewrite (PA p 4%nat wal al ltac:(lia) eq_refl Eal : par py_float p 4 = Ok al). cbn [bind].
  rewrite (PA p 5%nat wbe be ltac:(lia) eq_refl Ebe : par py_float p 5 = Ok be). cbn [bind].
  rewrite (PA p 6%nat wga ga ltac:(lia) eq_refl Ega : par py_float p 6 = Ok ga). reflexivity.
Qed.
Lemma ended_nonempty : forall f, ended f -> f <> [].
Proof. intros f (f0 & l & -> & _). destruct f0; discriminate. Qed.
Lemma read_file : forall f, well_formed f -> ended f -> nameable f -> distinct_names f -> read_comments [] (splitlines (text_of f)) = Ok (keyed f).
Proof. intros f W E N D. rewrite read_text by (try assumption; now apply ended_nonempty). rewrite read_ok; [reflexivity|exact W|exact N|now apply distinct_keys]. Qed.
Lemma read_file_dup : forall f, well_formed f -> ended f -> nameable f -> same_names f -> read_comments [] (splitlines (text_of f)) = Err RuntimeError.
Proof. intros f W E N D. rewrite read_text by (try assumption; now apply ended_nonempty). apply read_dup; [exact W|exact N|constructor|now apply same_keys]. Qed.
Lemma cell_line : forall f wa wb wc wal wbe wga a b c al be ga, well_formed f -> distinct_names f -> says_cell f wa wb wc wal wbe wga ->
  py_float wa = Some a -> py_float wb = Some b -> py_float wc = Some c -> py_float wal = Some al -> py_float wbe = Some be -> py_float wga = Some ga ->
  (let! s := lookup (keyed f) "CELL" in getLattice py_float L Lattice s) = Lattice a b c al be ga.
Proof.
  intros f wa wb wc wal wbe wga a b c al be ga W D (ws & I & NH) Ea Eb Ec Eal Ebe Ega.
  destruct (keyed_remark f _ _ _ W (not_atom "CELL"%string eq_refl) I) as (s & I2 & LY & _). rewrite (lookup_in _ _ _ _ (distinct_keys f D) I2). cbn [bind].
  eapply lattice_line; eassumption.
Qed.
Lemma each_forall : forall A B (f : A -> result B) (P : A -> B -> Prop) l, Forall (fun x => exists y, P x y) l -> (forall x y, P x y -> f x = Ok y) -> exists l', each f l = Ok l' /\ Forall2 P l l'.
Proof.
  intros A B f P l H E. induction H as [|x l (y & Hy) H IH]; [exists []; split; [reflexivity|constructor]|]. destruct IH as (l' & E' & F). exists (y :: l'). cbn [each]. rewrite (E x y Hy), E'. split; [reflexivity|now constructor].
Qed.
Lemma float_entry : forall cols row name n x, lookup cols name = Ok (n - 1) -> reads py_float row n x -> float_cell py_float cols row name = Ok x.
Proof. intros cols row name n x LK (w & E & F). unfold float_cell. rewrite (cell_entry _ _ _ _ _ LK E). cbn [bind]. now rewrite F. Qed.
Definition lau_says (nh nk nn nf : Z) (row : list string) (x : HKL) : Prop :=
  reads py_float row nh (x_h x) /\ reads py_float row nk (x_k x) /\ reads py_float row nn (x_l x) /\ reads py_float row nf (x_F2 x).
Lemma lau_main : forall f lat wa wb wc wal wbe wga a b c al be ga nh nk nn nf,
  well_formed f -> ended f -> nameable f -> distinct_names f -> columns_ok f -> says_cell f wa wb wc wal wbe wga ->
  py_float wa = Some a -> py_float wb = Some b -> py_float wc = Some c -> py_float wal = Some al -> py_float wbe = Some be -> py_float wga = Some ga ->
  Lattice a b c al be ga = Ok lat ->
  column f "column_h" nh -> column f "column_k" nk -> column f "column_l" nn -> column f "column_F2" nf ->
  Forall (fun row => exists x, lau_says nh nk nn nf row x) (rows f) ->
  exists hkls, lau_parse py_float L Lattice (text_of f) = Ok (lat, hkls) /\ Forall2 (lau_says nh nk nn nf) (rows f) hkls.
Proof.
  intros f lat wa wb wc wal wbe wga a b c al be ga nh nk nn nf W E N D CO SC Ea Eb Ec Eal Ebe Ega EL Ch Ck Cl Cf RW.
  unfold lau_parse. rewrite (read_file f W E N D). cbn [bind].
  pose proof (cell_line f _ _ _ _ _ _ _ _ _ _ _ _ W D SC Ea Eb Ec Eal Ebe Ega) as C. destruct (lookup (keyed f) "CELL") as [s|]; cbn [bind] in C |- *; [|congruence].
  rewrite C, EL. cbn [bind]. unfold getHKLs. destruct (columns f W D CO) as (cols & -> & CL). cbn [bind]. rewrite (table_rows f W E).
  destruct (each_forall _ _ (lau_row py_float cols) (lau_says nh nk nn nf) (rows f) RW) as (l & -> & F).
  - intros row x (Rh & Rk & Rl & Rf). unfold lau_row.
    rewrite (float_entry _ _ _ _ _ (proj1 (CL "_h"%string nh Ch) : lookup cols "column_h" = Ok (nh - 1)) Rh). cbn [bind]. rewrite (float_entry _ _ _ _ _ (proj1 (CL "_k"%string nk Ck) : lookup cols "column_k" = Ok (nk - 1)) Rk). cbn [bind].
    rewrite (float_entry _ _ _ _ _ (proj1 (CL "_l"%string nn Cl) : lookup cols "column_l" = Ok (nn - 1)) Rl). cbn [bind]. rewrite (float_entry _ _ _ _ _ (proj1 (CL "_F2"%string nf Cf) : lookup cols "column_F2" = Ok (nf - 1)) Rf). cbn [bind].
    destruct x; reflexivity.
  - cbn [bind]. now exists l.
Qed.
End numbers.
