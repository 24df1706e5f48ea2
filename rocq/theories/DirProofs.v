(** Proofs for C46, C47. *)
From Coq Require Import List String Bool Arith Lia.
From Verif Require Import Base DirModel DirSpec.
Import ListNotations.
Open Scope list_scope.

Section D.
  Variable X A : Type.
  Implicit Types (f : action X A) (w : world X) (d : dirspec).

  Lemma run_in_dir_ok f d w w1 r :
    dirs w (cwd w) = true -> dirs w (resolve (cwd w) d) = true ->
    f (mkW (resolve (cwd w) d) (dirs w) (other w)) = (w1, r) -> dirs w1 (cwd w) = true ->
    run_in_dir f d w = (mkW (cwd w) (dirs w1) (other w1), r).
  Proof.
    intros H1 H2 F H3. unfold run_in_dir, enter, getcwd, chdir. rewrite H1, H2, F, H3. reflexivity.
  Qed.
  Lemma run_in_dir_removed f d w w1 r :
    dirs w (cwd w) = true -> dirs w (resolve (cwd w) d) = true ->
    f (mkW (resolve (cwd w) d) (dirs w) (other w)) = (w1, r) -> dirs w1 (cwd w) = false ->
    run_in_dir f d w = (w1, Err IOError).
  Proof.
    intros H1 H2 F H3. unfold run_in_dir, enter, getcwd, chdir. rewrite H1, H2, F, H3. reflexivity.
  Qed.
  Lemma run_in_dir_absent f d w :
    dirs w (cwd w) = false \/ dirs w (resolve (cwd w) d) = false -> run_in_dir f d w = (w, Err IOError).
  Proof.
    unfold run_in_dir, enter, getcwd, chdir. intros [H|H].
    - rewrite H. reflexivity.
    - destruct (dirs w (cwd w)); [rewrite H|]; reflexivity.
  Qed.

  Lemma run_in_dir_removes f d : removes_nothing f -> removes_nothing (run_in_dir f d).
  Proof.
    intros R w p P. destruct (dirs w (cwd w)) eqn:H1; [|rewrite run_in_dir_absent by auto; exact P].
    destruct (dirs w (resolve (cwd w) d)) eqn:H2; [|rewrite run_in_dir_absent by auto; exact P].
    destruct (f (mkW (resolve (cwd w) d) (dirs w) (other w))) as [w1 r] eqn:F.
    assert (M : forall q, dirs w q = true -> dirs w1 q = true).
    { intros q Q. pose proof (R (mkW (resolve (cwd w) d) (dirs w) (other w)) q Q) as K. rewrite F in K. exact K. }
    rewrite (run_in_dir_ok f d w w1 r H1 H2 F (M _ H1)). apply M. exact P.
  Qed.
  Lemma nested_removes f ds : removes_nothing f -> removes_nothing (nested f ds).
  Proof. intro R. induction ds as [|d ds IH]; cbn [nested]; [exact R|apply run_in_dir_removes; exact IH]. Qed.

  Lemma nested_restores f d ds w : removes_nothing f ->
    cwd (fst (nested f (d :: ds) w)) = cwd w.
  Proof.
    intro R. cbn [nested]. destruct (dirs w (cwd w)) eqn:H1; [|rewrite run_in_dir_absent by auto; reflexivity].
    destruct (dirs w (resolve (cwd w) d)) eqn:H2; [|rewrite run_in_dir_absent by auto; reflexivity].
    destruct (nested f ds (mkW (resolve (cwd w) d) (dirs w) (other w))) as [w1 r] eqn:F.
    assert (M : dirs w1 (cwd w) = true).
    { pose proof (nested_removes f ds R (mkW (resolve (cwd w) d) (dirs w) (other w)) (cwd w) H1) as K. rewrite F in K. exact K. }
    rewrite (run_in_dir_ok _ d w w1 r H1 H2 F M). reflexivity.
  Qed.
End D.

(** ** ranks *)
Lemma exists_last_or_nil {Y} (l : list Y) : l = [] \/ exists l' x, l = l' ++ [x].
Proof. destruct l as [|a l] using rev_ind; [auto|right; eauto]. Qed.
Lemma leads_fold l : forall c t, leads c l t <-> t = fold_left walk1 l c.
Proof.
  induction l as [|n l IH]; intros c t; cbn [fold_left].
  - split; [intro H; inversion H; reflexivity|intros ->; constructor].
  - split.
    + intro H. inversion H as [|? ? ? K|? ? ? ? K|? ? K|? ? ? ? N1 N2 K]; subst; apply IH in K; rewrite K; unfold walk1; cbn; try reflexivity.
      * rewrite removelast_last. reflexivity.
      * destruct (String.eqb_spec n "."); [contradiction|]. destruct (String.eqb_spec n ".."); [contradiction|]. reflexivity.
    + unfold walk1 at 2. destruct (String.eqb_spec n ".") as [->|N1]; [intro H; apply leads_dot, IH, H|].
      destruct (String.eqb_spec n "..") as [->|N2].
      * destruct (exists_last_or_nil c) as [->|[c' [x ->]]]; intro H; [apply leads_root, IH, H|]. rewrite removelast_last in H. apply leads_up, IH, H.
      * intro H. apply leads_down; [exact N1|exact N2|]. apply IH, H.
Qed.
Lemma meant_resolve c d t : meant c d t <-> t = resolve c d.
Proof.
  destruct d as [p|l]; cbn [resolve].
  - split; [intro H; inversion H; reflexivity|intros ->; constructor].
  - rewrite <- leads_fold. split; [intro H; inversion H; assumption|intro H; constructor; exact H].
Qed.

Lemma moved_same f r p : moved f r p r = p.
Proof. unfold moved. rewrite Nat.eqb_refl. reflexivity. Qed.
Lemma moved_other f r p k : k <> r -> moved f r p k = f k.
Proof. intro N. unfold moved. destruct (Nat.eqb_spec k r); [contradiction|reflexivity]. Qed.
Lemma execute_app ov s a b : execute ov s (a ++ b) = execute ov (execute ov s a) b.
Proof. unfold execute. apply fold_left_app. Qed.

(** a rank that has ended stays so *)
Lemma ended_stays ov s r k : ended (at_ s k) = true -> at_ (step ov s r) k = at_ s k.
Proof.
  intro E. unfold step. destruct (Nat.eq_dec k r) as [->|N].
  - destruct (at_ s r) as [|[]| | |] eqn:A; cbn in E; try discriminate; exact A.
  - destruct (at_ s r) as [|[]| | |]; try destruct ov; try destruct (present s); cbn [at_]; try reflexivity; rewrite moved_other by exact N; reflexivity.
Qed.
Lemma ended_execute ov s sched k : ended (at_ s k) = true -> at_ (execute ov s sched) k = at_ s k.
Proof.
  revert s. induction sched as [|r sched IH]; intros s E; cbn [execute fold_left]; [reflexivity|].
  fold (execute ov (step ov s r) sched). rewrite IH; [apply ended_stays; exact E|]. rewrite ended_stays by exact E. exact E.
Qed.

(** without overwriting *)
Record inv (b0 : bool) (s : shared) : Prop := {
  i_done : forall r, at_ s r = Done -> In r (data s) /\ present s = true;
  i_data : forall r, In r (data s) -> at_ s r = Done;
  i_there : present s = true -> b0 = true \/ exists r, at_ s r = Done;
  i_b0 : b0 = true -> present s = true /\ (forall r, at_ s r = Start \/ at_ s r = Tested true \/ at_ s r = Failed);
  i_tested : forall r, at_ s r = Tested true \/ at_ s r = Failed -> present s = true
}.

Lemma inv_initial b : inv b (initial b).
Proof.
  split; cbn.
  - discriminate.
  - intros r [].
  - auto.
  - auto.
  - intros r [H|H]; discriminate.
Qed.

Lemma inv_step b s r : inv b s -> inv b (step false s r).
Proof.
  intros [D DA T B F]. unfold step. destruct (at_ s r) as [|[]| | |] eqn:A.
  - (* Start *) split; cbn [present data at_].
    + intros k H. destruct (Nat.eq_dec k r) as [->|N]; [rewrite moved_same in H; discriminate|]. rewrite moved_other in H by exact N. auto.
    + intros k H. destruct (Nat.eq_dec k r) as [->|N]; [apply DA in H; congruence|]. rewrite moved_other by exact N. auto.
    + intro H. destruct (T H) as [|[k K]]; [auto|]. right. exists k. rewrite moved_other by congruence. exact K.
    + intro H. destruct (B H) as [P Q]. split; [exact P|]. intro k. destruct (Nat.eq_dec k r) as [->|N].
      * rewrite moved_same, P. auto.
      * rewrite moved_other by exact N. apply Q.
    + intros k H. destruct (Nat.eq_dec k r) as [->|N].
      * rewrite moved_same in H. destruct H as [H|H]; [congruence|discriminate].
      * rewrite moved_other in H by exact N. exact (F k H).
  - (* Tested true *) split; cbn [present data at_].
    + intros k H. destruct (Nat.eq_dec k r) as [->|N]; [rewrite moved_same in H; discriminate|]. rewrite moved_other in H by exact N. auto.
    + intros k H. destruct (Nat.eq_dec k r) as [->|N]; [apply DA in H; congruence|]. rewrite moved_other by exact N. auto.
    + intro H. destruct (T H) as [|[k K]]; [auto|]. right. exists k. rewrite moved_other by congruence. exact K.
    + intro H. destruct (B H) as [P Q]. split; [exact P|]. intro k. destruct (Nat.eq_dec k r) as [->|N].
      * rewrite moved_same. auto.
      * rewrite moved_other by exact N. apply Q.
    + intros k H. destruct (Nat.eq_dec k r) as [->|N].
      * apply (F r). auto.
      * rewrite moved_other in H by exact N. exact (F k H).
  - (* Tested false *) split; cbn [present data at_].
    + intros k H. destruct (Nat.eq_dec k r) as [->|N]; [rewrite moved_same in H; discriminate|]. rewrite moved_other in H by exact N. auto.
    + intros k H. destruct (Nat.eq_dec k r) as [->|N]; [apply DA in H; congruence|]. rewrite moved_other by exact N. auto.
    + intro H. destruct (T H) as [|[k K]]; [auto|]. right. exists k. rewrite moved_other by congruence. exact K.
    + intro H. exfalso. destruct (B H) as [_ Q]. destruct (Q r) as [Z|[Z|Z]]; congruence.
    + intros k H. destruct (Nat.eq_dec k r) as [->|N].
      * rewrite moved_same in H. destruct H; discriminate.
      * rewrite moved_other in H by exact N. exact (F k H).
  - (* Checked *) split; cbn [present data at_].
    + intros k H. split; [|reflexivity]. destruct (Nat.eq_dec k r) as [->|N]; [left; reflexivity|].
      rewrite moved_other in H by exact N. right. apply D. exact H.
    + intros k [<-|H]; [apply moved_same|]. destruct (Nat.eq_dec k r) as [->|N]; [apply moved_same|]. rewrite moved_other by exact N. auto.
    + intros _. right. exists r. apply moved_same.
    + intro H. exfalso. destruct (B H) as [_ Q]. destruct (Q r) as [Z|[Z|Z]]; congruence.
    + reflexivity.
  - split; assumption.
  - split; assumption.
Qed.
Lemma inv_execute b sched : inv b (execute false (initial b) sched).
Proof.
  assert (G : forall s, inv b s -> inv b (execute false s sched)).
  { induction sched as [|r sched IH]; intros s I; [exact I|]. cbn. apply IH, inv_step, I. }
  apply G, inv_initial.
Qed.

(** ** particular executions *)
Definition thrice (r : nat) : list nat := [r; r; r].
(** the ranks [a, a+n) one after the other *)
Definition in_turn (a n : nat) : list nat := flat_map thrice (seq a n).

Lemma solo_absent ov s r : at_ s r = Start -> present s = false ->
  execute ov s (thrice r) = mkS true (r :: data s) (moved (moved (moved (at_ s) r (Tested false)) r Checked) r Done).
Proof.
  intros A P. unfold execute, thrice. cbn [fold_left]. unfold step at 3. rewrite A, P.
  unfold step at 2. cbn [at_ present data]. rewrite moved_same. unfold step. cbn [at_ present data]. rewrite moved_same. reflexivity.
Qed.
Lemma solo_overwrite s r : at_ s r = Start -> present s = true ->
  execute true s (thrice r) = mkS true [r] (moved (moved (moved (at_ s) r (Tested true)) r Checked) r Done).
Proof.
  intros A P. unfold execute, thrice. cbn [fold_left]. unfold step at 3. rewrite A, P.
  unfold step at 2. cbn [at_ present data]. rewrite moved_same. unfold step. cbn [at_ present data]. rewrite moved_same. reflexivity.
Qed.
Lemma solo_refused s r : at_ s r = Start -> present s = true ->
  execute false s (thrice r) = mkS true (data s) (moved (moved (at_ s) r (Tested true)) r Failed).
Proof.
  intros A P. unfold execute, thrice. cbn [fold_left]. unfold step at 3. rewrite A, P.
  unfold step at 2. cbn [at_ present data]. rewrite moved_same. unfold step. cbn [at_ present data]. rewrite moved_same. reflexivity.
Qed.

Lemma in_turn_S a n : in_turn a (S n) = thrice a ++ in_turn (S a) n.
Proof. reflexivity. Qed.
Lemma in_turn_snoc a n : in_turn a (S n) = in_turn a n ++ thrice (a + n).
Proof. unfold in_turn. rewrite seq_S, flat_map_app. cbn. reflexivity. Qed.
Lemma of_ranks_in_turn n : of_ranks n (in_turn 0 n).
Proof.
  intros r I. unfold in_turn in I. apply in_flat_map in I. destruct I as [x [I J]]. apply in_seq in I.
  cbn in J. destruct J as [<-|[<-|[<-|[]]]]; lia.
Qed.

(** overwriting, one after the other: only the data of the last rank are left *)
Lemma in_turn_overwrite n : 0 < n ->
  let s := execute true (initial false) (in_turn 0 n) in
  present s = true /\ data s = [n - 1] /\ (forall r, r < n -> at_ s r = Done) /\ (forall r, n <= r -> at_ s r = Start).
Proof.
  induction n as [|n IH]; [lia|]. intros _. cbv zeta. rewrite in_turn_snoc, execute_app.
  destruct (Nat.eq_dec n 0) as [->|N].
  - cbn [in_turn seq flat_map]. change (execute true (initial false) []) with (initial false).
    rewrite solo_absent by reflexivity. cbn [present data at_ initial Nat.add Nat.sub]. split; [reflexivity|]. split; [reflexivity|]. split.
    + intros r H. replace r with 0 by lia. apply moved_same.
    + intros r H. rewrite !moved_other by lia. reflexivity.
  - destruct (IH ltac:(lia)) as [P [DA [DO ST]]]. cbn [Nat.add].
    rewrite solo_overwrite by (try exact P; apply ST; lia). cbn [present data at_]. split; [reflexivity|].
    split; [f_equal; lia|]. split.
    + intros r H. destruct (Nat.eq_dec r n) as [->|M]; [apply moved_same|]. rewrite !moved_other by exact M. apply DO. lia.
    + intros r H. rewrite !moved_other by lia. apply ST. lia.
Qed.

(** not overwriting, one after the other: only rank 0 gets through *)
Lemma in_turn_refused n : 0 < n ->
  let s := execute false (initial false) (in_turn 0 n) in
  present s = true /\ data s = [0] /\ at_ s 0 = Done /\ (forall r, 0 < r -> r < n -> at_ s r = Failed) /\ (forall r, n <= r -> at_ s r = Start).
Proof.
  induction n as [|n IH]; [lia|]. intros _. cbv zeta. rewrite in_turn_snoc, execute_app.
  destruct (Nat.eq_dec n 0) as [->|N].
  - cbn [in_turn seq flat_map]. change (execute false (initial false) []) with (initial false).
    rewrite solo_absent by reflexivity. cbn [present data at_ initial Nat.add]. split; [reflexivity|]. split; [reflexivity|].
    split; [apply moved_same|]. split; [intros; lia|]. intros r H. rewrite !moved_other by lia. reflexivity.
  - destruct (IH ltac:(lia)) as [P [DA [D0 [FA ST]]]]. cbn [Nat.add].
    rewrite solo_refused by (try exact P; apply ST; lia). cbn [present data at_]. split; [reflexivity|].
    split; [exact DA|]. split; [rewrite !moved_other by lia; exact D0|]. split.
    + intros r H1 H2. destruct (Nat.eq_dec r n) as [->|M]; [apply moved_same|]. rewrite !moved_other by exact M. apply FA; lia.
    + intros r H. rewrite !moved_other by lia. apply ST. lia.
Qed.

(** all test first *)
Lemma test_first ov n : let s := execute ov (initial false) (seq 0 n) in
  present s = false /\ data s = [] /\ (forall r, r < n -> at_ s r = Tested false) /\ (forall r, n <= r -> at_ s r = Start).
Proof.
  cbv zeta. induction n as [|n [P [DA [TE ST]]]].
  - cbn. split; [reflexivity|]. split; [reflexivity|]. split; [intros; lia|reflexivity].
  - rewrite seq_S, execute_app. cbn [Nat.add execute fold_left]. fold (execute ov (initial false) (seq 0 n)).
    set (s := execute ov (initial false) (seq 0 n)) in *. unfold step. rewrite (ST n ltac:(lia)), P. cbn [present data at_].
    split; [reflexivity|]. split; [exact DA|]. split.
    + intros r H. destruct (Nat.eq_dec r n) as [->|M]; [apply moved_same|]. rewrite moved_other by exact M. apply TE. lia.
    + intros r H. rewrite moved_other by lia. apply ST. lia.
Qed.
Definition twice (r : nat) : list nat := [r; r].
Lemma then_go ov n m s : (forall r, r < n -> at_ s r = Tested false) -> data s = [] -> m <= n ->
  let s' := execute ov s (flat_map twice (seq 0 m)) in
  (forall r, r < m -> at_ s' r = Done) /\ (forall r, m <= r -> at_ s' r = at_ s r) /\ (forall r, In r (data s') <-> r < m).
Proof.
  intros TE DA. induction m as [|m IH]; intro L; cbv zeta.
  - cbn. split; [intros; lia|]. split; [reflexivity|]. rewrite DA. intro r. cbn. lia.
  - destruct (IH ltac:(lia)) as [DO [OT DD]]. rewrite seq_S, flat_map_app, execute_app. cbn [flat_map twice app Nat.add].
    set (s1 := execute ov s (flat_map twice (seq 0 m))) in *.
    assert (E : execute ov s1 [m; m] = mkS true (m :: data s1) (moved (moved (at_ s1) m Checked) m Done)).
    { unfold execute. cbn [fold_left]. unfold step at 2. rewrite (OT m ltac:(lia)), (TE m ltac:(lia)).
      unfold step. cbn [at_ present data]. rewrite moved_same. reflexivity. }
    rewrite E. cbn [at_ present data]. split; [|split].
    + intros r H. destruct (Nat.eq_dec r m) as [->|N]; [apply moved_same|]. rewrite !moved_other by exact N. apply DO. lia.
    + intros r H. rewrite !moved_other by lia. apply OT. lia.
    + intro r. cbn. rewrite DD. lia.
Qed.

(** ** every rank ends after three of its own steps *)
Definition left_ (p : pc) : nat := match p with Start => 3 | Tested _ => 2 | Checked => 1 | _ => 0 end.
Lemma step_other ov s r k : k <> r -> at_ (step ov s r) k = at_ s k.
Proof.
  intro N. unfold step. destruct (at_ s r) as [|[]| | |]; try destruct ov; try destruct (present s); cbn [at_]; try reflexivity;
    rewrite moved_other by exact N; reflexivity.
Qed.
Lemma step_own ov s r : left_ (at_ (step ov s r) r) <= left_ (at_ s r) - 1.
Proof.
  unfold step. destruct (at_ s r) as [|[]| | |] eqn:A; try destruct ov; try destruct (present s); cbn [at_]; rewrite ?moved_same, ?A; cbn; lia.
Qed.
Lemma left_execute ov sched s r : left_ (at_ (execute ov s sched) r) <= left_ (at_ s r) - count_occ Nat.eq_dec sched r.
Proof.
  revert s. induction sched as [|k sched IH]; intro s; [cbn; lia|]. cbn [execute fold_left count_occ].
  fold (execute ov (step ov s k) sched). specialize (IH (step ov s k)). destruct (Nat.eq_dec k r) as [->|N].
  - pose proof (step_own ov s r). lia.
  - rewrite step_other in IH by congruence. exact IH.
Qed.
Lemma three_steps ov b sched r : 3 <= count_occ Nat.eq_dec sched r -> ended (at_ (execute ov (initial b) sched) r) = true.
Proof.
  intro C. pose proof (left_execute ov sched (initial b) r) as L. cbn [initial at_ left_] in L.
  destruct (at_ (execute ov (initial b) sched) r); cbn [left_] in L; try reflexivity; lia.
Qed.

Lemma single ov b k : 3 <= k ->
  at_ (execute ov (initial b) (repeat 0 k)) 0 = (if b && negb ov then Failed else Done).
Proof.
  intro L. replace k with (3 + (k - 3)) by lia. rewrite repeat_app, execute_app.
  assert (E : at_ (execute ov (initial b) (repeat 0 3)) 0 = (if b && negb ov then Failed else Done))
    by (destruct ov, b; reflexivity).
  rewrite ended_execute; [exact E|]. rewrite E. destruct ov, b; reflexivity.
Qed.

(** all ranks see the directory, then rank 0 removes it, the others find it gone, then rank 0 writes *)
Lemma test_first_there ov n : let s := execute ov (initial true) (seq 0 n) in
  present s = true /\ data s = [] /\ (forall r, r < n -> at_ s r = Tested true) /\ (forall r, n <= r -> at_ s r = Start).
Proof.
  cbv zeta. induction n as [|n [P [DA [TE ST]]]].
  - cbn. split; [reflexivity|]. split; [reflexivity|]. split; [intros; lia|reflexivity].
  - rewrite seq_S, execute_app. cbn [Nat.add execute fold_left]. fold (execute ov (initial true) (seq 0 n)).
    set (s := execute ov (initial true) (seq 0 n)) in *. unfold step. rewrite (ST n (le_n n)), P. cbn [present data at_].
    split; [reflexivity|]. split; [exact DA|]. split.
    + intros r L. destruct (Nat.eq_dec r n) as [->|N]; [apply moved_same|]. rewrite moved_other by exact N. apply TE. lia.
    + intros r L. rewrite moved_other by lia. apply ST. lia.
Qed.
Lemma gone_fails s l : present s = false -> (forall r, In r l -> at_ s r = Tested true) -> NoDup l ->
  let s' := execute true s l in present s' = false /\ data s' = data s /\ (forall r, In r l -> at_ s' r = Failed) /\ (forall r, ~ In r l -> at_ s' r = at_ s r).
Proof.
  revert s. induction l as [|k l IH]; intros s P TE ND; cbv zeta; cbn [execute fold_left].
  - split; [exact P|]. split; [reflexivity|]. split; [intros r []|reflexivity].
  - fold (execute true (step true s k) l). inversion ND as [|? ? NI ND']; subst.
    assert (E : step true s k = mkS false (data s) (moved (at_ s) k Failed)) by (unfold step; rewrite (TE k (or_introl eq_refl)), P; reflexivity).
    destruct (IH (step true s k)) as [A [B [C D]]].
    + rewrite E. reflexivity.
    + intros r I. rewrite E. cbn [at_]. rewrite moved_other; [apply TE; right; exact I|]. intros ->. contradiction.
    + exact ND'.
    + split; [exact A|]. split; [rewrite B, E; reflexivity|]. split.
      * intros r [<-|I]; [|apply C; exact I]. rewrite D by exact NI. rewrite E. cbn [at_]. apply moved_same.
      * intros r N. rewrite D by (intro I; apply N; right; exact I). rewrite E. cbn [at_]. apply moved_other. intros ->. apply N. left. reflexivity.
Qed.
Lemma overwrite_race n : 2 <= n ->
  let s := execute true (initial true) (seq 0 n ++ [0] ++ seq 1 (n - 1) ++ [0]) in
  at_ s 0 = Done /\ (forall r, 0 < r -> r < n -> at_ s r = Failed) /\ data s = [0].
Proof.
  intro H. cbv zeta. rewrite !execute_app. destruct (test_first_there true n) as [P [DA [TE ST]]].
  set (s := execute true (initial true) (seq 0 n)) in *.
  assert (E : execute true s [0] = mkS false [] (moved (at_ s) 0 Checked)).
  { cbn [execute fold_left]. unfold step. rewrite (TE 0 ltac:(lia)), P. reflexivity. }
  rewrite E. destruct (gone_fails (mkS false [] (moved (at_ s) 0 Checked)) (seq 1 (n - 1))) as [A [B [C D]]].
  - reflexivity.
  - intros r I. apply in_seq in I. cbn [at_]. rewrite moved_other by lia. apply TE. lia.
  - apply seq_NoDup.
  - set (s2 := execute true _ (seq 1 (n - 1))) in *. assert (Z : at_ s2 0 = Checked) by (rewrite D; [apply moved_same|rewrite in_seq; lia]).
    cbn [execute fold_left]. unfold step. rewrite Z. cbn [at_ data]. split; [apply moved_same|]. split.
    + intros r L1 L2. rewrite moved_other by lia. apply C. apply in_seq. lia.
    + rewrite B. reflexivity.
Qed.
