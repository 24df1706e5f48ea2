(** Properties C46 (running in a directory) and C47 (ranks starting on one work directory). *)
From Coq Require Import List String Bool Arith Lia.
From Verif Require Import Base DirModel DirSpec DirProofs.
Import ListNotations.
Open Scope string_scope.
Open Scope list_scope.

(** ** C46 *)

(** The function runs in the directory asked for; afterwards the process is back where it was, with what the function returned or raised, unless
    the function removed that place, which is an IOError (OSError).  If the directory does not exist the function is not run. *)
Theorem C46_back_in_directory :
  forall (X A : Type) (func : action X A) (d : dirspec) (w : world X) (t : path), meant (cwd w) d t ->
  (dirs w (cwd w) = false \/ dirs w t = false -> run_in_dir func d w = (w, Err IOError)) /\
  (dirs w (cwd w) = true -> dirs w t = true ->
     forall w1 r, func (mkW t (dirs w) (other w)) = (w1, r) ->
     (dirs w1 (cwd w) = true -> run_in_dir func d w = (mkW (cwd w) (dirs w1) (other w1), r)) /\
     (dirs w1 (cwd w) = false -> run_in_dir func d w = (w1, Err IOError))).
Proof.
  intros X A func d w t M. apply meant_resolve in M. subst t. split; [intro N; apply run_in_dir_absent; exact N|]. intros H H2 w1 r F. split; intro K.
  - apply (run_in_dir_ok X A func d w w1 r); assumption.
  - apply (run_in_dir_removed X A func d w w1 r); assumption.
Qed.
(** Every directory given means exactly one place. *)
Theorem C46_one_directory : forall c d, exists! t, meant c d t.
Proof. intros c d. exists (resolve c d). split; [apply meant_resolve; reflexivity|]. intros t H. symmetry. apply meant_resolve, H. Qed.
Print Assumptions C46_one_directory.
Print Assumptions C46_back_in_directory.

(** Nested to any depth, with any directories (existing or not) and any function that removes no directory, returning or raising, changing
    directory itself or not: the current directory is the same afterwards. *)
Theorem C46_nested :
  forall (X A : Type) (func : action X A) (d : dirspec) (ds : list dirspec) (w : world X),
  removes_nothing func -> cwd (fst (nested func (d :: ds) w)) = cwd w.
Proof. exact nested_restores. Qed.
Print Assumptions C46_nested.

Definition demo_dirs (p : path) : bool :=
  if path_dec p ["home"] then true else if path_dec p ["home"; "out"] then true else if path_dec p ["tmp"] then true else false.
(** changes directory and raises *)
Definition wanders : action nat unit := fun w => (mkW ["tmp"] (dirs w) (S (other w)), Err ValueError).

Example C46_example :
  meant ["home"] (Rel [".."; "."; "tmp"]) ["tmp"] /\
  removes_nothing wanders /\ demo_dirs (resolve ["home"] (Rel ["out"])) = true /\
  (let '(w, r) := nested wanders [Rel ["out"]; Rel [".."; "."]; Abs ["tmp"]] (mkW ["home"] demo_dirs 0) in (cwd w, other w, r)) = (["home"], 1, Err ValueError) /\
  (let '(w, r) := nested wanders [Rel ["out"]; Abs ["nowhere"]] (mkW ["home"] demo_dirs 0) in (cwd w, other w, r)) = (["home"], 0, Err IOError).
Proof.
  split; [apply meant_rel, (leads_up []), leads_dot, leads_down; [discriminate|discriminate|constructor]|].
  split; [intros w p H; exact H|]. split; [reflexivity|]. split; reflexivity.
Qed.

(** ** C47 *)

(** One rank: it gets through if and only if the directory is absent or overwriting is requested. *)
Theorem C47_single_rank :
  forall (overwrite there : bool) (k : nat), 3 <= k ->
  let final := at_ (execute overwrite (initial there) (repeat 0 k)) 0 in
  ended final = true /\ (final = Done <-> there = false \/ overwrite = true).
Proof.
  intros ov b k L. cbv zeta. rewrite single by exact L. split; [destruct ov, b; reflexivity|].
  destruct ov, b; cbn; intuition (try discriminate; try reflexivity).
Qed.
Print Assumptions C47_single_rank.

(** However the ranks interleave, a rank ends after three of its own steps. *)
Theorem C47_every_rank_ends :
  forall (overwrite there : bool) (sched : list nat) (r : nat), 3 <= count_occ Nat.eq_dec sched r ->
  ended (at_ (execute overwrite (initial there) sched) r) = true.
Proof. exact three_steps. Qed.
Print Assumptions C47_every_rank_ends.

(** Without overwriting, for every number of ranks and every interleaving: no data are ever lost (the directory holds exactly the data of the ranks that
    are done); if the directory was there at the start no rank gets through; if it was absent and all ranks have ended, at least one got through. *)
Theorem C47_without_overwriting :
  forall (n : nat) (there : bool) (sched : list nat),
  let s := execute false (initial there) sched in
  (forall r, In r (data s) <-> at_ s r = Done) /\
  (there = true -> forall r, at_ s r <> Done) /\
  (there = false -> 0 < n -> of_ranks n sched -> all_ended n s -> exists r, r < n /\ at_ s r = Done).
Proof.
  intros n b sched. cbv zeta. destruct (inv_execute b sched) as [D DA T B F]. split; [|split].
  - intro r. split; [apply DA|intro H; apply D; exact H].
  - intros H r E. destruct (B H) as [_ Q]. destruct (Q r) as [Z|[Z|Z]]; congruence.
  - intros -> H O E. pose proof (E 0 H) as E0.
    destruct (at_ (execute false (initial false) sched) 0) eqn:A; cbn in E0; try discriminate; [exists 0; auto|].
    destruct (T (F 0 (or_intror A))) as [Z|[r R]]; [discriminate|]. exists r. split; [|exact R].
    destruct (Nat.lt_ge_cases r n) as [L|L]; [exact L|exfalso].
    assert (NI : ~ In r sched) by (intro I; apply O in I; lia).
    assert (ST : at_ (execute false (initial false) sched) r = Start).
    { clear -NI. assert (G : forall s0, at_ s0 r = Start -> at_ (execute false s0 sched) r = Start).
      { induction sched as [|k sched IH]; intros s0 S; [exact S|]. cbn. apply IH.
        - intro I. apply NI. right. exact I.
        - rewrite step_other; [exact S|]. intro K. apply NI. left. congruence. }
      apply G. reflexivity. }
    congruence.
Qed.
Print Assumptions C47_without_overwriting.

(** Finding: for every number of ranks from two on, although the directory is absent at the start and overwriting is off, there is an interleaving in
    which all ranks but one fail; and one in which all get through. *)
Theorem C47_all_ranks_start_refuted :
  forall n, 2 <= n ->
  (exists sched, of_ranks n sched /\ let s := execute false (initial false) sched in
     all_ended n s /\ at_ s 0 = Done /\ forall r, 0 < r -> r < n -> at_ s r = Failed) /\
  (exists sched, of_ranks n sched /\ let s := execute false (initial false) sched in
     forall r, r < n -> at_ s r = Done /\ In r (data s)).
Proof.
  intros n H. split.
  - exists (in_turn 0 n). split; [apply of_ranks_in_turn|]. cbv zeta.
    destruct (in_turn_refused n ltac:(lia)) as [_ [_ [D0 [FA _]]]]. split; [|split; [exact D0|exact FA]].
    intros r L. destruct r as [|r]; [rewrite D0; reflexivity|]. rewrite FA by lia. reflexivity.
  - exists (seq 0 n ++ flat_map twice (seq 0 n)). split.
    + intros r I. apply in_app_or in I. destruct I as [I|I]; [apply in_seq in I; lia|].
      apply in_flat_map in I. destruct I as [x [I J]]. apply in_seq in I. cbn in J. destruct J as [<-|[<-|[]]]; lia.
    + cbv zeta. rewrite execute_app. destruct (test_first false n) as [P [DA [TE _]]].
      destruct (then_go false n n _ TE DA (le_n n)) as [DO [_ DD]]. intros r L. split; [apply DO; exact L|apply DD; exact L].
Qed.
Print Assumptions C47_all_ranks_start_refuted.

(** Finding: with overwriting on, for every number of ranks from two on and an absent directory, there is an interleaving in which every rank ends
    without an error and only the data of the last rank are left. *)
Theorem C47_overwriting_keeps_data_refuted :
  forall n, 2 <= n ->
  exists sched, of_ranks n sched /\ let s := execute true (initial false) sched in
    (forall r, r < n -> at_ s r = Done) /\ data s = [n - 1] /\ ~ In 0 (data s).
Proof.
  intros n H. exists (in_turn 0 n). split; [apply of_ranks_in_turn|]. cbv zeta.
  destruct (in_turn_overwrite n ltac:(lia)) as [_ [DA [DO _]]]. split; [exact DO|]. split; [exact DA|].
  rewrite DA. intros [E|[]]. lia.
Qed.
Print Assumptions C47_overwriting_keeps_data_refuted.

(** Finding: with overwriting on and the directory there at the start, for every number of ranks from two on there is an interleaving in which all
    ranks but one fail, because the directory they were going to remove is gone. *)
Theorem C47_overwriting_all_start_refuted :
  forall n, 2 <= n ->
  exists sched, of_ranks n sched /\ let s := execute true (initial true) sched in
    at_ s 0 = Done /\ (forall r, 0 < r -> r < n -> at_ s r = Failed) /\ data s = [0].
Proof.
  intros n H. exists (seq 0 n ++ [0] ++ seq 1 (n - 1) ++ [0]). split; [|exact (overwrite_race n H)].
  intros r I. rewrite !in_app_iff, !in_seq in I. cbn in I. lia.
Qed.
Print Assumptions C47_overwriting_all_start_refuted.

Example C47_example :
  of_ranks 2 [0; 1; 1; 0; 1; 0] /\
  (let s := execute false (initial false) [0; 1; 1; 0; 1; 0] in (data s, at_ s 0, at_ s 1)) = ([0; 1], Done, Done) /\
  (let s := execute false (initial false) [0; 0; 0; 1; 1; 1] in (data s, at_ s 0, at_ s 1)) = ([0], Done, Failed) /\
  (let s := execute true (initial true) [0; 1; 0; 1; 0; 1] in (data s, at_ s 0, at_ s 1)) = ([0], Done, Failed).
Proof. split; [intros r I; cbn in I; intuition lia|]. split; [reflexivity|]. split; reflexivity. Qed.
