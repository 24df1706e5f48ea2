(** Schedules do not matter: the language of MpiModel.v is a Kahn network.  If one schedule runs every rank to the end of its
    program then every schedule can be completed, and always to the same final configuration. *)
From Verif Require Import Base StorageModel MpiModel.
From Coq Require Import ZifyBool ZifyNat.
Open Scope Z_scope.

Section Kahn.
Context {St V : Type}.
Notation config := (config St V).

Definition ceq (c d : config) : Prop :=
  (forall r, c_prog c r = c_prog d r) /\ (forall r, c_st c r = c_st d r) /\
  (forall s t g, c_net c s t g = c_net d s t g).
Lemma ceq_refl c : ceq c c. Proof. repeat split. Qed.
Lemma ceq_sym c d : ceq c d -> ceq d c.
Proof. intros (A & B & C). repeat split; intros; symmetry; auto. Qed.
Lemma ceq_trans c d e : ceq c d -> ceq d e -> ceq c e.
Proof.
  intros (A & B & C) (A' & B' & C'). split; [|split]; intros.
  - rewrite A. apply A'.
  - rewrite B. apply B'.
  - rewrite C. apply C'.
Qed.

Definition oeq (a b : option config) : Prop :=
  match a, b with Some c, Some d => ceq c d | None, None => True | _, _ => False end.

Lemma upd_eq {A} (f g : nat -> A) r a : (forall q, f q = g q) -> forall q, upd f r a q = upd g r a q.
Proof. intros H q. unfold upd. destruct (Nat.eqb r q); auto. Qed.
Lemma upd_net_eq (f g : nat -> nat -> Z -> list V) s d t q : (forall a b c, f a b c = g a b c) ->
  forall a b c, upd_net f s d t q a b c = upd_net g s d t q a b c.
Proof. intros H a b c. unfold upd_net. destruct (_ && _); auto. Qed.

Lemma exec_proper r c d : ceq c d -> oeq (exec r c) (exec r d).
Proof.
  intros (A & B & C). unfold exec. rewrite (A r). destruct (c_prog d r) as [|[dst tag val|dst tag|src tag k|f|f] p]; cbn.
  - exact I.
  - rewrite (B r), C. repeat split; cbn; auto using upd_eq, upd_net_eq.
  - rewrite (B r), C. destruct (c_net d r dst (tag (c_st d r))); cbn; [|exact I].
    repeat split; cbn; auto using upd_eq.
  - rewrite (B r), C. destruct (c_net d src r (tag (c_st d r))); cbn; [exact I|].
    repeat split; cbn; auto using upd_eq, upd_net_eq.
  - rewrite (B r). repeat split; cbn; auto using upd_eq.
  - rewrite (B r). repeat split; cbn; auto using upd_eq.
Qed.

Lemma run_proper s : forall c d, ceq c d -> oeq (run s c) (run s d).
Proof.
  induction s as [|r s IH]; intros c d H; [exact H|]. cbn.
  pose proof (exec_proper r c d H) as E.
  destruct (exec r c), (exec r d); cbn in E; try contradiction; [|exact I]. apply IH. exact E.
Qed.

Lemma run_app s t (c : config) : run (s ++ t) c = match run s c with Some c' => run t c' | None => None end.
Proof. revert c; induction s as [|r s IH]; intro c; [reflexivity|]. cbn. destruct (exec r c); auto. Qed.

Lemma upd_comm {A} (f : nat -> A) a b x y : a <> b -> forall q, upd (upd f a x) b y q = upd (upd f b y) a x q.
Proof. intros H q. unfold upd. destruct (Nat.eqb_spec a q), (Nat.eqb_spec b q); congruence. Qed.
Lemma upd_other {A} (f : nat -> A) a x b : a <> b -> upd f a x b = f b.
Proof. intro H. unfold upd. destruct (Nat.eqb_spec a b); congruence. Qed.
Lemma upd_same {A} (f : nat -> A) a x : upd f a x a = x.
Proof. unfold upd. rewrite Nat.eqb_refl. reflexivity. Qed.

Lemma upd_net_same (f : nat -> nat -> Z -> list V) s d t q : upd_net f s d t q s d t = q.
Proof. unfold upd_net. rewrite !Nat.eqb_refl, Z.eqb_refl. reflexivity. Qed.
Lemma upd_net_other (f : nat -> nat -> Z -> list V) s d t q s' d' t' :
  ~ (s = s' /\ d = d' /\ t = t') -> upd_net f s d t q s' d' t' = f s' d' t'.
Proof.
  intro H. unfold upd_net. destruct (Nat.eqb_spec s s'), (Nat.eqb_spec d d'), (Z.eqb_spec t t'); cbn; try reflexivity.
  exfalso. apply H. auto.
Qed.
Lemma upd_net_comm (f : nat -> nat -> Z -> list V) s d t q s2 d2 t2 q2 :
  ~ (s = s2 /\ d = d2 /\ t = t2) ->
  forall a b c, upd_net (upd_net f s d t q) s2 d2 t2 q2 a b c = upd_net (upd_net f s2 d2 t2 q2) s d t q a b c.
Proof.
  intros H a b c. unfold upd_net.
  destruct (Nat.eqb_spec s a), (Nat.eqb_spec d b), (Z.eqb_spec t c), (Nat.eqb_spec s2 a), (Nat.eqb_spec d2 b), (Z.eqb_spec t2 c);
    cbn; try reflexivity. exfalso. apply H. subst. auto.
Qed.
Lemma upd_net_twice (f : nat -> nat -> Z -> list V) s d t q q2 :
  forall a b c, upd_net (upd_net f s d t q) s d t q2 a b c = upd_net f s d t q2 a b c.
Proof. intros a b c. unfold upd_net. destruct (_ && _); reflexivity. Qed.

(* dec equality of network addresses *)
Lemma addr_dec (s d : nat) (t : Z) s2 d2 t2 : (s = s2 /\ d = d2 /\ t = t2) \/ ~ (s = s2 /\ d = d2 /\ t = t2).
Proof.
  destruct (Nat.eq_dec s s2), (Nat.eq_dec d d2), (Z.eq_dec t t2); try (right; tauto). left; auto.
Qed.

Lemma diamond r1 r2 c c1 c2 : r1 <> r2 -> exec r1 c = Some c1 -> exec r2 c = Some c2 ->
  exists a b, exec r2 c1 = Some a /\ exec r1 c2 = Some b /\ ceq a b.
Proof.
  intros Hne E1 E2. unfold exec in E1, E2.
  destruct (c_prog c r1) as [|i1 p1] eqn:P1; [discriminate|].
  destruct (c_prog c r2) as [|i2 p2] eqn:P2; [discriminate|].
  destruct i1 as [dst1 tag1 val1|dst1 tag1|src1 tag1 k1|f1|f1];
  destruct i2 as [dst2 tag2 val2|dst2 tag2|src2 tag2 k2|f2|f2];
  repeat match type of E1 with context [match ?x with [] => _ | _ => _ end] => destruct x eqn:Q1; try discriminate end;
  repeat match type of E2 with context [match ?x with [] => _ | _ => _ end] => destruct x eqn:Q2; try discriminate end;
  injection E1 as <-; injection E2 as <-; unfold exec; cbn [c_prog c_st c_net];
  rewrite !(upd_other _ r1 _ r2), !(upd_other _ r2 _ r1), P1, P2 by congruence;
  rewrite ?(upd_other _ r1 _ r2), ?(upd_other _ r2 _ r1) by congruence.
  all: try (rewrite ?Q1, ?Q2; do 2 eexists; split; [reflexivity|]; split; [reflexivity|]; split; [|split]; intros; cbn;
            first [reflexivity|apply upd_comm; assumption]; fail).
  (* send / send *)
  - do 2 eexists. split; [reflexivity|]. split; [reflexivity|].
    rewrite !upd_net_other by (intros (? & _); congruence).
    split; [|split]; intros; cbn; [apply upd_comm; assumption|reflexivity|].
    apply upd_net_comm. intros (? & _). congruence.
  (* send / wait *)
  - rewrite upd_net_other by (intros (? & _); congruence). rewrite Q2.
    do 2 eexists. split; [reflexivity|]. split; [reflexivity|].
    split; [|split]; intros; cbn; [apply upd_comm; assumption|reflexivity|reflexivity].
  (* send / recv *)
  - destruct (addr_dec r1 dst1 (tag1 (c_st c r1)) src2 r2 (tag2 (c_st c r2))) as [(-> & -> & Et)|Hd].
    + rewrite Et, upd_net_same, Q2. cbn [app].
      do 2 eexists. split; [reflexivity|]. split; [reflexivity|].
      split; [|split]; intros; cbn; [apply upd_comm; assumption|reflexivity|].
      rewrite !upd_net_twice, upd_net_same. reflexivity.
    + rewrite upd_net_other by assumption. rewrite Q2.
      do 2 eexists. split; [reflexivity|]. split; [reflexivity|].
      split; [|split]; intros; cbn; [apply upd_comm; assumption|reflexivity|].
      rewrite (upd_net_other _ src2 r2 _ _ r1 dst1) by (intros (? & ? & ?); apply Hd; split; [|split]; congruence).
      apply upd_net_comm. assumption.
  (* wait / send *)
  - rewrite upd_net_other by (intros (? & _); congruence). rewrite Q1.
    do 2 eexists. split; [reflexivity|]. split; [reflexivity|].
    split; [|split]; intros; cbn; [apply upd_comm; assumption|reflexivity|reflexivity].
  (* wait / recv *)
  - rewrite Q2.
    assert (X : upd_net (c_net c) src2 r2 (tag2 (c_st c r2)) l r1 dst1 (tag1 (c_st c r1)) = []).
    { rewrite upd_net_other; [assumption|]. intros (-> & -> & Et). rewrite Et in Q2. congruence. }
    rewrite X. do 2 eexists. split; [reflexivity|]. split; [reflexivity|].
    split; [|split]; intros; cbn; [apply upd_comm; assumption|reflexivity|reflexivity].
  (* recv / send *)
  - destruct (addr_dec r2 dst2 (tag2 (c_st c r2)) src1 r1 (tag1 (c_st c r1))) as [(-> & -> & Et)|Hd].
    + rewrite Et, !upd_net_same, Q1. cbn [app].
      do 2 eexists. split; [reflexivity|]. split; [reflexivity|].
      split; [|split]; intros; cbn; [apply upd_comm; assumption|reflexivity|].
      rewrite !upd_net_twice. reflexivity.
    + rewrite (upd_net_other _ r2 dst2) by assumption. rewrite Q1.
      do 2 eexists. split; [reflexivity|]. split; [reflexivity|].
      split; [|split]; intros; cbn; [apply upd_comm; assumption|reflexivity|].
      rewrite (upd_net_other _ src1 r1 _ _ r2 dst2) by (intros (? & ? & ?); apply Hd; split; [|split]; congruence).
      apply upd_net_comm. intros (? & ? & ?); apply Hd; split; [|split]; congruence.
  (* recv / wait *)
  - rewrite Q1.
    assert (X : upd_net (c_net c) src1 r1 (tag1 (c_st c r1)) l r2 dst2 (tag2 (c_st c r2)) = []).
    { rewrite upd_net_other; [assumption|]. intros (-> & -> & Et). rewrite Et in Q1. congruence. }
    rewrite X. do 2 eexists. split; [reflexivity|]. split; [reflexivity|].
    split; [|split]; intros; cbn; [apply upd_comm; assumption|reflexivity|reflexivity].
  (* recv / recv *)
  - rewrite !upd_net_other by (intros (_ & ? & _); congruence). rewrite Q1, Q2.
    do 2 eexists. split; [reflexivity|]. split; [reflexivity|].
    split; [|split]; intros; cbn; [apply upd_comm; assumption|apply upd_comm; assumption|].
    apply upd_net_comm. intros (_ & ? & _). congruence.
Qed.

Definition finished (c : config) : Prop := forall r, c_prog c r = [].

Lemma run_some_proper s c d cf : ceq c d -> run s c = Some cf -> exists df, run s d = Some df /\ ceq cf df.
Proof.
  intros H E. pose proof (run_proper s c d H) as R. rewrite E in R. destruct (run s d) as [df|]; [|contradiction]. eauto.
Qed.

Lemma one_step_then_finish r s : forall c c1 cf, exec r c = Some c1 -> run s c = Some cf -> finished cf ->
  exists s1 df, run s1 c1 = Some df /\ ceq cf df /\ S (List.length s1) = List.length s.
Proof.
  induction s as [|r0 s IH]; intros c c1 cf E R F.
  - injection R as <-. unfold exec in E. rewrite (F r) in E. discriminate.
  - cbn in R. destruct (exec r0 c) as [c0|] eqn:E0; [|discriminate].
    destruct (Nat.eq_dec r r0) as [->|Hne].
    + rewrite E in E0. injection E0 as <-. exists s, cf. split; [assumption|]. split; [apply ceq_refl|reflexivity].
    + destruct (diamond r r0 c c1 c0 Hne E E0) as (a & b & Ea & Eb & Hab).
      destruct (IH c0 b cf Eb R F) as (s1 & df & R1 & H1 & L1).
      destruct (run_some_proper s1 b a df (ceq_sym _ _ Hab) R1) as (df2 & R2 & H2).
      exists (r0 :: s1), df2. split; [cbn; rewrite Ea; assumption|]. split; [|cbn; lia].
      eapply ceq_trans; eassumption.
Qed.

Theorem kahn s s' c c' cf : run s c = Some cf -> finished cf -> run s' c = Some c' ->
  exists s1 df, run s1 c' = Some df /\ ceq cf df /\ (List.length s' + List.length s1 = List.length s)%nat.
Proof.
  revert s c cf. induction s' as [|r s' IH]; intros s c cf R F R'.
  - injection R' as <-. exists s, cf. split; [assumption|]. split; [apply ceq_refl|reflexivity].
  - cbn in R'. destruct (exec r c) as [c1|] eqn:E; [|discriminate].
    destruct (one_step_then_finish r s c c1 cf E R F) as (s1 & df & R1 & H1 & L1).
    assert (F1 : finished df) by (intro q; destruct H1 as (A & _); rewrite <- A; apply F).
    destruct (IH s1 c1 df R1 F1 R') as (s2 & df2 & R2 & H2 & L2).
    exists s2, df2. split; [assumption|]. split; [eapply ceq_trans; eassumption|cbn; lia].
Qed.

(** No execution gets stuck before the end and all ends are the same. *)
Corollary kahn_progress s s' c c' cf : run s c = Some cf -> finished cf -> run s' c = Some c' ->
  (exists r c'', exec r c' = Some c'') \/ ceq cf c'.
Proof.
  intros R F R'. destruct (kahn s s' c c' cf R F R') as (s1 & df & R1 & H1 & _).
  destruct s1 as [|r s1]; [injection R1 as <-; right; assumption|].
  cbn in R1. destruct (exec r c') as [c''|] eqn:E; [|discriminate]. left. eauto.
Qed.

(** ** Reachability up to pointwise equality *)
Definition reach (c d : config) : Prop := exists s c', run s c = Some c' /\ ceq c' d.
Lemma reach_refl c : reach c c. Proof. exists [], c. split; [reflexivity|apply ceq_refl]. Qed.
Lemma reach_eq c d : ceq c d -> reach c d. Proof. intro H. exists [], c. split; [reflexivity|exact H]. Qed.
Lemma reach_trans a b c : reach a b -> reach b c -> reach a c.
Proof.
  intros (s & a' & H & E) (t & b' & G & F).
  destruct (run_some_proper t b a' b' (ceq_sym _ _ E) G) as (b'' & G' & F').
  exists (s ++ t), b''. split; [rewrite run_app, H; exact G'|].
  eapply ceq_trans; [apply ceq_sym; exact F'|exact F].
Qed.
Lemma reach_step a b r : exec r a = Some b -> reach a b.
Proof. intro H. exists [r], b. split; [cbn; rewrite H; reflexivity|apply ceq_refl]. Qed.

Lemma finished_ceq c d : ceq c d -> finished c -> finished d.
Proof. intros (A & _) F r. rewrite <- A. apply F. Qed.

(** What a canonical schedule that ends in [cf] says about all executions. *)
Theorem all_executions c cf : reach c cf -> finished cf ->
  exists bound, forall s c', run s c = Some c' ->
    (List.length s <= bound)%nat /\ ((exists r c'', exec r c' = Some c'') \/ (finished c' /\ forall r, c_st c' r = c_st cf r)).
Proof.
  intros (s0 & c0 & R0 & E0) F. assert (F0 : finished c0) by (eapply finished_ceq; [apply ceq_sym; exact E0|exact F]).
  exists (List.length s0). intros s c' R.
  destruct (kahn s0 s c c' c0 R0 F0 R) as (s1 & df & R1 & H1 & L1). split; [lia|].
  destruct (kahn_progress s0 s c c' c0 R0 F0 R) as [H|H]; [left; exact H|right].
  split; [eapply finished_ceq; eassumption|]. intro r. destruct H as (_ & B & _), E0 as (_ & B' & _).
  rewrite <- B, B'. reflexivity.
Qed.

Lemma step_local (prog : nat -> list (instr St V)) st net r f p : prog r = ILocal f :: p ->
  reach (mkConfig prog st net) (mkConfig (upd prog r p) (upd st r (f (st r))) net).
Proof. intro H. apply (reach_step _ _ r). unfold exec. cbn. rewrite H. reflexivity. Qed.
Lemma step_branch (prog : nat -> list (instr St V)) st net r f p : prog r = IBranch f :: p ->
  reach (mkConfig prog st net) (mkConfig (upd prog r (f (st r) ++ p)) st net).
Proof. intro H. apply (reach_step _ _ r). unfold exec. cbn. rewrite H. reflexivity. Qed.
Lemma step_send (prog : nat -> list (instr St V)) st net r dst tag val p : prog r = ISend dst tag val :: p ->
  reach (mkConfig prog st net)
        (mkConfig (upd prog r p) st (upd_net net r dst (tag (st r)) (net r dst (tag (st r)) ++ [val (st r)]))).
Proof. intro H. apply (reach_step _ _ r). unfold exec. cbn. rewrite H. reflexivity. Qed.
Lemma step_wait (prog : nat -> list (instr St V)) st net r dst tag p : prog r = IWait dst tag :: p ->
  net r dst (tag (st r)) = [] ->
  reach (mkConfig prog st net) (mkConfig (upd prog r p) st net).
Proof. intros H G. apply (reach_step _ _ r). unfold exec. cbn. rewrite H, G. reflexivity. Qed.
Lemma step_recv (prog : nat -> list (instr St V)) st net r src tag k p v q : prog r = IRecv src tag k :: p ->
  net src r (tag (st r)) = v :: q ->
  reach (mkConfig prog st net) (mkConfig (upd prog r p) (upd st r (k (st r) v)) (upd_net net src r (tag (st r)) q)).
Proof. intros H G. apply (reach_step _ _ r). unfold exec. cbn. rewrite H, G. reflexivity. Qed.

Definition empty_net : nat -> nat -> Z -> list V := fun _ _ _ => [].

(* a message sent into an empty network and received at once; the sender may or may not wait for it *)
Lemma exchange (prog : nat -> list (instr St V)) st src dst tag val tag' k (wait : bool) p q :
  src <> dst -> tag (st src) = tag' (st dst) ->
  prog src = ISend dst tag val :: (if wait then [IWait dst tag] else []) ++ p ->
  prog dst = IRecv src tag' k :: q ->
  reach (mkConfig prog st empty_net)
        (mkConfig (upd (upd prog src p) dst q) (upd st dst (k (st dst) (val (st src)))) empty_net).
Proof.
  intros Hne Ht Hs Hd.
  eapply reach_trans; [eapply step_send; exact Hs|]. cbn [empty_net app].
  eapply reach_trans.
  { eapply (step_recv _ _ _ dst src tag' k q (val (st src)) []).
    - rewrite upd_other by congruence. exact Hd.
    - rewrite <- Ht. apply upd_net_same. }
  rewrite <- Ht.
  set (w := (if wait then [IWait dst tag] else []) ++ p) in *.
  assert (N : forall a b t, upd_net (upd_net empty_net src dst (tag (st src)) [val (st src)]) src dst (tag (st src)) [] a b t = []).
  { intros a b t. rewrite upd_net_twice. unfold upd_net. destruct (_ && _); reflexivity. }
  destruct wait.
  - eapply reach_trans.
    { eapply (step_wait _ _ _ src dst tag p).
      - rewrite upd_other by congruence. rewrite upd_same. reflexivity.
      - rewrite upd_other by congruence. apply N. }
    apply reach_eq. split; [|split]; intros; cbn; [|reflexivity|apply N].
    unfold upd. destruct (Nat.eqb_spec src r), (Nat.eqb_spec dst r); congruence.
  - apply reach_eq. split; [|split]; intros; cbn; [|reflexivity|apply N]. reflexivity.
Qed.

Definition apply_all (fs : list (St -> St)) (s : St) : St := fold_left (fun s f => f s) fs s.

Lemma locals_one fs : forall (prog : nat -> list (instr St V)) st net r p, prog r = map ILocal fs ++ p ->
  reach (mkConfig prog st net) (mkConfig (upd prog r p) (upd st r (apply_all fs (st r))) net).
Proof.
  induction fs as [|f fs IH]; intros prog st net r p H.
  - apply reach_eq. split; [|split]; intros; cbn; [| |reflexivity].
    + unfold upd. destruct (Nat.eqb_spec r r0); [subst; exact H|reflexivity].
    + unfold upd. destruct (Nat.eqb_spec r r0); [subst; reflexivity|reflexivity].
  - eapply reach_trans; [eapply step_local; exact H|].
    eapply reach_trans; [apply (IH _ _ _ r p); apply upd_same|].
    apply reach_eq. split; [|split]; intros; cbn; [| |reflexivity].
    + unfold upd. destruct (Nat.eqb r r0); reflexivity.
    + unfold upd. rewrite Nat.eqb_refl. destruct (Nat.eqb r r0); reflexivity.
Qed.

Lemma locals_all (fs : nat -> list (St -> St)) (rest : nat -> list (instr St V)) net m : forall st,
  reach (mkConfig (fun r => if Nat.ltb r m then map ILocal (fs r) ++ rest r else rest r) st net)
        (mkConfig rest (fun r => if Nat.ltb r m then apply_all (fs r) (st r) else st r) net).
Proof.
  induction m as [|m IH]; intro st.
  - apply reach_eq. repeat split.
  - eapply reach_trans.
    { apply (locals_one (fs m) _ _ _ m (rest m)). destruct (Nat.ltb_spec m (S m)); [reflexivity|lia]. }
    eapply reach_trans; [|eapply reach_trans; [apply (IH (upd st m (apply_all (fs m) (st m))))|]].
    + apply reach_eq. split; [|split]; intros; cbn [c_prog c_st c_net]; try reflexivity.
      unfold upd. destruct (Nat.eqb_spec m r), (Nat.ltb_spec r (S m)), (Nat.ltb_spec r m); subst; try lia; reflexivity.
    + apply reach_eq. split; [|split]; intros; cbn [c_prog c_st c_net]; try reflexivity.
      unfold upd. destruct (Nat.eqb_spec m r), (Nat.ltb_spec r (S m)), (Nat.ltb_spec r m); subst; try lia; reflexivity.
Qed.

(* rank 0 sends one message to each of the others, each of which receives it *)
Lemma scatter (tag : St -> Z) (val : nat -> St -> V) (k : nat -> St -> V -> St) (sync : nat -> bool)
      (rest : nat -> list (instr St V)) size st :
  (forall r, (1 <= r < size)%nat -> tag (st r) = tag (st 0%nat)) ->
  reach (mkConfig (fun r => if Nat.ltb r size
                            then if Nat.eqb r 0
                                 then flat_map (fun i => ISend i tag (val i) :: (if sync i then [IWait i tag] else [])) (seq 1 (size - 1)) ++ rest 0%nat
                                 else IRecv 0 tag (k r) :: rest r
                            else rest r) st empty_net)
        (mkConfig rest (fun r => if Nat.ltb r size && Nat.ltb 0 r then k r (st r) (val r (st 0%nat)) else st r) empty_net).
Proof.
  intro Ht.
  assert (G : forall j i, (1 <= i)%nat -> (j = size - i)%nat ->
    reach (mkConfig (fun r => if Nat.eqb r 0
                       then flat_map (fun i => ISend i tag (val i) :: (if sync i then [IWait i tag] else [])) (seq i (size - i)) ++ rest 0%nat
                       else if Nat.leb i r && Nat.ltb r size then IRecv 0 tag (k r) :: rest r else rest r)
                    (fun r => if Nat.ltb r i && Nat.ltb 0 r && Nat.ltb r size then k r (st r) (val r (st 0%nat)) else st r) empty_net)
          (mkConfig rest (fun r => if Nat.ltb r size && Nat.ltb 0 r then k r (st r) (val r (st 0%nat)) else st r) empty_net)).
  { induction j as [|j IH]; intros i Hi Hj.
    - apply reach_eq. split; [|split]; intros; cbn [c_prog c_st c_net]; [| |reflexivity].
      + rewrite <- Hj. destruct (Nat.eqb_spec r 0); [subst; reflexivity|].
        destruct (Nat.leb_spec i r), (Nat.ltb_spec r size); cbn; try reflexivity; lia.
      + destruct (Nat.ltb_spec r i), (Nat.ltb_spec 0 r), (Nat.ltb_spec r size); cbn; try reflexivity; lia.
    - eapply reach_trans.
      { eapply (exchange _ _ 0%nat i tag (val i) tag (k i) (sync i)
                 (flat_map (fun i => ISend i tag (val i) :: (if sync i then [IWait i tag] else [])) (seq (S i) (size - S i)) ++ rest 0%nat)
                 (rest i)).
        - lia.
        - replace (Nat.ltb i i) with false by (symmetry; apply Nat.ltb_ge; lia). cbn [andb Nat.ltb Nat.leb].
          rewrite andb_false_r. cbn [andb]. symmetry. apply Ht. lia.
        - cbn [Nat.eqb]. replace (size - i)%nat with (S (size - S i)) by lia. cbn [seq flat_map app].
          rewrite <- app_assoc. reflexivity.
        - replace (Nat.eqb i 0) with false by (symmetry; apply Nat.eqb_neq; lia).
          replace (Nat.leb i i) with true by (symmetry; apply Nat.leb_le; lia).
          replace (Nat.ltb i size) with true by (symmetry; apply Nat.ltb_lt; lia). reflexivity. }
      eapply reach_trans; [|apply (IH (S i)); lia].
      apply reach_eq. split; [|split]; intros; cbn [c_prog c_st c_net]; [| |reflexivity].
      + unfold upd. destruct (Nat.eqb_spec i r) as [->|].
        * destruct (Nat.eqb_spec r 0); [lia|]. destruct (Nat.leb_spec (S r) r); [lia|]. reflexivity.
        * destruct (Nat.eqb_spec 0 r) as [<-|]; [reflexivity|]. destruct (Nat.eqb_spec r 0); [lia|].
          destruct (Nat.leb_spec i r), (Nat.leb_spec (S i) r); try lia; reflexivity.
      + unfold upd. destruct (Nat.eqb_spec i r) as [->|].
        * replace (Nat.ltb r r) with false by (symmetry; apply Nat.ltb_ge; lia).
          replace (Nat.ltb r (S r)) with true by (symmetry; apply Nat.ltb_lt; lia).
          replace (Nat.ltb 0 r) with true by (symmetry; apply Nat.ltb_lt; lia).
          replace (Nat.ltb r size) with true by (symmetry; apply Nat.ltb_lt; lia).
          cbn [andb]. replace (Nat.ltb 0 0) with false by reflexivity. reflexivity.
        * destruct (Nat.ltb_spec r i), (Nat.ltb_spec r (S i)); try lia; reflexivity. }
  eapply reach_trans; [|apply (G (size - 1)%nat 1%nat); lia].
  apply reach_eq. split; [|split]; intros; cbn [c_prog c_st c_net]; [| |reflexivity].
  - destruct (Nat.eqb_spec r 0) as [->|]; [|destruct (Nat.ltb_spec r size), (Nat.leb_spec 1 r); cbn; try lia; reflexivity].
    destruct (Nat.ltb_spec 0 size); [reflexivity|]. replace (size - 1)%nat with 0%nat by lia. reflexivity.
  - destruct (Nat.ltb_spec r 1), (Nat.ltb_spec 0 r); cbn; try reflexivity; lia.
Qed.
End Kahn.
