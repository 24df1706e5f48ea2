(** Proofs about the parallel source (C14) and the barrier (C15). *)
From Verif Require Import Base StorageModel StorageSpec StorageProofs MpiModel MpiKahn.
From Coq Require Import ZifyBool ZifyNat.
Open Scope Z_scope.

(** ** One round of the source *)
(* the state of rank r after a round in which every rank asks for n neutrons *)
Definition round_state (size : nat) (d : fs) (cur n : Z) (r : nat) (s : lstate) : lstate :=
  if Nat.eqb r 0 then do_read d n (do_seek0 size n (do_channel s))
  else do_read d n (do_seek (do_receive (do_channel s) (cur + Z.of_nat r * n))).

Lemma one_round sync size d n number (rest : nat -> list (instr lstate Z)) (f : nat -> lstate) :
  (1 <= size)%nat -> (forall r, (r < size)%nat -> l_number (f r) = number) ->
  reach (mkConfig (fun r => if Nat.ltb r size then process_prog sync size d r n ++ rest r else rest r) f empty_net)
        (mkConfig rest (fun r => if Nat.ltb r size then round_state size d (l_cursor (f 0%nat)) n r (f r) else f r) empty_net).
Proof.
  intros Hs Hnum.
  set (rest2 := fun r => if Nat.ltb r size
                 then map ILocal (if Nat.eqb r 0 then [do_seek0 size n; do_read d n] else [do_seek; do_read d n]) ++ rest r
                 else rest r).
  set (sends := flat_map (fun i => ISend i l_channel (fun s => l_cursor s + Z.of_nat i * n) :: (if sync i then [IWait i l_channel] else [])) (seq 1 (size - 1))).
  set (rest1 := fun r => if Nat.ltb r size
                         then if Nat.eqb r 0 then sends ++ rest2 0%nat else IRecv 0 l_channel do_receive :: rest2 r
                         else rest2 r).
  set (f1 := fun r => if Nat.ltb r size then do_channel (f r) else f r).
  eapply reach_trans with (mkConfig (fun r => if Nat.ltb r size then map ILocal [do_channel] ++ rest1 r else rest1 r) f empty_net).
  { apply reach_eq. split; [|split]; intros; cbn [c_prog c_st c_net]; try reflexivity.
    unfold rest1, rest2, process_prog, send_instr. fold sends.
    destruct (Nat.ltb_spec r size); [|reflexivity]. destruct (Nat.eqb_spec r 0) as [->|].
    - destruct (Nat.ltb_spec 0 size); [|lia]. cbn [Nat.eqb map app]. rewrite <- app_assoc. reflexivity.
    - reflexivity. }
  eapply reach_trans; [apply (locals_all (fun _ => [do_channel]) rest1 empty_net size f)|]. cbn [apply_all fold_left]. fold f1.
  eapply reach_trans; [apply (scatter l_channel (fun i s => l_cursor s + Z.of_nat i * n) (fun _ => do_receive) sync rest2 size f1)|].
  { intros r Hr. unfold f1. destruct (Nat.ltb_spec r size); [|lia]. destruct (Nat.ltb_spec 0 size); [|lia].
    cbn. rewrite !Hnum by lia. reflexivity. }
  eapply reach_trans; [apply (locals_all (fun r => if Nat.eqb r 0 then [do_seek0 size n; do_read d n] else [do_seek; do_read d n]) rest)|].
  apply reach_eq. split; [|split]; intros; cbn [c_prog c_st c_net]; try reflexivity.
  unfold f1, round_state, apply_all. destruct (Nat.ltb_spec r size); [|reflexivity].
  destruct (Nat.ltb_spec 0 size); [|lia]. destruct (Nat.eqb_spec r 0) as [->|]; [reflexivity|].
  destruct (Nat.ltb_spec 0 r); [|lia]. reflexivity.
Qed.

(** ** All rounds *)
(* storage of rank r and its log after reading, independent of the schedule *)
Definition reads_ok (l : list neutron) (d : fs) (s : lstate) : Prop := rinv l (l_storage s) d.

Lemma seek_start_wrap l d st k : rinv l st d -> l <> [] ->
  st_seek st (Z.of_nat k) WStart true = (set_position st (Z.of_nat (k mod List.length l)), Ok tt).
Proof.
  intros [W H M O T] Hl. unfold st_seek, is_readonly. rewrite M. cbn [mode_eqb negb].
  assert (Z.of_nat (List.length l) <> 0) by (destruct l; cbn; [congruence|lia]).
  unfold py_mod, set_position. cbn. rewrite T. replace (Z.of_nat (List.length l) =? 0) with false by lia.
  rewrite Nat2Z.inj_mod. cbn. rewrite M. reflexivity.
Qed.

(* seek to k and read n: the neutrons k, k+1, ... of the repeated file *)
Lemma seek_read l d s s1 k n : reads_ok l d s -> l <> [] -> (1 <= n)%nat ->
  l_storage s1 = fst (st_seek (l_storage s) (Z.of_nat k) WStart true) -> l_log s1 = l_log s ->
  exists x, map Some x = cyclic l (k mod List.length l) n /\ List.length x = n /\
    l_log (do_read d (Z.of_nat n) s1) = l_log s ++ [Ok (Some x)] /\
    reads_ok l d (do_read d (Z.of_nat n) s1) /\
    l_cursor (do_read d (Z.of_nat n) s1) = l_cursor s1 /\ l_number (do_read d (Z.of_nat n) s1) = l_number s1.
Proof.
  intros I Hl Hn Es El. rewrite (seek_start_wrap l d _ k I Hl) in Es. cbn [fst] in Es.
  assert (Hlen : (List.length l <> 0)%nat) by (destruct l; cbn; [congruence|lia]).
  assert (Hlt : (k mod List.length l < List.length l)%nat) by (apply Nat.mod_upper_bound; assumption).
  assert (I1 : rinv l (l_storage s1) d) by (rewrite Es; apply rinv_set_position; exact I).
  assert (Hp : s_position (l_storage s1) = Z.of_nat (k mod List.length l)) by (rewrite Es; reflexivity).
  exists (wrap_read l (k mod List.length l) n).
  pose proof (wrap_read_cyclic l _ n Hlt) as C. split; [exact C|]. split.
  { apply (f_equal (@List.length _)) in C. unfold cyclic in C. rewrite !map_length, seq_length in C. exact C. }
  unfold do_read. rewrite (read_wrap_step l (l_storage s1) d _ n true I1 Hp Hlt Hn). cbn. rewrite El.
  split; [reflexivity|]. split; [|split; reflexivity]. unfold reads_ok. cbn. apply rinv_set_position. exact I1.
Qed.

Fixpoint offsets (size : nat) (start : nat) (ns : list nat) : list (nat * nat) :=
  match ns with [] => [] | n :: ns' => (start, n) :: offsets size (start + size * n) ns' end.

Definition good_log (l : list neutron) (size r start : nat) (ns : list nat) (log : list (result (option (list (list Z))))) : Prop :=
  exists xs, log = map (fun x => Ok (Some x)) xs /\
    Forall2 (fun x '(off, n) => map Some x = cyclic l ((off + r * n) mod List.length l) n /\ List.length x = n)
            xs (offsets size start ns).

Lemma all_rounds sync size d l : (1 <= size)%nat -> l <> [] ->
  forall ns start number (f : nat -> lstate),
  Forall (fun n => 1 <= n)%nat ns ->
  (forall r, (r < size)%nat -> l_number (f r) = number /\ reads_ok l d (f r)) ->
  l_cursor (f 0%nat) = Z.of_nat start ->
  exists c', reach (mkConfig (source_run sync size d (fun _ => map Z.of_nat ns)) f empty_net) c' /\ finished c' /\
    forall r, (r < size)%nat -> exists log,
      l_log (c_st c' r) = l_log (f r) ++ log /\ good_log l size r start ns log.
Proof.
  intros Hsize Hl. induction ns as [|n ns IH]; intros start number f Hns Hf Hc.
  - eexists. split; [apply reach_refl|]. split.
    + intro r. cbn. unfold source_run. destruct (Nat.ltb r size); reflexivity.
    + intros r Hr. exists []. cbn [c_st]. rewrite app_nil_r. split; [reflexivity|]. exists []. split; constructor.
  - inversion Hns as [|? ? Hn Hns']; subst.
    set (rest := source_run sync size d (fun _ => map Z.of_nat ns)).
    pose proof (one_round sync size d (Z.of_nat n) number rest f Hsize (fun r Hr => proj1 (Hf r Hr))) as R1.
    rewrite Hc in R1. set (g := fun r => if Nat.ltb r size then round_state size d (Z.of_nat start) (Z.of_nat n) r (f r) else f r) in R1.
    assert (Hg : forall r, (r < size)%nat -> exists x,
        map Some x = cyclic l ((start + r * n) mod List.length l) n /\ List.length x = n /\
        l_log (g r) = l_log (f r) ++ [Ok (Some x)] /\ reads_ok l d (g r) /\ l_number (g r) = number + 1 /\
        (r = 0%nat -> l_cursor (g r) = Z.of_nat (start + size * n))).
    { intros r Hr. destruct (Hf r Hr) as [Hn0 I]. unfold g. replace (Nat.ltb r size) with true by (symmetry; apply Nat.ltb_lt; lia).
      unfold round_state. destruct (Nat.eqb_spec r 0) as [->|Hr0].
      - destruct (seek_read l d (f 0%nat) (do_seek0 size (Z.of_nat n) (do_channel (f 0%nat))) start n I Hl Hn)
          as (x & Hx & Lx & Lg & I2 & Cu & Nu).
        + cbn. rewrite Hc. reflexivity.
        + reflexivity.
        + exists x. replace (start + 0 * n)%nat with start by lia. rewrite Cu, Nu. cbn. rewrite Hc, Hn0.
          split; [exact Hx|]. split; [exact Lx|]. split; [exact Lg|]. split; [exact I2|]. split; [reflexivity|]. intros _. lia.
      - destruct (seek_read l d (f r) (do_seek (do_receive (do_channel (f r)) (Z.of_nat start + Z.of_nat r * Z.of_nat n))) (start + r * n) n I Hl Hn)
          as (x & Hx & Lx & Lg & I2 & Cu & Nu).
        + cbn. do 2 f_equal. lia.
        + reflexivity.
        + exists x. rewrite Nu. cbn. rewrite Hn0.
          split; [exact Hx|]. split; [exact Lx|]. split; [exact Lg|]. split; [exact I2|]. split; [reflexivity|]. intro; lia. }
    assert (Hg2 : forall r, (r < size)%nat -> l_number (g r) = number + 1 /\ reads_ok l d (g r)).
    { intros r Hr. destruct (Hg r Hr) as (x & _ & _ & _ & I & Nu & _). auto. }
    assert (Hc2 : l_cursor (g 0%nat) = Z.of_nat (start + size * n)).
    { destruct (Hg 0%nat ltac:(lia)) as (x & _ & _ & _ & _ & _ & Cu). auto. }
    destruct (IH (start + size * n)%nat (number + 1) g Hns' Hg2 Hc2) as (c2 & R2 & F2 & L2).
    exists c2. split.
    { eapply reach_trans; [|eapply reach_trans; [exact R1|exact R2]].
      apply reach_eq. split; [|split]; intros; cbn [c_prog c_st c_net]; try reflexivity.
      unfold rest, source_run. cbn [map flat_map]. destruct (Nat.ltb r size); reflexivity. }
    split; [exact F2|].
    intros r Hr. destruct (L2 r Hr) as (log & El & xs & Ex & Fx). destruct (Hg r Hr) as (x & Hx & Lx & Lg & _).
    exists (Ok (Some x) :: log). split.
    + rewrite El, Lg, <- app_assoc. reflexivity.
    + exists (x :: xs). split; [cbn; rewrite Ex; reflexivity|]. cbn [offsets]. constructor; [split; assumption|exact Fx].
Qed.

(** ** The pieces form one stream *)
Lemma cyclic_ranks {A} (l : list A) n : l <> [] -> forall m (x : nat -> list A) start r0,
  (forall r, (r0 <= r < r0 + m)%nat -> map Some (x r) = cyclic l ((start + r * n) mod List.length l) n) ->
  map Some (flat_map x (seq r0 m)) = cyclic l ((start + r0 * n) mod List.length l) (m * n).
Proof.
  intro Hl. assert (Hlen : (List.length l <> 0)%nat) by (destruct l; cbn; [congruence|lia]).
  induction m as [|m IH]; intros x start r0 H.
  - reflexivity.
  - cbn [seq flat_map]. rewrite map_app, (H r0) by lia. rewrite (IH x start (S r0)) by (intros; apply H; lia).
    replace (S m * n)%nat with (n + m * n)%nat by lia. rewrite cyclic_app by assumption. f_equal. f_equal.
    rewrite Nat.add_mod_idemp_l by assumption. f_equal. lia.
Qed.

Lemma offsets_length size ns : forall start, List.length (offsets size start ns) = List.length ns.
Proof. induction ns; intro; cbn; auto. Qed.

Lemma stream_of_rounds l size : l <> [] -> forall ns start (xs : nat -> list (list neutron)),
  (forall r, (r < size)%nat ->
     Forall2 (fun x '(off, n) => map Some x = cyclic l ((off + r * n) mod List.length l) n /\ List.length x = n)
             (xs r) (offsets size start ns)) ->
  map Some (flat_map (fun k => flat_map (fun r => nth k (xs r) []) (seq 0 size)) (seq 0 (List.length ns)))
  = cyclic l (start mod List.length l) (size * list_sum ns).
Proof.
  intro Hl. assert (Hlen : (List.length l <> 0)%nat) by (destruct l; cbn; [congruence|lia]).
  induction ns as [|n ns IH]; intros start xs H.
  - cbn. rewrite Nat.mul_0_r. reflexivity.
  - cbn [offsets] in H. cbn [List.length seq flat_map list_sum fold_right].
    rewrite map_app.
    assert (E1 : map Some (flat_map (fun r => nth 0 (xs r) []) (seq 0 size)) = cyclic l (start mod List.length l) (size * n)).
    { rewrite (cyclic_ranks l n Hl size (fun r => nth 0 (xs r) []) start 0).
      - do 2 f_equal. lia.
      - intros r Hr. specialize (H r ltac:(lia)). inversion H as [|? ? ? ? Hx]; subst. cbn. apply Hx. }
    rewrite E1. rewrite <- seq_shift, flat_map_concat_map, map_map, <- flat_map_concat_map.
    assert (E2 := IH (start + size * n)%nat (fun r => tl (xs r))).
    replace (map Some (flat_map (fun k => flat_map (fun r => nth (S k) (xs r) []) (seq 0 size)) (seq 0 (List.length ns))))
      with (map Some (flat_map (fun k => flat_map (fun r => nth k (tl (xs r)) []) (seq 0 size)) (seq 0 (List.length ns)))).
    + rewrite E2.
      * replace (size * (n + fold_right Nat.add 0%nat ns))%nat with (size * n + size * list_sum ns)%nat by (unfold list_sum; lia).
        rewrite cyclic_app by assumption. f_equal. f_equal. rewrite Nat.add_mod_idemp_l by assumption. reflexivity.
      * intros r Hr. specialize (H r Hr). inversion H; subst. cbn. assumption.
    + f_equal. rewrite !flat_map_concat_map. f_equal. apply map_ext. intro k. rewrite !flat_map_concat_map. f_equal. apply map_ext.
      intro r. destruct (xs r); cbn; [destruct k; reflexivity|reflexivity].
Qed.

(** ** The barrier *)
Definition barrier_all (sync : nat -> bool) (size : nat) : nat -> list (instr lstate Z) :=
  fun r => if Nat.ltb r size then barrier_prog sync size r else [].

Lemma barrier_reach sync size number (f : nat -> lstate) : (2 <= size)%nat ->
  (forall r, (r < size)%nat -> l_number (f r) = number) ->
  exists c', reach (mkConfig (barrier_all sync size) f empty_net) c' /\ finished c' /\
    forall r, (r < size)%nat -> l_entered (c_st c' r) = true /\ l_left (c_st c' r) = true /\ l_number (c_st c' r) = number + 1 /\
       l_cursor (c_st c' r) = l_cursor (f r) /\ l_log (c_st c' r) = l_log (f r) /\ l_storage (c_st c' r) = l_storage (f r).
Proof.
  intros Hs Hnum.
  set (rest2 := fun r : nat => if Nat.ltb r size then map (ILocal (V:=Z)) [do_leave] ++ [] else []).
  set (sends := flat_map (fun i => ISend i l_channel (fun _ => 0) :: (if sync i then [IWait i l_channel] else [])) (seq 1 (size - 1))).
  set (rest1 := fun r => if Nat.ltb r size
                         then if Nat.eqb r 0 then sends ++ rest2 0%nat else IRecv 0 l_channel (fun s _ => s) :: rest2 r
                         else rest2 r).
  set (f1 := fun r => if Nat.ltb r size then do_channel (do_enter (f r)) else f r).
  exists (mkConfig (fun _ => []) (fun r => if Nat.ltb r size then do_leave (do_channel (do_enter (f r))) else f r) empty_net).
  split; [|split].
  - eapply reach_trans with (mkConfig (fun r => if Nat.ltb r size then map ILocal [do_enter; do_channel] ++ rest1 r else rest1 r) f empty_net).
    { apply reach_eq. split; [|split]; intros; cbn [c_prog c_st c_net]; try reflexivity.
      unfold rest1, rest2, barrier_all, barrier_prog, send_instr. fold sends.
      replace (Nat.ltb size 2) with false by (symmetry; apply Nat.ltb_ge; lia).
      destruct (Nat.ltb_spec r size); [|reflexivity]. destruct (Nat.eqb_spec r 0) as [->|]; [|reflexivity].
      destruct (Nat.ltb_spec 0 size); [|lia]. reflexivity. }
    eapply reach_trans; [apply (locals_all (fun _ => [do_enter; do_channel]) rest1 empty_net size f)|]. cbn [apply_all fold_left]. fold f1.
    eapply reach_trans; [apply (scatter l_channel (fun _ _ => 0) (fun _ s _ => s) sync rest2 size f1)|].
    { intros r Hr. unfold f1. destruct (Nat.ltb_spec r size); [|lia]. destruct (Nat.ltb_spec 0 size); [|lia].
      cbn. rewrite !Hnum by lia. reflexivity. }
    eapply reach_trans; [apply (locals_all (fun r => [do_leave]) (fun _ => []))|].
    apply reach_eq. split; [|split]; intros; cbn [c_prog c_st c_net]; try reflexivity.
    unfold f1, apply_all. destruct (Nat.ltb_spec r size); [|reflexivity]. destruct (Nat.ltb_spec 0 r); reflexivity.
  - intro r. reflexivity.
  - intros r Hr. cbn [c_st]. destruct (Nat.ltb_spec r size); [|lia]. cbn. rewrite Hnum by lia. auto 7.
Qed.

(* an instruction that does not reset the entered flag *)
Definition keeps (i : instr lstate Z) : Prop :=
  match i with
  | ILocal f => forall s, l_entered s = true -> l_entered (f s) = true
  | IRecv _ _ k => forall s v, l_entered s = true -> l_entered (k s v) = true
  | IBranch _ => False
  | _ => True
  end.

Lemma exec_other {St V} (c c' : config St V) r q : exec r c = Some c' -> q <> r ->
  c_prog c' q = c_prog c q /\ c_st c' q = c_st c q.
Proof.
  intros E H. unfold exec in E. destruct (c_prog c r) as [|[dst tag val|dst tag|src tag k|f|f] p]; try discriminate.
  - injection E as <-. cbn. rewrite upd_other by congruence. auto.
  - destruct (c_net c r dst _); [|discriminate]. injection E as <-. cbn. rewrite upd_other by congruence. auto.
  - destruct (c_net c src r _); [discriminate|]. injection E as <-. cbn. rewrite !upd_other by congruence. auto.
  - injection E as <-. cbn. rewrite !upd_other by congruence. auto.
  - injection E as <-. cbn. rewrite upd_other by congruence. auto.
Qed.

Lemma exec_keeps (c c' : config lstate Z) r : exec r c = Some c' -> Forall keeps (c_prog c r) ->
  Forall keeps (c_prog c' r) /\ (l_entered (c_st c r) = true -> l_entered (c_st c' r) = true).
Proof.
  intros E K. unfold exec in E. destruct (c_prog c r) as [|i p] eqn:P; [discriminate|].
  inversion K as [|? ? K1 K2]; subst. destruct i as [dst tag val|dst tag|src tag k|f|f].
  - injection E as <-. cbn. rewrite upd_same. auto.
  - destruct (c_net c r dst _); [|discriminate]. injection E as <-. cbn. rewrite upd_same. auto.
  - destruct (c_net c src r _); [discriminate|]. injection E as <-. cbn. rewrite !upd_same. auto.
  - injection E as <-. cbn. rewrite !upd_same. auto.
  - destruct K1.
Qed.

Lemma barrier_keeps sync size r : Forall keeps (barrier_prog sync size r).
Proof.
  unfold barrier_prog. constructor; [cbn; auto|]. apply Forall_app. split; [|repeat constructor; cbn; auto].
  destruct (Nat.ltb size 2); [constructor|]. constructor; [cbn; auto|].
  destruct (Nat.eqb r 0).
  - apply Forall_flat_map. apply Forall_forall. intros i _. unfold send_instr. constructor; [exact I|].
    destruct (sync i); repeat constructor.
  - repeat constructor; cbn; auto.
Qed.

Lemma run_invariant {St V} (P : config St V -> Prop) :
  (forall r c c', P c -> exec r c = Some c' -> P c') ->
  forall s c c', P c -> run s c = Some c' -> P c'.
Proof.
  intros H s. induction s as [|r s IH]; intros c c' Hc R.
  - injection R as <-. exact Hc.
  - cbn in R. destruct (exec r c) as [c1|] eqn:E; [|discriminate]. eapply IH; [eapply H; eassumption|exact R].
Qed.

(* safety for any mode of sending: a worker leaves only after rank 0 has entered *)
Definition waiting (sync : nat -> bool) (size : nat) (c : config lstate Z) (r : nat) : Prop :=
  l_left (c_st c r) = false /\
  ((size <= r)%nat /\ c_prog c r = [] \/
   c_prog c r = [ILocal do_enter; ILocal do_channel; IRecv 0 l_channel (fun s _ => s); ILocal do_leave] \/
   c_prog c r = [ILocal do_channel; IRecv 0 l_channel (fun s _ => s); ILocal do_leave] \/
   c_prog c r = [IRecv 0 l_channel (fun s _ => s); ILocal do_leave]).
Definition one_sided (sync : nat -> bool) (size : nat) (c : config lstate Z) : Prop :=
  Forall keeps (c_prog c 0%nat) /\
  (l_entered (c_st c 0%nat) = true \/
   ((forall a b t, c_net c a b t = []) /\ c_prog c 0%nat = barrier_prog sync size 0 /\
    forall r, (1 <= r)%nat -> waiting sync size c r)).

Lemma one_sided_step sync size r c c' : one_sided sync size c -> exec r c = Some c' -> one_sided sync size c'.
Proof.
  intros [K H] E. destruct (Nat.eq_dec r 0) as [->|Hr].
  - destruct (exec_keeps c c' 0 E K) as [K' Hk]. split; [exact K'|]. left. destruct H as [H|(N & P & W)]; [auto|].
    unfold exec in E. rewrite P in E. unfold barrier_prog in E. injection E as <-. reflexivity.
  - destruct (exec_other c c' r 0 E ltac:(congruence)) as [P0 S0]. split; [rewrite P0; exact K|].
    rewrite S0. destruct H as [H|(N & P & W)]; [left; exact H|right].
    destruct (W r ltac:(lia)) as [L F].
    assert (G : c_net c' = c_net c /\ waiting sync size c' r).
    { unfold waiting. unfold exec in E. destruct F as [[? F]|[F|[F|F]]]; rewrite F in E.
      - discriminate.
      - injection E as <-. cbn [c_net c_prog c_st]. rewrite !upd_same. cbn. tauto.
      - injection E as <-. cbn [c_net c_prog c_st]. rewrite !upd_same. cbn. tauto.
      - rewrite N in E. discriminate. }
    destruct G as [Gn Gw]. split; [rewrite Gn; exact N|]. split; [rewrite P0; exact P|].
    intros q Hq. destruct (Nat.eq_dec q r) as [->|Hne]; [exact Gw|].
    destruct (exec_other c c' r q E Hne) as [Pq Sq]. unfold waiting. rewrite Pq, Sq. apply W. exact Hq.
Qed.

Lemma one_sided_init sync size (f : nat -> lstate) : (2 <= size)%nat ->
  (forall r, l_left (f r) = false) ->
  one_sided sync size (mkConfig (barrier_all sync size) f empty_net).
Proof.
  intros Hs Hl. unfold one_sided. cbn [c_prog c_st c_net].
  assert (E0 : barrier_all sync size 0 = barrier_prog sync size 0)
    by (unfold barrier_all; replace (Nat.ltb 0 size) with true by (symmetry; apply Nat.ltb_lt; lia); reflexivity).
  rewrite E0. split; [apply barrier_keeps|].
  right. split; [reflexivity|]. split; [reflexivity|]. intros r Hr. split; [apply Hl|]. cbn [c_prog]. unfold barrier_all.
  destruct (Nat.ltb_spec r size); [right; left|left; auto].
  unfold barrier_prog. replace (Nat.ltb size 2) with false by (symmetry; apply Nat.ltb_ge; lia).
  destruct (Nat.eqb_spec r 0); [lia|reflexivity].
Qed.

(* safety with synchronous sends: rank 0 leaves only after every worker has entered *)
Definition W (size i : nat) : list (instr lstate Z) :=
  flat_map (fun j => send_instr (fun _ => true) j (fun _ => 0)) (seq i (size - i)) ++ [ILocal do_leave].
Definition all_in (c : config lstate Z) (i : nat) : Prop := forall r, (1 <= r < i)%nat -> l_entered (c_st c r) = true.
Definition rdv (size : nat) (c : config lstate Z) : Prop :=
  (forall r, (1 <= r < size)%nat -> Forall keeps (c_prog c r) /\
     (l_entered (c_st c r) = true \/ exists p, c_prog c r = ILocal do_enter :: p)) /\
  ((l_left (c_st c 0%nat) = false /\
     (c_prog c 0%nat = ILocal do_enter :: ILocal do_channel :: W size 1 \/
      c_prog c 0%nat = ILocal do_channel :: W size 1 \/
      (exists i, (1 <= i <= size)%nat /\ c_prog c 0%nat = W size i /\ all_in c i) \/
      (exists i, (1 <= i < size)%nat /\ c_prog c 0%nat = IWait i l_channel :: W size (S i) /\ all_in c i /\
          (l_entered (c_st c i) = true \/ c_net c 0%nat i (l_channel (c_st c 0%nat)) <> [])))) \/
   (c_prog c 0%nat = [] /\ all_in c size)).

Lemma all_in_same c c' i : (forall r, (1 <= r)%nat -> c_st c' r = c_st c r) -> all_in c i -> all_in c' i.
Proof. intros H A r Hr. rewrite H by lia. apply A. exact Hr. Qed.

Lemma rdv_step size r c c' : (2 <= size)%nat -> rdv size c -> exec r c = Some c' -> rdv size c'.
Proof.
  intros Hs [Hw H0] E. destruct (Nat.eq_dec r 0) as [->|Hr].
  - assert (Ho : forall q, (1 <= q)%nat -> c_prog c' q = c_prog c q /\ c_st c' q = c_st c q)
      by (intros q Hq; apply (exec_other c c' 0 q E); lia).
    assert (Hos : forall q, (1 <= q)%nat -> c_st c' q = c_st c q) by (intros; apply Ho; assumption).
    split.
    { intros q Hq. destruct (Ho q ltac:(lia)) as [-> ->]. apply Hw. exact Hq. }
    unfold exec in E. destruct H0 as [(L & [P|[P|[(i & Hi & P & A)|(i & Hi & P & A & N)]]])|(P & A)].
    + rewrite P in E. injection E as <-. left. cbn. unfold upd at 1. cbn. split; [exact L|]. right. left. first [apply upd_same|reflexivity].
    + rewrite P in E. injection E as <-. left. cbn. unfold upd at 1. cbn. split; [exact L|]. right. right. left.
      exists 1%nat. split; [lia|]. split; [first [apply upd_same|reflexivity]|]. intros q Hq. lia.
    + destruct (Nat.eq_dec i size) as [->|Hne].
      * unfold W in P. rewrite Nat.sub_diag in P. cbn [seq flat_map app] in P. rewrite P in E. injection E as <-. right. cbn.
        split; [first [apply upd_same|reflexivity]|]. apply (all_in_same c); [exact Hos|exact A].
      * unfold W in P. replace (size - i)%nat with (S (size - S i)) in P by lia. cbn [seq flat_map] in P.
        unfold send_instr at 1 in P. cbn [app] in P. rewrite P in E. injection E as <-. left. cbn. split; [exact L|].
        right. right. right. exists i. split; [lia|]. split; [first [apply upd_same|reflexivity]|]. split; [apply (all_in_same c); [exact Hos|exact A]|].
        right. rewrite upd_net_same. destruct (c_net c 0%nat i _); discriminate.
    + rewrite P in E. destruct (c_net c 0%nat i (l_channel (c_st c 0%nat))) eqn:Q; [|discriminate].
      injection E as <-. left. cbn. split; [exact L|]. right. right. left. exists (S i). split; [lia|]. split; [first [apply upd_same|reflexivity]|].
      intros q Hq. cbn. destruct (Nat.eq_dec q i) as [->|]; [|apply A; lia]. destruct N as [N|N]; [exact N|congruence].
    + rewrite P in E. discriminate.
  - destruct (exec_other c c' r 0 E ltac:(congruence)) as [P0 S0].
    assert (Hent : forall q, (1 <= q < size)%nat -> l_entered (c_st c q) = true -> l_entered (c_st c' q) = true).
    { intros q Hq He. destruct (Nat.eq_dec q r) as [->|Hne].
      - apply (exec_keeps c c' r E); [|exact He]. apply Hw. exact Hq.
      - destruct (exec_other c c' r q E Hne) as [_ ->]. exact He. }
    assert (Hr2 : (1 <= r < size)%nat -> l_entered (c_st c' r) = true).
    { intro Hq. destruct (Hw r Hq) as [K [He|[p Hp]]]; [apply Hent; assumption|].
      unfold exec in E. rewrite Hp in E. injection E as <-. cbn. rewrite upd_same. reflexivity. }
    split.
    { intros q Hq. destruct (Nat.eq_dec q r) as [->|Hne].
      - split; [apply (exec_keeps c c' r E); apply Hw; exact Hq|]. left. apply Hr2. exact Hq.
      - destruct (exec_other c c' r q E Hne) as [-> ->]. apply Hw. exact Hq. }
    rewrite P0, S0.
    assert (A' : forall i, (i <= size)%nat -> all_in c i -> all_in c' i).
    { intros i Hi A q Hq. apply Hent; [lia|]. apply A. exact Hq. }
    destruct H0 as [(L & [P|[P|[(i & Hi & P & A)|(i & Hi & P & A & N)]]])|(P & A)].
    + left. auto.
    + left. auto.
    + left. split; [exact L|]. right. right. left. exists i. split; [lia|]. split; [exact P|]. apply A'; [lia|exact A].
    + left. split; [exact L|]. right. right. right. exists i. split; [lia|]. split; [exact P|]. split; [apply A'; [lia|exact A]|].
      destruct N as [N|N]; [left; apply Hent; [lia|exact N]|].
      destruct (Nat.eq_dec i r) as [->|Hne]; [left; apply Hr2; lia|right].
      intro Q. apply N. unfold exec in E. destruct (c_prog c r) as [|[dst tag val|dst tag|src tag k|f|f] p]; try discriminate.
      * injection E as <-. cbn in Q. rewrite upd_net_other in Q by (intros (? & _); congruence). exact Q.
      * destruct (c_net c r dst _); [|discriminate]. injection E as <-. exact Q.
      * destruct (c_net c src r _) eqn:QQ; [discriminate|]. injection E as <-. cbn in Q.
        rewrite upd_net_other in Q by (intros (_ & ? & _); congruence). exact Q.
      * injection E as <-. exact Q.
      * injection E as <-. exact Q.
    + right. split; [exact P|]. apply A'; [lia|exact A].
Qed.

Lemma rdv_init size (f : nat -> lstate) : (2 <= size)%nat -> l_left (f 0%nat) = false ->
  rdv size (mkConfig (barrier_all (fun _ => true) size) f empty_net).
Proof.
  intros Hs Hl. split; cbn [c_prog c_st c_net].
  - intros r Hr. unfold barrier_all. destruct (Nat.ltb_spec r size); [|lia]. split; [apply barrier_keeps|]. right. eexists. reflexivity.
  - left. split; [exact Hl|]. left. unfold barrier_all, barrier_prog. destruct (Nat.ltb_spec 0 size); [|lia].
    replace (Nat.ltb size 2) with false by (symmetry; apply Nat.ltb_ge; lia). reflexivity.
Qed.

(** ** Helpers for concrete executions *)
Lemma ex_run_obs {St V A} (obs : config St V -> A) sched c0 v :
  option_map obs (run sched c0) = Some v -> exists c, run sched c0 = Some c /\ obs c = v.
Proof. destruct (run sched c0) as [c|]; [|discriminate]. cbn. intro H. injection H as H. eauto. Qed.

Lemma run_other {St V} (sched : list nat) : forall (c c' : config St V) r,
  run sched c = Some c' -> ~ In r sched -> c_prog c' r = c_prog c r /\ c_st c' r = c_st c r.
Proof.
  induction sched as [|q sched IH]; intros c c' r R H.
  - injection R as <-. auto.
  - cbn in R. destruct (exec q c) as [c1|] eqn:E; [|discriminate].
    destruct (IH c1 c' r R ltac:(cbn in H; tauto)) as [-> ->].
    apply (exec_other c c1 q r E). cbn in H. intro; subst; tauto.
Qed.

Lemma nth_repeat_lt' {A} (a b : A) n : forall r, (r < n)%nat -> nth r (repeat a n) b = a.
Proof. induction n; intros [|r] H; cbn; try lia; auto. apply IHn. lia. Qed.
Lemma lengths_nil {A} (p : nat -> list A) size : map (fun r => List.length (p r)) (seq 0 size) = repeat 0%nat size ->
  forall r, (r < size)%nat -> p r = [].
Proof.
  intros H r Hr. apply (f_equal (fun x => nth r x 1%nat)) in H.
  rewrite nth_indep with (d' := List.length (p size)) in H by (rewrite map_length, seq_length; exact Hr).
  rewrite (map_nth (fun r => List.length (p r))) in H. rewrite seq_nth in H by exact Hr.
  rewrite nth_repeat_lt' in H by exact Hr. cbn in H. destruct (p r); [reflexivity|discriminate].
Qed.
