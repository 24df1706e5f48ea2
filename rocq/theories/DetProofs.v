(** Proofs for C29, C31 and C52. *)
From Verif Require Import Base StorageModel StorageSpec StorageProofs StorageToolsModel StorageToolsSpec StorageToolsProofs CliModel DetModel DetSpec.
From Coq Require Import QArith Ascii ZifyBool ZifyNat.
Open Scope Z_scope.

(** ** identifiers *)
Lemma within_product dims cs : within dims cs -> 1 <= product dims.
Proof. induction 1; cbn [product fold_right]; [lia|]. fold (product l). nia. Qed.

Lemma rank_range dims cs : within dims cs -> 0 <= rank_of dims cs < product dims.
Proof.
  induction 1 as [|d c ds cs' H F IH]; cbn; [lia|]. fold (product ds). nia.
Qed.

Lemma rank_inj dims : forall cs cs', within dims cs -> within dims cs' -> rank_of dims cs = rank_of dims cs' -> cs = cs'.
Proof.
  induction dims as [|d ds IH]; intros cs cs' H H' E; inversion H; inversion H'; subst; [reflexivity|].
  cbn in E.
  pose proof (rank_range _ _ H4). pose proof (rank_range _ _ H9).
  fold (product ds) in *.
  assert (y = y0) by nia. subst. f_equal. apply IH; [assumption|assumption|]. lia.
Qed.

Lemma rank_surj dims : Forall (fun d => 0 < d) dims -> forall k, 0 <= k < product dims ->
  exists cs, within dims cs /\ rank_of dims cs = k.
Proof.
  induction 1 as [|d ds Hd F IH]; intros k Hk.
  - exists []. split; [constructor|]. cbn in *. lia.
  - cbn in Hk. fold (product ds) in Hk.
    assert (P : 0 < product ds) by nia.
    destruct (IH (k mod product ds)) as (cs & W & E); [apply Z.mod_pos_bound; lia|].
    exists (k / product ds :: cs). split.
    + constructor; [|assumption]. split; [apply Z.div_pos; lia|]. apply Z.div_lt_upper_bound; lia.
    + cbn. fold (product ds). rewrite E. pose proof (Z.div_mod k (product ds)). lia.
Qed.

Lemma u32_small z : 0 <= z < 2 ^ 32 -> u32 z = z.
Proof. intros. apply Z.mod_small. assumption. Qed.

Lemma pixel_loop_rank dims : forall cs acc rest, within dims cs -> 0 <= acc -> (acc + 1) * product dims <= 2 ^ 32 ->
  pixel_loop acc dims (cs ++ rest) = acc * product dims + rank_of dims cs.
Proof.
  induction dims as [|d ds IH]; intros cs acc rest W A B; inversion W; subst.
  - cbn. lia.
  - change (product (d :: ds)) with (d * product ds) in *.
    pose proof (within_product _ _ H3) as P.
    cbn [app pixel_loop].
    assert (A1 : 0 <= acc * d) by nia.
    assert (A2 : acc * d + y < (acc + 1) * d) by nia.
    assert (A3 : (acc + 1) * d <= 2 ^ 32) by nia.
    rewrite (u32_small (acc * d)) by lia. rewrite u32_small by lia.
    rewrite IH; [cbn; fold (product ds); ring|assumption|lia|nia].
Qed.

(** ** the tests *)
Lemma test_good dims : forall cs tof, within dims cs -> 0 <= tof -> test_channels dims (cs ++ [tof]) = AllGood.
Proof.
  induction dims as [|d ds IH]; intros cs tof W T; inversion W; subst; cbn.
  - destruct (tof <? 0) eqn:E; [lia|reflexivity].
  - destruct (y <? 0) eqn:E; [lia|]. destruct (d <=? y) eqn:E2; [lia|]. apply IH; assumption.
Qed.

Lemma test_prefix dims : forall before rest, within (firstn (List.length before) dims) before ->
  test_channels dims (before ++ rest) = test_channels (skipn (List.length before) dims) rest.
Proof.
  induction dims as [|d ds IH]; intros [|c cs] rest W; cbn in W |- *; try reflexivity.
  - inversion W.
  - inversion W; subst. destruct (c <? 0) eqn:E; [lia|]. destruct (d <=? c) eqn:E2; [lia|]. apply IH. assumption.
Qed.

Lemma test_outcome dims : forall channels, List.length channels = S (List.length dims) ->
  (exists cs tof, channels = cs ++ [tof] /\ within dims cs /\ 0 <= tof) \/
  exists before c after, channels = before ++ c :: after /\ within (firstn (List.length before) dims) before /\
     (c < 0 \/ exists d, nth_error dims (List.length before) = Some d /\ d <= c).
Proof.
  induction dims as [|d ds IH]; intros [|c cs] L; cbn in L; try discriminate.
  - destruct cs; [|discriminate]. destruct (Z_lt_le_dec c 0).
    + right. exists [], c, []. repeat split; [constructor|]. left. assumption.
    + left. exists [], c. repeat split; [constructor|assumption].
  - destruct (Z_lt_le_dec c 0); [|destruct (Z_le_gt_dec d c)].
    + right. exists [], c, cs. split; [reflexivity|]. split; [constructor|]. left. assumption.
    + right. exists [], c, cs. split; [reflexivity|]. split; [constructor|]. right. exists d. split; [reflexivity|assumption].
    + destruct (IH cs) as [(cs' & tof & E & W & T)|(b & c' & a & E & W & K)]; [lia| |].
      * left. exists (c :: cs'), tof. subst. repeat split; [constructor; [lia|assumption]|assumption].
      * right. exists (c :: b), c', a. subst. split; [reflexivity|]. split; [|exact K].
        cbn. constructor; [lia|assumption].
Qed.

(** ** bytes *)
Lemma le_bytes_spec_bytes k : forall z, 0 <= z -> le_bytes k z = spec_bytes k z.
Proof.
  induction k as [|k IH]; intros z Hz; [reflexivity|].
  unfold spec_bytes. cbn [le_bytes seq map]. f_equal.
  - rewrite Z.shiftr_0_r. change 255 with (Z.ones 8). rewrite Z.land_ones by lia. reflexivity.
  - rewrite IH by (apply Z.div_pos; lia). unfold spec_bytes. rewrite <- seq_shift, map_map.
    apply map_ext. intros i. f_equal. change 256 with (2 ^ 8).
    rewrite <- Z.shiftr_div_pow2, Z.shiftr_shiftr by lia. f_equal. lia.
Qed.

Lemma event_bytes_spec e : wf_event e -> event_bytes e = spec_event_bytes e.
Proof.
  intros (A & B & C). unfold event_bytes, spec_event_bytes, record_bytes, wf_word in *.
  rewrite !le_bytes_spec_bytes by lia. reflexivity.
Qed.

Lemma events_of_bytes e t : wf_event e -> events_of (event_bytes e ++ t) = e :: events_of t.
Proof.
  intros (A & B & C). unfold event_bytes, wf_word in *. destruct e as [p f w]. cbn [pixelID tofChannelNo ev_n] in *.
  cbn [le_bytes app events_of].
  f_equal. f_equal.
  - change (le_value (le_bytes 4 p) = p). rewrite le_value_bytes. apply Z.mod_small. assumption.
  - change (le_value (le_bytes 4 f) = f). rewrite le_value_bytes. apply Z.mod_small. assumption.
  - change (le_value (le_bytes 8 w) = w). rewrite le_value_bytes. apply Z.mod_small. assumption.
Qed.

Lemma events_of_all es t : Forall wf_event es -> events_of (flat_map event_bytes es ++ t) = es ++ events_of t.
Proof.
  induction 1 as [|e es W F IH]; [reflexivity|]. cbn [flat_map]. rewrite <- app_assoc, events_of_bytes, IH by assumption. reflexivity.
Qed.

Lemma flat_event_bytes es : Forall wf_event es -> flat_map event_bytes es = flat_map spec_event_bytes es.
Proof. induction 1 as [|e es W F IH]; [reflexivity|]. cbn [flat_map]. rewrite IH, (event_bytes_spec e W). reflexivity. Qed.

Lemma within_length dims cs : within dims cs -> List.length dims = List.length cs.
Proof. induction 1; cbn; lia. Qed.

(** ** accept *)
Lemma accept_good dims cs tof n file : dims <> [] -> within dims cs -> 0 <= tof < 2 ^ 31 -> product dims <= 2 ^ 32 ->
  accept dims file (cs ++ [tof]) n = Ok (file ++ event_bytes (mkE (rank_of dims cs) tof n)).
Proof.
  intros D W T P. unfold accept.
  pose proof (within_length _ _ W) as L. rewrite app_length. cbn [List.length].
  replace (Nat.eqb (List.length cs + 1) (List.length dims + 1)) with true by (symmetry; apply Nat.eqb_eq; lia).
  destruct dims as [|d ds]; [congruence|]. cbn [negb List.length Nat.eqb].
  rewrite test_good by (assumption || lia).
  rewrite last_last, pixel_loop_rank by (assumption || lia).
  rewrite u32_small by lia. rewrite Z.mul_0_l, Z.add_0_l. reflexivity.
Qed.

Lemma accept_missed dims before c after n file : dims <> [] ->
  List.length (before ++ c :: after) = S (List.length dims) -> within (firstn (List.length before) dims) before -> c < 0 ->
  accept dims file (before ++ c :: after) n = Ok file.
Proof.
  intros D L W C. unfold accept. rewrite L, Nat.add_1_r, Nat.eqb_refl. cbn [negb].
  destruct dims as [|d ds]; [congruence|]. cbn [List.length Nat.eqb].
  rewrite test_prefix by assumption. cbn [test_channels]. destruct (c <? 0) eqn:E; [reflexivity|lia].
Qed.

Lemma accept_beyond dims before c after n file d :
  List.length (before ++ c :: after) = S (List.length dims) -> within (firstn (List.length before) dims) before ->
  0 <= d -> nth_error dims (List.length before) = Some d -> d <= c ->
  accept dims file (before ++ c :: after) n = Err CppException.
Proof.
  intros L W D0 N C. unfold accept. rewrite L, Nat.add_1_r, Nat.eqb_refl. cbn [negb].
  destruct (Nat.eqb (List.length dims) 0) eqn:E0.
  { apply Nat.eqb_eq in E0. destruct dims; [|discriminate]. destruct before; discriminate. }
  rewrite test_prefix by assumption.
  assert (K : skipn (List.length before) dims = d :: skipn (S (List.length before)) dims).
  { clear - N. revert N. generalize (List.length before). intros k. revert k.
    induction dims as [|x t IH]; intros [|k] N; cbn in *; try discriminate; [congruence|]. apply IH. assumption. }
  rewrite K. cbn [test_channels]. destruct (c <? 0) eqn:E; [lia|]. destruct (d <=? c) eqn:E2; [reflexivity|lia].
Qed.

Lemma hits_read dims : dims <> [] -> product dims <= 2 ^ 32 -> forall hits es0,
  Forall wf_event es0 ->
  Forall (fun h => hit_ok dims h \/ hit_missed dims h) hits ->
  exists es, accept_all dims (flat_map event_bytes es0) hits = Ok (flat_map event_bytes (es0 ++ es)) /\
    Forall wf_event es /\
    exists kept, Forall2 (hit_event dims) kept es /\ Forall (hit_ok dims) kept /\
      kept = filter (fun h => forallb (fun c => 0 <=? c) (fst h)) hits.
Proof.
  intros D P. unfold accept_all.
  induction hits as [|h hits IH]; intros es0 W0 F.
  - exists []. cbn. rewrite app_nil_r. repeat split; [constructor|]. exists []. repeat split; constructor.
  - inversion F as [|? ? Hh F']; subst. destruct h as [ch n]. cbn [fold_result fst snd].
    destruct Hh as [(cs & tof & E & W & T & Wn)|(b & c & a & E & L & C & W)]; cbn [fst snd] in *; subst ch.
    + rewrite accept_good by assumption.
      pose proof (rank_range _ _ W) as R.
      set (e := mkE (rank_of dims cs) tof n).
      assert (We : wf_event e) by (unfold wf_event; cbn; repeat split; try lia; exact (proj1 Wn) || apply Wn).
      destruct (IH (es0 ++ [e])) as (es & Ea & Wes & kept & K1 & K2 & K3).
      { apply Forall_app. split; [assumption|constructor; [assumption|constructor]]. } { assumption. }
      exists (e :: es). rewrite flat_map_app in Ea. cbn [flat_map] in Ea. rewrite app_nil_r in Ea.
      rewrite Ea. rewrite <- app_assoc. cbn [app]. split; [reflexivity|]. split; [constructor; assumption|].
      exists ((cs ++ [tof], n) :: kept). split; [|split].
      * constructor; [|assumption]. exists cs, tof. split; reflexivity.
      * constructor; [|assumption]. exists cs, tof. repeat split; try assumption; try lia; apply Wn.
      * cbn [filter fst].
        replace (forallb (fun c => 0 <=? c) (cs ++ [tof])) with true; [congruence|].
        symmetry. apply forallb_forall. intros x Hx. apply in_app_or in Hx. destruct Hx as [Hx|[<-|[]]]; [|lia].
        clear - W Hx. induction W; [destruct Hx|]. destruct Hx as [<-|Hx]; [lia|auto].
    + rewrite accept_missed by assumption.
      destruct (IH es0 W0 F') as (es & Ea & Wes & kept & K1 & K2 & K3).
      exists es. split; [assumption|]. split; [assumption|]. exists kept. split; [assumption|]. split; [assumption|].
      cbn [filter fst].
      replace (forallb (fun c => 0 <=? c) (b ++ c :: a)) with false; [assumption|].
      symmetry. rewrite forallb_app. cbn. replace (0 <=? c) with false by lia. apply andb_false_r.
Qed.

(** ** reduction *)
Lemma add_at_spec {A} (f : A -> A) : forall k l, match add_at f k l with
  | None => (List.length l <= k)%nat
  | Some l' => exists x, nth_error l k = Some x /\ List.length l' = List.length l /\
      forall i, nth_error l' i = if Nat.eqb i k then Some (f x) else nth_error l i
  end.
Proof.
  intros k l. revert k. induction l as [|x t IH]; intros k; cbn; [lia|].
  destruct k as [|k]; cbn.
  - exists x. split; [reflexivity|]. split; [reflexivity|]. intros [|i]; reflexivity.
  - specialize (IH k). destruct (add_at f k t) as [l'|]; cbn; [|lia].
    destruct IH as (y & E & L & H). exists y. split; [assumption|]. split; [rewrite L; reflexivity|].
    intros [|i]; [reflexivity|]. cbn. apply H.
Qed.

Definition cell_add (add : Z -> Z -> Z) (o : option Z) (ws : list Z) : option Z :=
  option_map (fun z => fold_left add ws z) o.

Lemma add_event_ok add rows cols a e : shaped rows cols a ->
  0 <= pixelID e < Z.of_nat rows -> 0 <= tofChannelNo e < Z.of_nat cols ->
  exists a', add_event add a e = Ok a' /\ shaped rows cols a' /\
    forall i j, cell a' i j = if (pixelID e =? Z.of_nat i) && (tofChannelNo e =? Z.of_nat j)
                             then option_map (fun w => add w (ev_n e)) (cell a i j) else cell a i j.
Proof.
  intros [L F] P T. unfold add_event.
  destruct (nth_error a (Z.to_nat (pixelID e))) as [row|] eqn:Er.
  2:{ apply nth_error_None in Er. lia. }
  assert (Lr : List.length row = cols).
  { rewrite Forall_forall in F. apply F. eapply nth_error_In. exact Er. }
  pose proof (add_at_spec (fun w => add w (ev_n e)) (Z.to_nat (tofChannelNo e)) row) as S1.
  destruct (add_at _ (Z.to_nat (tofChannelNo e)) row) as [row'|]; [|lia].
  destruct S1 as (x & Ex & Lx & Hx).
  pose proof (add_at_spec (fun _ => row') (Z.to_nat (pixelID e)) a) as S2.
  destruct (add_at _ (Z.to_nat (pixelID e)) a) as [a'|]; [|lia].
  destruct S2 as (y & Ey & Ly & Hy).
  exists a'. split; [reflexivity|]. split.
  - split; [lia|]. apply Forall_forall. intros r Hr. apply In_nth_error in Hr. destruct Hr as [i Hi].
    rewrite Hy in Hi. destruct (Nat.eqb i (Z.to_nat (pixelID e))).
    + congruence.
    + rewrite Forall_forall in F. apply F. eapply nth_error_In. exact Hi.
  - intros i j. unfold cell. rewrite Hy.
    destruct (Nat.eqb i (Z.to_nat (pixelID e))) eqn:Ei.
    + apply Nat.eqb_eq in Ei. subst i. rewrite Er, Hx.
      replace (pixelID e =? Z.of_nat (Z.to_nat (pixelID e))) with true by lia. cbn [andb].
      destruct (Nat.eqb j (Z.to_nat (tofChannelNo e))) eqn:Ej.
      * apply Nat.eqb_eq in Ej. subst j. replace (tofChannelNo e =? Z.of_nat (Z.to_nat (tofChannelNo e))) with true by lia.
        rewrite Ex. reflexivity.
      * apply Nat.eqb_neq in Ej. replace (tofChannelNo e =? Z.of_nat j) with false by lia. reflexivity.
    + apply Nat.eqb_neq in Ei. replace (pixelID e =? Z.of_nat i) with false by lia. reflexivity.
Qed.

Lemma reduce_ok add rows cols : forall es a, shaped rows cols a ->
  Forall (fun e => 0 <= pixelID e < Z.of_nat rows /\ 0 <= tofChannelNo e < Z.of_nat cols) es ->
  exists a', events2Ipixtof add es a = Ok a' /\ shaped rows cols a' /\
    forall i j, cell a' i j = cell_add add (cell a i j) (weights_at es i j).
Proof.
  induction es as [|e es IH]; intros a S F.
  - exists a. split; [reflexivity|]. split; [assumption|]. intros i j. unfold cell_add. cbn. destruct (cell a i j); reflexivity.
  - inversion F as [|? ? [P T] F']; subst.
    destruct (add_event_ok add rows cols a e S P T) as (a1 & E1 & S1 & H1).
    destruct (IH a1 S1 F') as (a' & E' & S' & H').
    exists a'. split; [|split; [assumption|]].
    + unfold events2Ipixtof in *. cbn [fold_result]. rewrite E1. exact E'.
    + intros i j. rewrite H', H1. unfold weights_at. cbn [filter].
      destruct ((pixelID e =? Z.of_nat i) && (tofChannelNo e =? Z.of_nat j))%bool; [|reflexivity].
      unfold cell_add. cbn [map]. destruct (cell a i j); reflexivity.
Qed.

Lemma add_event_bad add rows cols a e : shaped rows cols a -> 0 <= pixelID e -> 0 <= tofChannelNo e ->
  Z.of_nat rows <= pixelID e \/ Z.of_nat cols <= tofChannelNo e ->
  add_event add a e = Err IndexError.
Proof.
  intros [L F] P T K. unfold add_event.
  destruct (nth_error a (Z.to_nat (pixelID e))) as [row|] eqn:Er; [|reflexivity].
  assert (Lr : List.length row = cols).
  { rewrite Forall_forall in F. apply F. eapply nth_error_In. exact Er. }
  assert (Hlt : (Z.to_nat (pixelID e) < List.length a)%nat) by (apply nth_error_Some; congruence).
  pose proof (add_at_spec (fun w => add w (ev_n e)) (Z.to_nat (tofChannelNo e)) row) as S1.
  destruct (add_at _ (Z.to_nat (tofChannelNo e)) row) as [row'|]; [|reflexivity].
  destruct S1 as (x & Ex & _).
  assert ((Z.to_nat (tofChannelNo e) < List.length row)%nat) by (apply nth_error_Some; congruence). lia.
Qed.
