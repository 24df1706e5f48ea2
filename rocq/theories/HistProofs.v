(** Proofs about merging histograms in parallel (C16) and normalisation (C17). *)
From Verif Require Import Base MpiModel MpiKahn HistModel.
From Coq Require Import ZifyBool ZifyNat.
Open Scope Z_scope.

Section Branch.
Context {St V : Type}.
Lemma branch_all (fs : nat -> St -> list (instr St V)) (rest : nat -> list (instr St V)) st net (a : nat) m :
  reach (mkConfig (fun r => if Nat.leb a r && Nat.ltb r m then IBranch (fs r) :: rest r else rest r) st net)
        (mkConfig (fun r => if Nat.leb a r && Nat.ltb r m then fs r (st r) ++ rest r else rest r) st net).
Proof.
  assert (G : forall j, (j <= m)%nat ->
    reach (mkConfig (fun r => if Nat.leb a r && Nat.ltb r m then IBranch (fs r) :: rest r else rest r) st net)
          (mkConfig (fun r => if Nat.leb a r && Nat.ltb r m then (if Nat.ltb r j then fs r (st r) ++ rest r else IBranch (fs r) :: rest r) else rest r) st net)).
  { induction j as [|j IH]; intro Hj.
    - apply reach_eq. split; [|split]; intros; reflexivity.
    - eapply reach_trans; [apply IH; lia|].
      destruct (Nat.leb_spec a j) as [Ha|Ha].
      + eapply reach_trans.
        { eapply (step_branch _ _ _ j (fs j) (rest j)).
          replace (Nat.leb a j) with true by (symmetry; apply Nat.leb_le; lia).
          replace (Nat.ltb j m) with true by (symmetry; apply Nat.ltb_lt; lia).
          replace (Nat.ltb j j) with false by (symmetry; apply Nat.ltb_ge; lia). reflexivity. }
        apply reach_eq. split; [|split]; intros; cbn [c_prog c_st c_net]; try reflexivity.
        unfold upd. destruct (Nat.eqb_spec j r) as [->|].
        * replace (Nat.leb a r) with true by (symmetry; apply Nat.leb_le; lia).
          replace (Nat.ltb r m) with true by (symmetry; apply Nat.ltb_lt; lia).
          replace (Nat.ltb r (S r)) with true by (symmetry; apply Nat.ltb_lt; lia). reflexivity.
        * destruct (Nat.ltb_spec r j), (Nat.ltb_spec r (S j)); try lia; reflexivity.
      + apply reach_eq. split; [|split]; intros; cbn [c_prog c_st c_net]; try reflexivity.
        destruct (Nat.leb_spec a r), (Nat.ltb_spec r j), (Nat.ltb_spec r (S j)); try lia; reflexivity. }
  eapply reach_trans; [apply (G m); lia|]. apply reach_eq. split; [|split]; intros; cbn [c_prog c_st c_net]; try reflexivity.
  destruct (Nat.leb a r); [|reflexivity]. cbn [andb]. destruct (Nat.ltb r m); reflexivity.
Qed.
End Branch.

(* the slices of ranks 0..k-1 are the first k*npernode files *)
Lemma slices_prefix size N (l : list string) k :
  flat_map (fun r => my_slice size r N l) (seq 0 k) = firstn (npernode size N * k) l.
Proof.
  induction k as [|k IH].
  - rewrite Nat.mul_0_r. reflexivity.
  - rewrite seq_S, flat_map_app, IH. cbn [flat_map Nat.add]. rewrite app_nil_r. unfold my_slice.
    replace (npernode size N * S k)%nat with (npernode size N * k + npernode size N)%nat by lia.
    generalize (npernode size N * k)%nat. generalize (npernode size N). clear. intros b a. revert l.
    induction a as [|a IH]; intro l; [reflexivity|]. destruct l as [|x l]; cbn; [destruct b; reflexivity|]. f_equal. apply IH.
Qed.
Lemma npernode_covers size N : (1 <= size)%nat -> (N <= npernode size N * size)%nat.
Proof.
  intro H. unfold npernode. pose proof (Nat.div_mod (N - 1) size ltac:(lia)). pose proof (Nat.mod_upper_bound (N - 1) size ltac:(lia)). nia.
Qed.

Lemma firstn_slice size N (l : list string) k : 
  firstn (npernode size N * S k) l = firstn (npernode size N * k) l ++ my_slice size k N l.
Proof. rewrite <- !slices_prefix. rewrite seq_S, flat_map_app. cbn. rewrite app_nil_r. reflexivity. Qed.

Lemma my_slice_nil_iff size r N (l m : list string) : List.length l = List.length m -> my_slice size r N l = [] <-> my_slice size r N m = [].
Proof.
  intro H. unfold my_slice. assert (X : forall x : list string, x = [] <-> List.length x = 0%nat) by (intro x; destruct x; cbn; split; intro; congruence || reflexivity).
  rewrite !X, !firstn_length, !skipn_length, H. reflexivity.
Qed.

Section HistProofs.
Variables (A M : Type) (addA : A -> A -> A) (M0 : M) (addM : M -> M -> M).
Variables (loadh : string -> A * A) (loadm : string -> M).
Notation hstate := (hstate A M).
Notation payload := (payload A M).
Variable sync : nat -> Z -> bool.

Definition absorb (s w : hstate) : hstate :=
  match h_h1 w with
  | None => rcv_has A M s (PBool false)
  | Some _ => rcv_mcs A M addM (rcv_E2 A M addA (rcv_I A M addA (rcv_has A M s (PBool true)) (pay_I A M w)) (pay_E2 A M w)) (pay_mcs A M w)
  end.

Lemma has_I s v : h_has (rcv_I A M addA s v) = h_has s.
Proof. unfold rcv_I. destruct v; try reflexivity. destruct (h_h1 s) as [[? ?]|]; reflexivity. Qed.

Ltac norm i := apply reach_eq; split; [|split]; intros; cbn [c_prog c_st c_net]; try reflexivity;
  unfold upd; repeat match goal with |- context [Nat.eqb ?a ?b] => destruct (Nat.eqb_spec a b) end; try reflexivity; try congruence; try lia.

Lemma gather_one (prog : nat -> list (instr hstate payload)) st i p q : i <> 0%nat ->
  prog 0%nat = gather_from A M addA addM i ++ p -> prog i = give A M sync i (st i) ++ q ->
  reach (mkConfig prog st empty_net)
        (mkConfig (upd (upd prog 0 p) i q) (upd st 0 (absorb (st 0%nat) (st i))) empty_net).
Proof.
  intros Hi P0 Pi. unfold gather_from, hrecv in P0. cbn [app] in P0. unfold give, hsend in Pi. unfold absorb.
  destruct (h_h1 (st i)) as [h|] eqn:Eh.
  - cbn [app] in Pi. rewrite <- ?app_assoc in Pi. cbn [app] in Pi. rewrite <- ?app_assoc in Pi. cbn [app] in Pi. rewrite <- ?app_assoc in Pi. cbn [app] in Pi. rewrite <- ?app_assoc in Pi.
    eapply reach_trans; [eapply (exchange prog st i 0%nat _ _ _ _ (sync i 120)); [exact Hi| |exact Pi|exact P0]; reflexivity|].
    eapply reach_trans; [eapply (step_branch _ _ _ 0%nat); apply upd_same|]. rewrite !upd_same. cbn [rcv_has h_has app].
    eapply reach_trans; [eapply (exchange _ _ i 0%nat (fun _ => 121) (pay_I A M) (fun _ => 121) (rcv_I A M addA) (sync i 121)); [exact Hi| | |]|].
    { cbn beta. reflexivity. }
    { rewrite !(upd_other _ 0) by congruence. rewrite upd_same. reflexivity. }
    { rewrite upd_same. reflexivity. }
    rewrite !(upd_other _ 0 _ i) by congruence. rewrite !upd_same.
    eapply reach_trans; [eapply (exchange _ _ i 0%nat (fun _ => 122) (pay_E2 A M) (fun _ => 122) (rcv_E2 A M addA) (sync i 122)); [exact Hi| | |]|].
    { cbn beta. reflexivity. }
    { rewrite !(upd_other _ 0) by congruence. rewrite upd_same. reflexivity. }
    { rewrite upd_same. reflexivity. }
    rewrite !(upd_other _ 0 _ i) by congruence. rewrite !upd_same.
    eapply reach_trans; [eapply (exchange _ _ i 0%nat (fun _ => 123) (pay_mcs A M) (fun _ => 123) (rcv_mcs A M addM) (sync i 123)); [exact Hi| | |]|].
    { cbn beta. reflexivity. }
    { rewrite !(upd_other _ 0) by congruence. rewrite upd_same. reflexivity. }
    { rewrite upd_same. reflexivity. }
    rewrite !(upd_other _ 0 _ i) by congruence. rewrite !upd_same.
    norm i.
  - cbn [app] in Pi.
    eapply reach_trans; [eapply (exchange prog st i 0%nat _ _ _ _ (sync i 120)); [exact Hi| |rewrite Pi; rewrite <- ?app_assoc; reflexivity|exact P0]; reflexivity|].
    eapply reach_trans; [eapply (step_branch _ _ _ 0%nat); apply upd_same|]. rewrite !upd_same. cbn [rcv_has h_has app].
    norm i.
Qed.

Lemma gather_all (rest : nat -> list (instr hstate payload)) size : forall j i st, (1 <= i)%nat -> (j = size - i)%nat ->
  reach (mkConfig (fun r => if Nat.eqb r 0 then flat_map (gather_from A M addA addM) (seq i (size - i)) ++ rest 0%nat
                            else if Nat.leb i r && Nat.ltb r size then give A M sync r (st r) ++ rest r else rest r) st empty_net)
        (mkConfig rest (upd st 0 (fold_left absorb (map st (seq i (size - i))) (st 0%nat))) empty_net).
Proof.
  induction j as [|j IH]; intros i st Hi Hj.
  - rewrite <- Hj. cbn [seq flat_map app map fold_left]. apply reach_eq. split; [|split]; intros; cbn [c_prog c_st c_net]; try reflexivity.
    + destruct (Nat.eqb_spec r 0); [subst; reflexivity|]. destruct (Nat.leb_spec i r), (Nat.ltb_spec r size); try lia; reflexivity.
    + unfold upd. destruct (Nat.eqb_spec 0 r); [subst; reflexivity|reflexivity].
  - replace (size - i)%nat with (S (size - S i)) by lia. cbn [seq flat_map map fold_left].
    eapply reach_trans.
    { eapply (gather_one _ st i (flat_map (gather_from A M addA addM) (seq (S i) (size - S i)) ++ rest 0%nat) (rest i)); [lia| |].
      - cbn [Nat.eqb]. rewrite <- app_assoc. reflexivity.
      - destruct (Nat.eqb_spec i 0); [lia|]. destruct (Nat.leb_spec i i), (Nat.ltb_spec i size); try lia. reflexivity. }
    eapply reach_trans; [|eapply reach_trans; [apply (IH (S i) (upd st 0 (absorb (st 0%nat) (st i)))); lia|]].
    + apply reach_eq. split; [|split]; intros; cbn [c_prog c_st c_net]; try reflexivity.
      unfold upd. destruct (Nat.eqb_spec i r) as [->|].
      * destruct (Nat.eqb_spec r 0); [lia|]. destruct (Nat.leb_spec (S r) r); [lia|]. reflexivity.
      * destruct (Nat.eqb_spec 0 r) as [<-|]; [reflexivity|]. destruct (Nat.eqb_spec r 0); [lia|].
        destruct (Nat.leb_spec i r), (Nat.leb_spec (S i) r); try lia; reflexivity.
    + rewrite upd_same. replace (map (upd st 0 (absorb (st 0%nat) (st i))) (seq (S i) (size - S i))) with (map st (seq (S i) (size - S i))).
      * apply reach_eq. split; [|split]; intros; cbn [c_prog c_st c_net]; try reflexivity. unfold upd. destruct (Nat.eqb 0 r); reflexivity.
      * apply map_ext_in. intros r Hr. apply in_seq in Hr. symmetry. apply upd_other. lia.
Qed.

(* what every rank holds after the broadcast and its local sum *)
Definition after_sum (size : nat) (hf mf : list string) (r : nat) : hstate :=
  do_local_sum addA M0 addM loadh loadm size r (mkH hf mf None None false None).

Definition rank0_final (size : nat) (hf mf : list string) : hstate :=
  do_return_sum (fold_left absorb (map (after_sum size hf mf) (seq 1 (size - 1))) (after_sum size hf mf 0)).

Lemma scatter_files size hf mf (rest : nat -> list (instr hstate payload)) : (1 <= size)%nat ->
  reach (mkConfig (fun r => if Nat.ltb r size
                            then if Nat.eqb r 0
                                 then flat_map (fun i => hsend A M (sync i (-1)) i (-1) (fun s => PFiles (h_files s) (h_mfiles s))) (seq 1 (size - 1)) ++ rest 0%nat
                                 else hrecv A M 0 (-1) (rcv_files A M) :: rest r
                            else rest r)
                  (fun r => if Nat.eqb r 0 then mkH hf mf None None false None else mkH [] [] None None false None) empty_net)
        (mkConfig rest (fun r => if Nat.ltb r size then mkH hf mf None None false None else mkH [] [] None None false None) empty_net).
Proof.
  intro Hs. eapply reach_trans; [apply (scatter (fun _ => -1) (fun _ s => PFiles (h_files s) (h_mfiles s)) (fun _ => rcv_files A M) (fun i => sync i (-1)) rest size)|].
  - reflexivity.
  - apply reach_eq. split; [|split]; intros; cbn [c_prog c_st c_net]; try reflexivity.
    destruct (Nat.ltb_spec r size), (Nat.ltb_spec 0 r), (Nat.eqb_spec r 0); cbn; try lia; reflexivity.
Qed.

Lemma parallel_reach size hf mf : (1 <= size)%nat -> List.length hf = List.length mf -> hf <> [] ->
  reach (parallel_start addA M0 addM loadh loadm sync size hf mf)
        (mkConfig (fun _ => [])
          (fun r => if Nat.ltb r size
                    then if Nat.eqb r 0 then rank0_final size hf mf else do_return RNone (after_sum size hf mf r)
                    else mkH [] [] None None false None) empty_net).
Proof.
  intros Hs Hl Hne. unfold parallel_start.
  set (br0 := fun s : hstate => match h_files s with
                 | [] => [ILocal (do_return RNoneNone)]
                 | _ => ILocal (do_local_sum addA M0 addM loadh loadm size 0) :: flat_map (gather_from A M addA addM) (seq 1 (size - 1)) ++ [ILocal do_return_sum] end).
  set (brw := fun (r : nat) (s : hstate) => match h_files s with
                 | [] => [ILocal (do_return RNoneNone)]
                 | _ => [ILocal (do_local_sum addA M0 addM loadh loadm size r); IBranch (give A M sync r); ILocal (do_return RNone)] end).
  set (rest1 := fun r => if Nat.leb 0 r && Nat.ltb r size then [IBranch (if Nat.eqb r 0 then br0 else brw r)] else []).
  (* rank 0 decides *)
  eapply reach_trans.
  { eapply (step_branch _ _ _ 0%nat _ []). replace (Nat.ltb 0 size) with true by (symmetry; apply Nat.ltb_lt; lia). reflexivity. }
  cbn [Nat.eqb h_files h_mfiles]. replace (Nat.eqb (List.length hf) (List.length mf)) with true by (symmetry; apply Nat.eqb_eq; exact Hl).
  cbn [negb]. rewrite app_nil_r.
  eapply reach_trans; [|eapply reach_trans; [apply (scatter_files size hf mf rest1 Hs)|]].
  { apply reach_eq. split; [|split]; intros; cbn [c_prog c_st c_net]; try reflexivity.
    unfold upd, rest1. destruct (Nat.eqb_spec 0 r) as [<-|].
    - destruct (Nat.ltb_spec 0 size); [|lia]. reflexivity.
    - destruct (Nat.ltb_spec r size); [|reflexivity]. destruct (Nat.eqb_spec r 0); [lia|].
      unfold parallel_prog. destruct (Nat.eqb_spec r 0); [lia|]. reflexivity. }
  (* all ranks see the list *)
  set (st1 := fun r => if Nat.ltb r size then mkH hf mf None None false None else mkH [] [] None None false None : hstate).
  eapply reach_trans; [apply (branch_all (fun r => if Nat.eqb r 0 then br0 else brw r) (fun _ => []))|].
  set (rest2 := fun r => if Nat.ltb r size
                         then if Nat.eqb r 0 then flat_map (gather_from A M addA addM) (seq 1 (size - 1)) ++ [ILocal do_return_sum]
                              else [IBranch (give A M sync r); ILocal (do_return RNone)] else []).
  eapply reach_trans with (mkConfig (fun r => if Nat.ltb r size then map ILocal [do_local_sum addA M0 addM loadh loadm size r] ++ rest2 r else rest2 r) st1 empty_net).
  { apply reach_eq. split; [|split]; intros; cbn [c_prog c_st c_net]; try reflexivity.
    unfold rest2, st1. cbn [Nat.leb andb]. destruct (Nat.ltb_spec r size); [|reflexivity]. rewrite app_nil_r.
    destruct (Nat.eqb_spec r 0) as [->|]; unfold br0, brw; cbn [h_files]; destruct hf; try congruence; reflexivity. }
  eapply reach_trans; [apply (locals_all (fun r => [do_local_sum addA M0 addM loadh loadm size r]) rest2 empty_net size st1)|].
  cbn [apply_all fold_left].
  set (st2 := fun r => if Nat.ltb r size then do_local_sum addA M0 addM loadh loadm size r (st1 r) else st1 r).
  (* workers branch on having data *)
  set (rest3 := fun r => if Nat.eqb r 0 then rest2 0%nat else if Nat.leb 1 r && Nat.ltb r size then [ILocal (do_return (RNone (A:=A) (M:=M)))] else [] : list (instr hstate payload)).
  eapply reach_trans with (mkConfig (fun r => if Nat.leb 1 r && Nat.ltb r size then IBranch (give A M sync r) :: rest3 r else rest3 r) st2 empty_net).
  { apply reach_eq. split; [|split]; intros; cbn [c_prog c_st c_net]; try reflexivity.
    unfold rest3, rest2. destruct (Nat.eqb_spec r 0) as [->|]; [reflexivity|].
    destruct (Nat.leb_spec 1 r); [|lia]. cbn [andb]. destruct (Nat.ltb_spec r size); reflexivity. }
  eapply reach_trans; [apply (branch_all (fun r => give A M sync r) rest3 st2 empty_net 1 size)|].
  set (rest4 := fun r => if Nat.ltb r size then map ILocal [if Nat.eqb r 0 then do_return_sum else do_return (RNone (A:=A) (M:=M))] ++ [] else [] : list (instr hstate payload)).
  eapply reach_trans; [|eapply reach_trans; [apply (gather_all rest4 size (size - 1) 1 st2); lia|]].
  { apply reach_eq. split; [|split]; intros; cbn [c_prog c_st c_net]; try reflexivity.
    unfold rest3, rest2, rest4. destruct (Nat.eqb_spec r 0) as [->|].
    - destruct (Nat.ltb_spec 0 size); [|lia]. reflexivity.
    - destruct (Nat.leb_spec 1 r); [|lia]. cbn [andb]. destruct (Nat.ltb_spec r size); reflexivity. }
  eapply reach_trans; [apply (locals_all (fun r => [if Nat.eqb r 0 then do_return_sum else do_return RNone]) (fun _ => []))|].
  apply reach_eq. split; [|split]; intros; cbn [c_prog c_st c_net]; try reflexivity.
  cbn [apply_all fold_left]. destruct (Nat.ltb_spec r size) as [Hr|Hr].
  - destruct (Nat.eqb_spec r 0) as [->|].
    + rewrite upd_same. unfold rank0_final. f_equal.
      assert (E0 : st2 0%nat = after_sum size hf mf 0).
      { unfold st2, st1, after_sum. destruct (Nat.ltb_spec 0 size); [reflexivity|lia]. }
      rewrite E0. f_equal. apply map_ext_in. intros q Hq. apply in_seq in Hq. unfold st2, st1, after_sum.
      destruct (Nat.ltb_spec q size); [reflexivity|lia].
    + rewrite upd_other by congruence. unfold st2, st1, after_sum. destruct (Nat.ltb_spec r size); [reflexivity|lia].
  - rewrite upd_other by lia. unfold st2, st1. destruct (Nat.ltb_spec r size); [lia|reflexivity].
Qed.

Lemma parallel_reach_empty size : (1 <= size)%nat ->
  reach (parallel_start addA M0 addM loadh loadm sync size [] [])
        (mkConfig (fun _ => []) (fun r => mkH [] [] None None false (if Nat.ltb r size then Some RNoneNone else None)) empty_net).
Proof.
  intros Hs. unfold parallel_start.
  set (br0 := fun s : hstate => match h_files s with
                 | [] => [ILocal (do_return RNoneNone)]
                 | _ => ILocal (do_local_sum addA M0 addM loadh loadm size 0) :: flat_map (gather_from A M addA addM) (seq 1 (size - 1)) ++ [ILocal do_return_sum] end).
  set (brw := fun (r : nat) (s : hstate) => match h_files s with
                 | [] => [ILocal (do_return RNoneNone)]
                 | _ => [ILocal (do_local_sum addA M0 addM loadh loadm size r); IBranch (give A M sync r); ILocal (do_return RNone)] end).
  set (rest1 := fun r => if Nat.leb 0 r && Nat.ltb r size then [IBranch (if Nat.eqb r 0 then br0 else brw r)] else []).
  eapply reach_trans.
  { eapply (step_branch _ _ _ 0%nat _ []). replace (Nat.ltb 0 size) with true by (symmetry; apply Nat.ltb_lt; lia). reflexivity. }
  cbn [Nat.eqb h_files h_mfiles List.length negb]. rewrite app_nil_r.
  eapply reach_trans; [|eapply reach_trans; [apply (scatter_files size [] [] rest1 Hs)|]].
  { apply reach_eq. split; [|split]; intros; cbn [c_prog c_st c_net]; try reflexivity.
    unfold upd, rest1. destruct (Nat.eqb_spec 0 r) as [<-|].
    - destruct (Nat.ltb_spec 0 size); [|lia]. reflexivity.
    - destruct (Nat.ltb_spec r size); [|reflexivity]. destruct (Nat.eqb_spec r 0); [lia|].
      unfold parallel_prog. destruct (Nat.eqb_spec r 0); [lia|]. reflexivity. }
  eapply reach_trans; [apply (branch_all (fun r => if Nat.eqb r 0 then br0 else brw r) (fun _ => []))|].
  eapply reach_trans; [|eapply reach_trans; [apply (locals_all (fun _ => [do_return RNoneNone]) (fun _ => []) empty_net size)|]].
  - apply reach_eq. split; [|split]; intros; cbn [c_prog c_st c_net]; try reflexivity.
    cbn [Nat.leb andb]. destruct (Nat.ltb_spec r size); [|reflexivity]. destruct (Nat.eqb_spec r 0); unfold br0, brw; reflexivity.
  - apply reach_eq. split; [|split]; intros; cbn [c_prog c_st c_net]; try reflexivity.
    cbn [apply_all fold_left]. destruct (Nat.ltb_spec r size); reflexivity.
Qed.

(* the assertion on rank 0 fails: rank 0 stops at once, nobody else ever moves *)
Lemma assert_hangs size hf mf : List.length hf <> List.length mf ->
  forall s c, run s (parallel_start addA M0 addM loadh loadm sync size hf mf) = Some c ->
  (forall a b t, c_net c a b t = []) /\ (forall r, (1 <= r < size)%nat -> c_prog c r = parallel_prog addA M0 addM loadh loadm sync size r) /\
  (c_prog c 0%nat = [] \/ c_prog c 0%nat = parallel_prog addA M0 addM loadh loadm sync size 0 \/ c_prog c 0%nat = [ILocal (do_return RAssert)]) /\
  (h_files (c_st c 0%nat) = hf /\ h_mfiles (c_st c 0%nat) = mf) /\ (forall r, (size <= r)%nat -> c_prog c r = []).
Proof.
  intros Hne s.
  assert (G : forall s c0 c,
     ((forall a b t, c_net c0 a b t = []) /\ (forall r, (1 <= r < size)%nat -> c_prog c0 r = parallel_prog addA M0 addM loadh loadm sync size r) /\
     (c_prog c0 0%nat = [] \/ c_prog c0 0%nat = parallel_prog addA M0 addM loadh loadm sync size 0 \/ c_prog c0 0%nat = [ILocal (do_return RAssert)]) /\
     (h_files (c_st c0 0%nat) = hf /\ h_mfiles (c_st c0 0%nat) = mf) /\ (forall r, (size <= r)%nat -> c_prog c0 r = [])) ->
     run s c0 = Some c ->
     (forall a b t, c_net c a b t = []) /\ (forall r, (1 <= r < size)%nat -> c_prog c r = parallel_prog addA M0 addM loadh loadm sync size r) /\
     (c_prog c 0%nat = [] \/ c_prog c 0%nat = parallel_prog addA M0 addM loadh loadm sync size 0 \/ c_prog c 0%nat = [ILocal (do_return RAssert)]) /\
     (h_files (c_st c 0%nat) = hf /\ h_mfiles (c_st c 0%nat) = mf) /\ (forall r, (size <= r)%nat -> c_prog c r = [])).
  { clear s. induction s as [|q s IH]; intros c0 c (N & P & P0 & (F1 & F2) & O) R.
    - injection R as <-. auto 10.
    - cbn in R. destruct (exec q c0) as [c1|] eqn:E; [|discriminate]. apply (IH c1 c); [|exact R]. clear IH R.
      destruct (Nat.eq_dec q 0) as [->|Hq].
      + unfold exec in E. destruct P0 as [P0|[P0|P0]]; rewrite P0 in E; [discriminate| |].
        * unfold parallel_prog in E. cbn [Nat.eqb] in E. injection E as <-.
          rewrite F1, F2. replace (Nat.eqb (List.length hf) (List.length mf)) with false by (symmetry; apply Nat.eqb_neq; exact Hne).
          cbn [negb app]. cbn [c_prog c_st c_net]. split; [exact N|]. split; [intros r Hr; rewrite upd_other by lia; apply P; exact Hr|].
          split; [right; right; apply upd_same|]. split; [auto|]. intros r Hr. destruct (Nat.eq_dec r 0) as [->|].
          -- rewrite upd_same. rewrite (O 0%nat Hr) in P0. discriminate.
          -- rewrite upd_other by lia. apply O. exact Hr.
        * injection E as <-. cbn [c_prog c_st c_net]. split; [exact N|]. split; [intros r Hr; rewrite upd_other by lia; apply P; exact Hr|].
          split; [left; apply upd_same|]. split; [rewrite upd_same; cbn; auto|]. intros r Hr. destruct (Nat.eq_dec r 0) as [->|].
          -- apply upd_same.
          -- rewrite upd_other by lia. apply O. exact Hr.
      + exfalso. unfold exec in E. destruct (Nat.ltb_spec q size).
        * rewrite P in E by lia. unfold parallel_prog in E. destruct (Nat.eqb_spec q 0); [lia|]. unfold hrecv in E. rewrite N in E. discriminate.
        * rewrite O in E by lia. discriminate. }
  intro c. apply G. unfold parallel_start. cbn [c_prog c_st c_net]. split; [reflexivity|].
  split; [intros r Hr; destruct (Nat.ltb_spec r size); [reflexivity|lia]|].
  split; [destruct (Nat.ltb_spec 0 size); auto|]. split; [split; reflexivity|].
  intros r Hr. destruct (Nat.ltb_spec r size); [lia|reflexivity].
Qed.

(** ** Sums *)
Hypothesis addA_assoc : forall x y z, addA x (addA y z) = addA (addA x y) z.
Hypothesis addM_assoc : forall x y z, addM x (addM y z) = addM (addM x y) z.
Hypothesis addM_0 : forall x, addM M0 x = x.

Notation addH := (addH A addA).
Lemma addH_assoc x y z : addH x (addH y z) = addH (addH x y) z.
Proof. unfold HistModel.addH. cbn. rewrite !addA_assoc. reflexivity. Qed.

Lemma fold_addH fs : forall a b, fold_left (fun h f => addH h (loadh f)) fs (addH a b) = addH a (fold_left (fun h f => addH h (loadh f)) fs b).
Proof. induction fs as [|f fs IH]; intros a b; cbn; [reflexivity|]. rewrite <- addH_assoc. apply IH. Qed.
Lemma fold_addM ms : forall a b, fold_left addM ms (addM a b) = addM a (fold_left addM ms b).
Proof. induction ms as [|m ms IH]; intros a b; cbn; [reflexivity|]. rewrite <- addM_assoc. apply IH. Qed.

Lemma sum_files_app fs gs h : sum_files addA loadh fs = Some h ->
  sum_files addA loadh (fs ++ gs) = Some (match sum_files addA loadh gs with Some k => addH h k | None => h end).
Proof.
  destruct fs as [|f fs]; [discriminate|]. cbn. intro E. injection E as <-. rewrite fold_left_app. f_equal.
  destruct gs as [|g gs]; [reflexivity|]. cbn. rewrite fold_addH. reflexivity.
Qed.
Lemma sum_mcs_app fs gs : fs <> [] -> gs <> [] ->
  sum_mcs M0 addM loadm (fs ++ gs) = addM (sum_mcs M0 addM loadm fs) (sum_mcs M0 addM loadm gs).
Proof.
  intros _ Hg. unfold sum_mcs. rewrite map_app, fold_left_app. destruct gs as [|g gs]; [congruence|]. cbn.
  rewrite addM_0, <- fold_addM. reflexivity.
Qed.

(* sum on rank 0 after absorbing ranks 1..k *)
Lemma absorb_fold size hf mf : (1 <= size)%nat -> List.length hf = List.length mf -> hf <> [] -> forall k,
  let s := fold_left absorb (map (after_sum size hf mf) (seq 1 k)) (after_sum size hf mf 0) in
  h_h1 s = sum_files addA loadh (firstn (npernode size (List.length hf) * S k) hf) /\
  h_mcs s = Some (sum_mcs M0 addM loadm (firstn (npernode size (List.length hf) * S k) mf)).
Proof.
  intros Hs Hl Hne. set (N := List.length hf) in *.
  assert (Hnp : (1 <= npernode size N)%nat) by (unfold npernode; rewrite Nat.add_comm; apply le_n_S, Nat.le_0_l).
  assert (Hpre : forall k (l : list string), l <> [] -> firstn (npernode size N * S k) l <> []).
  { intros k l Hl0. destruct l; [congruence|]. destruct (npernode size N * S k)%nat eqn:E; [rewrite Nat.mul_succ_r in E; lia|]. discriminate. }
  assert (Hmf : mf <> []) by (intro; subst; destruct hf; [congruence|discriminate]).
  assert (Hsum : forall l, l <> [] -> exists h, sum_files addA loadh l = Some h).
  { intros [|x l] H; [congruence|]. cbn. eauto. }
  induction k as [|k IH]; cbn zeta.
  - cbn [seq map fold_left]. unfold after_sum, do_local_sum. cbn [h_files h_mfiles]. fold N.
    assert (E : forall l, my_slice size 0 N l = firstn (npernode size N * 1) l) by (intro l; unfold my_slice; rewrite Nat.mul_0_r, Nat.mul_1_r; reflexivity).
    rewrite !E. destruct (Hsum _ (Hpre 0%nat hf Hne)) as [h Eh]. rewrite Eh. cbn. auto.
  - rewrite seq_S, map_app, fold_left_app. cbn [map fold_left]. cbn zeta in IH.
    set (s := fold_left absorb (map (after_sum size hf mf) (seq 1 k)) (after_sum size hf mf 0)) in *. destruct IH as [I1 I2].
    rewrite (firstn_slice size N hf (S k)), (firstn_slice size N mf (S k)).
    destruct (Hsum _ (Hpre k hf Hne)) as [[hi he] Eh]. rewrite Eh in I1.
    rewrite (sum_files_app _ _ _ Eh).
    unfold absorb, after_sum, do_local_sum. cbn [h_files h_mfiles Nat.add]. fold N.
    destruct (sum_files addA loadh (my_slice size (S k) N hf)) as [[i e]|] eqn:Es.
    + cbn [h_h1 h_mcs pay_I pay_E2 pay_mcs]. unfold rcv_mcs, rcv_E2, rcv_I, rcv_has. cbn [h_h1 h_mcs]. rewrite I1. cbn [h_h1 h_mcs]. rewrite I2. cbn [h_h1 h_mcs].
      split; [reflexivity|]. f_equal. symmetry. apply sum_mcs_app; [apply Hpre; exact Hmf|].
      intro X. apply (my_slice_nil_iff size (S k) N hf mf Hl) in X. rewrite X in Es. discriminate.
    + cbn [h_h1 h_mcs]. unfold rcv_has. cbn [h_h1 h_mcs]. rewrite I1, I2.
      assert (X : my_slice size (S k) N hf = []) by (destruct (my_slice size (S k) N hf); [reflexivity|discriminate]).
      apply (my_slice_nil_iff size (S k) N hf mf Hl) in X. rewrite X, app_nil_r. auto.
Qed.

Lemma rank0_final_sum size hf mf : (1 <= size)%nat -> List.length hf = List.length mf -> hf <> [] ->
  h_ret (rank0_final size hf mf) = Some (hist_mcs_sum addA M0 addM loadh loadm hf mf).
Proof.
  intros Hs Hl Hne. unfold rank0_final. destruct (absorb_fold size hf mf Hs Hl Hne (size - 1)) as [E1 E2].
  cbn zeta in E1, E2. replace (S (size - 1)) with size in E1, E2 by lia.
  rewrite firstn_all2 in E1 by (apply npernode_covers; exact Hs).
  rewrite firstn_all2 in E2 by (rewrite <- Hl; apply npernode_covers; exact Hs).
  unfold do_return_sum. rewrite E1, E2. unfold hist_mcs_sum.
  replace (Nat.eqb (List.length hf) (List.length mf)) with true by (symmetry; apply Nat.eqb_eq; exact Hl). cbn [negb].
  destruct hf as [|f hf]; [congruence|]. reflexivity.
Qed.
End HistProofs.
