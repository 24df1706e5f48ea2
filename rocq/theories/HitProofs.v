(** C59: the element met first. *)
From Coq Require Import Reals Lra Lia Sorted Permutation.
From Verif Require Import Base RotModel RotSpec ChanModel ChanProofs ShapeModel ShapeSpec ShapeProofs ShapeProofs2 ShapeProofs3 ScatSpec HitModel HitSpec.
Open Scope R_scope.

(** ** Sorted lists *)

Lemma perm_sorted_eq (l l' : list R) : StronglySorted Rle l -> StronglySorted Rle l' -> Permutation l l' -> l = l'.
Proof.
  revert l'. induction l as [|x l IH]; intros l' S1 S2 P.
  - apply Permutation_nil in P. now subst.
  - destruct l' as [|y l']; [apply Permutation_sym, Permutation_nil in P; discriminate|].
    inversion S1 as [|? ? S1' F1]; subst. inversion S2 as [|? ? S2' F2]; subst.
    assert (x = y).
    { apply Rle_antisym.
      - assert (In y (x :: l)) as [->|I] by (apply (Permutation_in _ (Permutation_sym P)); now left); [lra|]. rewrite Forall_forall in F1. now apply F1.
      - assert (In x (y :: l')) as [->|I] by (apply (Permutation_in _ P); now left); [lra|]. rewrite Forall_forall in F2. now apply F2. }
    subst y. f_equal. apply IH; [assumption|assumption|]. now apply Permutation_cons_inv in P.
Qed.

(** ** Intervals that know the element they belong to *)

Notation tiv := (nat * (R * R))%type.
Definition lo (x : tiv) : R := fst (snd x).
Definition hi (x : tiv) : R := snd (snd x).
Definition before (x y : tiv) : Prop := hi x <= lo y.
Fixpoint tag (k : nat) (l : list (list (R * R))) : list tiv :=
  match l with [] => [] | ivs :: l' => map (pair k) ivs ++ tag (S k) l' end.
Definition tends (ts : list tiv) : list R := flat_map (fun x => [lo x; hi x]) ts.

Lemma tag_in l : forall k i a b, In (i, (a, b)) (tag k l) <-> exists ivs, (k <= i)%nat /\ nth_error l (i - k) = Some ivs /\ In (a, b) ivs.
Proof.
  induction l as [|ivs l IH]; intros k i a b; cbn [tag].
  - split; [intros []|]. intros (ivs & _ & H & _). now destruct (i - k)%nat.
  - rewrite in_app_iff, in_map_iff, IH. split.
    + intros [((a' & b') & E & I)|(ivs' & L & N & I)].
      * injection E as -> -> ->. exists ivs. split; [lia|]. replace (i - i)%nat with 0%nat by lia. auto.
      * exists ivs'. split; [lia|]. replace (i - k)%nat with (S (i - S k)) by lia. auto.
    + intros (ivs' & L & N & I). destruct (Nat.eq_dec i k) as [->|D].
      * left. exists (a, b). split; [reflexivity|]. replace (k - k)%nat with 0%nat in N by lia. cbn in N. congruence.
      * right. exists ivs'. split; [lia|]. replace (i - k)%nat with (S (i - S k)) in N by lia. auto.
Qed.
Lemma tends_app a b : tends (a ++ b) = tends a ++ tends b.
Proof. unfold tends. apply flat_map_app. Qed.
Lemma tends_tag l : forall k, tends (tag k l) = flat_map ends l.
Proof.
  induction l as [|ivs l IH]; intros k; [reflexivity|]. cbn [tag flat_map]. rewrite tends_app, IH. f_equal.
  induction ivs as [|[a b] ivs IH2]; [reflexivity|]. change (tends (map (pair k) ((a, b) :: ivs))) with (a :: b :: tends (map (pair k) ivs)). now rewrite IH2.
Qed.

Lemma fop_app {A} (P : A -> A -> Prop) l l' : ForallOrdPairs P l -> ForallOrdPairs P l' -> (forall x y, In x l -> In y l' -> P x y) -> ForallOrdPairs P (l ++ l').
Proof.
  induction 1 as [|x l F H IH]; intros H' C; [exact H'|]. cbn. constructor.
  - rewrite Forall_app. split; [exact F|]. rewrite Forall_forall. intros y Y. apply C; [now left|exact Y].
  - apply IH; [exact H'|]. intros. apply C; [now right|assumption].
Qed.
Lemma disjoint_before (a b c d : R) : a < b -> c < d -> (forall t, a < t < b -> c < t < d -> False) -> b <= c \/ d <= a.
Proof.
  intros A B D. destruct (Rle_lt_dec b c) as [L|L]; [now left|]. destruct (Rle_lt_dec d a) as [K|K]; [now right|]. exfalso.
  apply (D ((Rmax a c + Rmin b d) / 2)); unfold Rmax, Rmin; destruct (Rle_dec a c), (Rle_dec b d); lra.
Qed.

(** Sorting by the relation. *)
Fixpoint tinsert (x : tiv) (l : list tiv) : list tiv :=
  match l with [] => [x] | y :: l' => if Rle_dec (hi x) (lo y) then x :: l else y :: tinsert x l' end.
Lemma tinsert_perm x l : Permutation (tinsert x l) (x :: l).
Proof. induction l as [|y l IH]; cbn; [reflexivity|]. destruct (Rle_dec _ _); [reflexivity|]. rewrite IH. apply perm_swap. Qed.
Lemma tinsert_sorted x l : lo x < hi x -> Forall (fun y => lo y < hi y) l -> Forall (fun y => before x y \/ before y x) l ->
  StronglySorted before l -> StronglySorted before (tinsert x l).
Proof.
  intros X. induction l as [|y l IH]; intros W C S1; cbn; [repeat constructor|].
  inversion W as [|? ? W1 W2]; subst. inversion C as [|? ? C1 C2]; subst. inversion S1 as [|? ? S2 F]; subst.
  destruct (Rle_dec (hi x) (lo y)) as [L|L].
  - constructor; [exact S1|]. constructor; [exact L|]. rewrite Forall_forall in F |- *. intros z Z. specialize (F z Z). unfold before in *. lra.
  - constructor; [now apply IH|]. rewrite Forall_forall in F |- *. intros z Z. apply (Permutation_in _ (tinsert_perm x l)) in Z. destruct Z as [<-|Z]; [|now apply F].
    destruct C1 as [K|K]; [contradiction|exact K].
Qed.
Lemma tsort (l : list tiv) : Forall (fun y => lo y < hi y) l -> ForallOrdPairs (fun x y => before x y \/ before y x) l ->
  exists ts, Permutation l ts /\ StronglySorted before ts.
Proof.
  induction l as [|x l IH]; intros W P; [exists []; split; constructor|].
  inversion W as [|? ? W1 W2]; subst. inversion P as [|? ? P1 P2]; subst.
  destruct (IH W2 P2) as (ts & E & S1). exists (tinsert x ts). split.
  - rewrite tinsert_perm. now constructor.
  - apply tinsert_sorted; [exact W1| | |exact S1].
    + rewrite Forall_forall in W2 |- *. intros y Y. apply W2. now apply (Permutation_in _ (Permutation_sym E)).
    + rewrite Forall_forall in P1 |- *. intros y Y. apply P1. now apply (Permutation_in _ (Permutation_sym E)).
Qed.
Lemma tends_perm l l' : Permutation l l' -> Permutation (tends l) (tends l').
Proof. intros P. unfold tends. now apply Permutation_flat_map. Qed.
Lemma tends_bound x ts : Forall (before x) ts -> Forall (fun y => lo y < hi y) ts -> Forall (Rle (hi x)) (tends ts).
Proof.
  induction ts as [|y ts IH]; intros F W; [constructor|]. inversion F as [|? ? F1 F2]; subst. inversion W as [|? ? W1 W2]; subst. unfold before in F1.
  cbn. constructor; [exact F1|]. constructor; [lra|]. now apply IH.
Qed.
Lemma tends_sorted ts : Forall (fun y => lo y < hi y) ts -> StronglySorted before ts -> StronglySorted Rle (tends ts).
Proof.
  induction ts as [|x ts IH]; intros W S1; [constructor|]. inversion W as [|? ? W1 W2]; subst. inversion S1 as [|? ? S2 F]; subst.
  pose proof (tends_bound x ts F W2) as B. specialize (IH W2 S2). cbn. constructor; [constructor; [exact IH|exact B]|].
  constructor; [lra|]. rewrite Forall_forall in B |- *. intros z Z. specialize (B z Z). lra.
Qed.

(** ** The search *)

Lemma find_from_none tol p l : forall k, Forall (fun s => locate tol s p <> Inside) l -> find_from tol p l k = None.
Proof.
  induction l as [|s l IH]; intros k F; [reflexivity|]. inversion F as [|? ? F1 F2]; subst. cbn. destruct (locate tol s p); [contradiction| |]; cbn; now apply IH.
Qed.
Lemma find_from_one tol p l : forall k i s, nth_error l i = Some s -> locate tol s p = Inside -> (forall j s', nth_error l j = Some s' -> j <> i -> locate tol s' p <> Inside) ->
  find_from tol p l k = Some (k + i)%nat.
Proof.
  induction l as [|s0 l IH]; intros k i s N I O1; [now destruct i|]. destruct i as [|i].
  - cbn in N. injection N as ->. cbn. rewrite I. cbn. f_equal. lia.
  - cbn in N. cbn. pose proof (O1 0%nat s0 eq_refl ltac:(lia)) as D. destruct (locate tol s0 p); [contradiction| |]; cbn;
      rewrite (IH (S k) i s N I); try (f_equal; lia); intros j s' N' J; apply (O1 (S j) s' N'); lia.
Qed.

Section Search.
Context (tol : R) (shapes : list shape) (r v : vec3) (ts : list tiv).
Hypothesis Ht : 0 < tol.
Hypothesis WF : Forall wf shapes.
Hypothesis WI : Forall (fun y => lo y < hi y) ts.
Hypothesis SO : StronglySorted before ts.
Hypothesis CORE : forall i s t, nth_error shapes i = Some s -> (core s (on_line r v t) <-> exists a b, In (i, (a, b)) ts /\ a < t < b).
Hypothesis THICK : forall i a b, In (i, (a, b)) ts -> exists s, nth_error shapes i = Some s /\ (0 < b -> locate tol s (on_line r v ((Rmax a 0 + b) / 2)) = Inside).
Hypothesis ENDS : forall i a b s, In (i, (a, b)) ts -> nth_error shapes i = Some s -> border s (on_line r v a) /\ border s (on_line r v b).

Let point (t : R) : vec3 := arrow_at r v t.

Lemma sorted_unique x y t : In x ts -> In y ts -> lo x < t < hi x -> lo y < t < hi y -> x = y.
Proof using SO WI.
  clear - SO WI. induction SO as [|z l S1 IH F]; [intros []|]. inversion WI as [|? ? W1 W2]; subst.
  rewrite Forall_forall in F. intros [<-|X] [<-|Y] A B; [reflexivity| | |now apply IH].
  - specialize (F _ Y). unfold before in F. lra.
  - specialize (F _ X). unfold before in F. lra.
Qed.

Lemma at_none t : (forall x, In x ts -> ~ lo x < t < hi x) -> find_shape_containing_point tol (point t) shapes = None.
Proof using Ht WF CORE.
  intros N. apply find_from_none. rewrite Forall_forall. intros s S1 L. unfold point in L. rewrite arrow_line in L.
  rewrite Forall_forall in WF. destruct (locate_right tol s (on_line r v t) (WF s S1) Ht) as (A & _). destruct (A L) as (C & _).
  apply In_nth_error in S1. destruct S1 as (i & S1). apply (CORE i s t S1) in C. destruct C as (a & b & I & B). exact (N _ I B).
Qed.
Lemma at_one x t : In x ts -> lo x < t < hi x -> (0 < hi x) -> t = (Rmax (lo x) 0 + hi x) / 2 ->
  find_shape_containing_point tol (point t) shapes = Some (fst x).
Proof using Ht WF CORE THICK SO WI.
  destruct x as (i & a & b). intros I B P E. destruct (THICK i a b I) as (s & S1 & L). specialize (L P).
  apply (find_from_one tol (point t) shapes 0 i s S1).
  - unfold point. rewrite arrow_line, E. exact L.
  - intros j s' S2 D L'. apply D. unfold point in L'. rewrite arrow_line in L'. pose proof (nth_error_In _ _ S2) as I2. rewrite Forall_forall in WF.
    destruct (locate_right tol s' (on_line r v t) (WF s' I2) Ht) as (A & _). destruct (A L') as (C & _). apply (CORE j s' t S2) in C.
    destruct C as (a' & b' & I' & B'). pose proof (sorted_unique (i, (a, b)) (j, (a', b')) t I I' B B') as Q. congruence.
Qed.

(** what lies ahead *)
Definition upcoming : option tiv := List.find (fun x => if Rlt_dec 0 (hi x) then true else false) ts.
Definition forward (l : list R) : list R := filter (fun t => negb (Rltb t 0)) l.

Lemma forward_all l : Forall (Rle 0) l -> forward l = l.
Proof using.
  induction 1 as [|x l X F IH]; [reflexivity|]. unfold forward in *. cbn. rewrite (proj2 (Rltb_f x 0)) by lra. cbn. now rewrite IH.
Qed.

Let off := forall x, In x ts -> lo x <> 0 /\ hi x <> 0.

Lemma tends_even l : Nat.odd (List.length (tends l)) = false.
Proof using. induction l as [|x l IH]; [reflexivity|]. cbn. exact IH. Qed.

(** the quick answer, for a start off the surfaces *)
Definition quick (l : list R) : option nat :=
  match l with
  | [] => None
  | d0 :: rest => if Nat.odd (List.length l) then find_shape_containing_point tol (point (d0 / 2)) shapes
                  else match rest with d1 :: _ => find_shape_containing_point tol (point ((d0 + d1) / 2)) shapes | [] => None end
  end.

Lemma quick_right done l : ts = done ++ l -> Forall (fun x => hi x <= 0) done -> off -> StronglySorted before l -> Forall (fun y => lo y < hi y) l ->
  quick (forward (tends l)) = option_map fst (List.find (fun x => if Rlt_dec 0 (hi x) then true else false) l).
Proof using Ht WF CORE THICK SO WI.
  revert done. induction l as [|x l IH]; intros done E D OFF S1 W1; [reflexivity|].
  destruct (StronglySorted_inv S1) as (S2 & F). pose proof (Forall_inv W1) as W2. pose proof (Forall_inv_tail W1) as W3. cbn beta in W2.
  assert (IX : In x ts) by (rewrite E, in_app_iff; right; now left). destruct (OFF x IX) as (O1 & O2).
  pose proof (tends_bound x l F W3) as TB. cbn [tends flat_map List.find].
  destruct (Rlt_dec 0 (hi x)) as [P|P].
  - assert (TA : forward (tends l) = tends l) by (apply forward_all; rewrite Forall_forall in TB |- *; intros z Z; specialize (TB z Z); lra).
    destruct (Rlt_dec (lo x) 0) as [Q|Q].
    + replace (forward ([lo x; hi x] ++ flat_map (fun x0 => [lo x0; hi x0]) l)) with (hi x :: tends l).
      2:{ unfold forward, tends in *. cbn. rewrite (proj2 (Rltb_t _ _)) by lra. rewrite (proj2 (Rltb_f _ _)) by lra. cbn. now rewrite TA. }
      cbn [quick List.length]. rewrite Nat.odd_succ, <- Nat.negb_odd, tends_even. cbn [negb option_map].
      apply at_one; [exact IX|lra|exact P|]. rewrite Rmax_right by lra. lra.
    + replace (forward ([lo x; hi x] ++ flat_map (fun x0 => [lo x0; hi x0]) l)) with (lo x :: hi x :: tends l).
      2:{ unfold forward, tends in *. cbn. rewrite (proj2 (Rltb_f _ _)) by lra. rewrite (proj2 (Rltb_f _ _)) by lra. cbn. now rewrite TA. }
      cbn [quick List.length]. rewrite Nat.odd_succ, Nat.even_succ, tends_even. cbn [negb option_map].
      apply at_one; [exact IX|lra|exact P|]. rewrite Rmax_left by lra. lra.
  - replace (forward ([lo x; hi x] ++ flat_map (fun x0 => [lo x0; hi x0]) l)) with (forward (tends l)).
    2:{ unfold forward, tends in *. cbn. rewrite (proj2 (Rltb_t _ _)) by lra. rewrite (proj2 (Rltb_t _ _)) by lra. reflexivity. }
    apply (IH (done ++ [x])); [now rewrite <- app_assoc| |exact OFF|exact S2|exact W3].
    rewrite Forall_app. split; [exact D|]. constructor; [lra|constructor].
Qed.

(** the loop *)
Lemma loop_right done l : ts = done ++ l -> Forall (fun x => hi x <= 0) done -> StronglySorted before l -> Forall (fun y => lo y < hi y) l ->
  first_inside tol r v shapes 0 (forward (tends l)) = option_map fst (List.find (fun x => if Rlt_dec 0 (hi x) then true else false) l).
Proof using Ht WF CORE THICK SO WI.
  revert done. induction l as [|x l IH]; intros done E D S1 W1; [reflexivity|].
  destruct (StronglySorted_inv S1) as (S2 & F). pose proof (Forall_inv W1) as W2. pose proof (Forall_inv_tail W1) as W3. cbn beta in W2.
  assert (IX : In x ts) by (rewrite E, in_app_iff; right; now left).
  pose proof (tends_bound x l F W3) as TB. cbn [tends flat_map List.find].
  assert (OUT : forall t, 0 <= t <= lo x \/ (t = 0 /\ hi x = 0) -> find_shape_containing_point tol (arrow_at r v t) shapes = None).
  { intros t T. apply at_none. intros y Y. rewrite E, in_app_iff in Y. destruct Y as [Y|[<-|Y]].
    - rewrite Forall_forall in D. specialize (D y Y). lra.
    - lra.
    - rewrite Forall_forall in F. specialize (F y Y). unfold before in F. lra. }
  destruct (Rlt_dec 0 (hi x)) as [P|P].
  - assert (TA : forward (tends l) = tends l) by (apply forward_all; rewrite Forall_forall in TB |- *; intros z Z; specialize (TB z Z); lra).
    destruct (Rlt_dec (lo x) 0) as [Q|Q].
    + replace (forward ([lo x; hi x] ++ flat_map (fun x0 => [lo x0; hi x0]) l)) with (hi x :: tends l).
      2:{ unfold forward, tends in *. cbn. rewrite (proj2 (Rltb_t _ _)) by lra. rewrite (proj2 (Rltb_f _ _)) by lra. cbn. now rewrite TA. }
      cbn [first_inside]. pose proof (at_one x ((0 + hi x) / 2) IX ltac:(lra) P) as K. unfold point in K. rewrite K; [reflexivity|]. rewrite Rmax_right by lra. lra.
    + replace (forward ([lo x; hi x] ++ flat_map (fun x0 => [lo x0; hi x0]) l)) with (lo x :: hi x :: tends l).
      2:{ unfold forward, tends in *. cbn. rewrite (proj2 (Rltb_f _ _)) by lra. rewrite (proj2 (Rltb_f _ _)) by lra. cbn. now rewrite TA. }
      cbn [first_inside]. rewrite OUT by lra. pose proof (at_one x ((lo x + hi x) / 2) IX ltac:(lra) P) as K. unfold point in K. rewrite K; [reflexivity|].
      rewrite Rmax_left by lra. lra.
  - assert (REST : first_inside tol r v shapes 0 (forward (tends l)) = option_map fst (List.find (fun x0 => if Rlt_dec 0 (hi x0) then true else false) l)).
    { apply (IH (done ++ [x])); [now rewrite <- app_assoc| |exact S2|exact W3]. rewrite Forall_app. split; [exact D|]. constructor; [lra|constructor]. }
    destruct (Rlt_dec (hi x) 0) as [Q|Q].
    + replace (forward ([lo x; hi x] ++ flat_map (fun x0 => [lo x0; hi x0]) l)) with (forward (tends l)); [exact REST|].
      unfold forward, tends in *. cbn. rewrite (proj2 (Rltb_t _ _)) by lra. rewrite (proj2 (Rltb_t _ _)) by lra. reflexivity.
    + replace (forward ([lo x; hi x] ++ flat_map (fun x0 => [lo x0; hi x0]) l)) with (hi x :: forward (tends l)).
      2:{ unfold forward, tends in *. cbn. rewrite (proj2 (Rltb_t _ _)) by lra. rewrite (proj2 (Rltb_f _ _)) by lra. reflexivity. }
      cbn [first_inside]. rewrite OUT by lra. replace (hi x) with 0 by lra. exact REST.
Qed.

Lemma start_on : existsb (fun s => loc_eqb (locate tol s r) Onborder) shapes = false -> off.
Proof using Ht WF THICK ENDS CORE.
  intros E (i & a & b) I. cbn. rewrite <- not_true_iff_false, existsb_exists in E.
  destruct (THICK i a b I) as (s & S1 & _). destruct (ENDS i a b s I S1) as (B1 & B2). pose proof (nth_error_In _ _ S1) as I1. rewrite Forall_forall in WF.
  assert (Z : on_line r v 0 = r) by (destruct r; unfold on_line; cbn; f_equal; ring).
  split; intros Q; apply E; exists s; (split; [exact I1|]); subst; cbn [fst snd lo hi] in *; rewrite Z in *;
    destruct (locate_right tol s r (WF s I1) Ht) as (_ & _ & L); rewrite L by assumption; reflexivity.
Qed.

Lemma hit_is : forward_intersect tol (Union shapes) r v = forward (tends ts) -> find_1st_hit tol r v shapes = option_map fst upcoming.
Proof using Ht WF CORE THICK SO WI ENDS.
  intros E. unfold find_1st_hit. rewrite E. unfold upcoming.
  pose proof (loop_right [] ts eq_refl ltac:(constructor) SO WI) as LR.
  destruct (existsb (fun s => loc_eqb (locate tol s r) Onborder) shapes) eqn:B; cbn [negb].
  - rewrite LR. destruct (forward (tends ts)) as [|d0 rest] eqn:FE; [cbn in LR; exact LR|].
    destruct (Nat.odd (List.length (d0 :: rest))) eqn:OD; [reflexivity|]. destruct rest; [discriminate OD|reflexivity].
  - pose proof (quick_right [] ts eq_refl ltac:(constructor) (start_on B) SO WI) as QR. rewrite <- QR. unfold quick, point.
    destruct (forward (tends ts)) as [|d0 rest]; [reflexivity|]. destruct (Nat.odd (List.length (d0 :: rest))); [reflexivity|]. destruct rest; reflexivity.
Qed.

Lemma upcoming_spec : match upcoming with
  | Some x => In x ts /\ 0 < hi x /\ forall y, In y ts -> 0 < hi y -> y = x \/ hi x <= lo y
  | None => forall y, In y ts -> hi y <= 0 end.
Proof using SO WI.
  clear - SO WI. unfold upcoming. induction SO as [|z l S1 IH F]; [intros y []|]. inversion WI as [|? ? W1 W2]; subst. cbn [List.find]. destruct (Rlt_dec 0 (hi z)) as [P|P]; cbn iota.
  - split; [now left|]. split; [exact P|]. intros y [<-|Y] Q; [now left|]. right. rewrite Forall_forall in F. exact (F y Y).
  - specialize (IH W2 S1). destruct (List.find _ l) as [x|].
    + destruct IH as (A & B & C). split; [now right|]. split; [exact B|]. intros y [<-|Y] Q; [lra|]. now apply C.
    + intros y [<-|Y]; [lra|]. now apply IH.
Qed.

Lemma hit_right : forward_intersect tol (Union shapes) r v = forward (tends ts) ->
  match find_1st_hit tol r v shapes with Some i => first_met shapes r v i | None => none_met shapes r v end.
Proof using Ht WF CORE THICK SO WI ENDS.
  intros E. rewrite (hit_is E). pose proof upcoming_spec as U. destruct upcoming as [[i [a b]]|]; cbn [option_map fst].
  - destruct U as (I & P & N). cbn [hi lo fst snd] in *. destruct (THICK i a b I) as (s & S1 & _). exists s, (Rmax a 0), b.
    pose proof (Rmax_l a 0). pose proof (Rmax_r a 0). rewrite Forall_forall in WI. pose proof (WI _ I) as W. cbn in W.
    split; [exact S1|]. split; [unfold Rmax in *; destruct (Rle_dec a 0); lra|]. split.
    + intros t T. apply (CORE i s t S1). exists a, b. split; [exact I|lra].
    + intros s' t S2 T C. apply In_nth_error in S2. destruct S2 as (j & S2). apply (CORE j s' t S2) in C. destruct C as (a' & b' & I' & T').
      destruct (N _ I' ltac:(cbn; lra)) as [K|K].
      * injection K as -> -> ->. unfold Rmax in T. destruct (Rle_dec a 0); lra.
      * cbn in K. unfold Rmax in T; destruct (Rle_dec a 0); lra.
  - intros s t S2 T C. apply In_nth_error in S2. destruct S2 as (j & S2). apply (CORE j s t S2) in C. destruct C as (a' & b' & I' & T').
    specialize (U _ I'). cbn in U. lra.
Qed.
End Search.
