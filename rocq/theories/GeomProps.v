(** Property C21: the geometer resolves placements as declared. *)
From Verif Require Import Base GeomModel GeomSpec GeomProofs.

Lemma nodup_app {A} (l l' : list A) : NoDup (l ++ l') -> NoDup l /\ NoDup l' /\ forall x, In x l' -> ~ In x l.
Proof.
  induction l as [|x l IH]; cbn; intro H.
  - split; [constructor|]. split; [exact H|auto].
  - inversion H as [|? ? N D]; subst. destruct (IH D) as (A1 & A2 & A3). split; [|split].
    + constructor; [|exact A1]. intro I. apply N. apply in_or_app. left. exact I.
    + exact A2.
    + intros y I [->|J]; [apply N; apply in_or_app; right; exact I|exact (A3 y I J)].
Qed.

(** Any history of registrations and queries in which no element is registered twice, any transformer, any recursion limit: every
    answer is the position (orientation) that follows from the declarations. *)
Theorem C21_answers_follow_declarations :
  forall (P O : Type) (transformer : P -> O -> P -> O -> P * O) (zero : P) (ident : O)
         (limit : nat) (seq : option (list string)) (before after : list (gop P O)) (e : string),
  let history := fun q => before ++ q :: after in
  NoDup (registered (before ++ after)) ->
  (forall p, nth_error (snd (gsteps transformer zero ident limit (new_geometer seq) (history (OPosition e)))) (List.length before)
             = Some (APos (Ok p)) ->
     exists d, has_pos transformer zero ident (declarations (before ++ after)) seq d e p) /\
  (forall o, nth_error (snd (gsteps transformer zero ident limit (new_geometer seq) (history (OOrientation e)))) (List.length before)
             = Some (AOri (Ok o)) ->
     exists d, has_ori transformer zero (declarations (before ++ after)) seq d e o).
Proof.
  intros P O tr zero ident limit seq before after e history N. subst history. cbn beta.
  assert (RA : forall l l' : list (gop P O), registered (l ++ l') = registered l ++ registered l').
  { induction l as [|x l IH]; intro l'; [reflexivity|]. cbn [app]. rewrite registered_cons, IH, app_assoc, <- registered_cons. reflexivity. }
  rewrite RA in N.
  destruct (nodup_app _ _ N) as (Nb & Na & ND).
  pose proof (gsteps_good tr zero ident limit before (fun _ => None) seq (new_geometer seq) (new_good tr zero ident seq) Nb (fun _ _ => eq_refl)) as G.
  assert (X : ext (declared before (fun _ => None)) (declarations (before ++ after))).
  { unfold declarations. rewrite declared_app. apply declared_ext; [exact Na|].
    intros x I. pose proof (ND x I) as H.
    clear - H. assert (K : forall (l : list (gop P O)) reg, ~ In x (registered l) -> reg x = None -> declared l reg x = None).
    { induction l as [|y l IH]; intros reg Nx Hr; [exact Hr|]. destruct y as [e p o|e|e]; cbn in *; apply IH; try tauto.
      destruct (String.eqb e x) eqn:E; [apply String.eqb_eq in E; subst; tauto|exact Hr]. }
    apply K; [exact H|reflexivity]. }
  split; intros v H; rewrite gsteps_nth in H; injection H as H; cbn in H.
  - pose proof (position_sound tr zero ident _ seq limit _ e G) as [_ S].
    destruct (position tr zero ident limit _ e) as [g' r]. injection H as ->. destruct (S v eq_refl) as (d & Hd).
    exists d. eapply has_pos_ext; eassumption.
  - pose proof (orientation_sound tr zero ident _ seq limit _ e G) as [_ S].
    destruct (orientation tr zero limit _ e) as [g' r]. injection H as ->. destruct (S v eq_refl) as (d & Hd).
    exists d. eapply has_ori_ext; eassumption.
Qed.
Print Assumptions C21_answers_follow_declarations.

(** The declarations determine positions and orientations: together with the theorem above, the order of the queries does not matter. *)
Theorem C21_declarations_determine :
  forall (P O : Type) (transformer : P -> O -> P -> O -> P * O) (zero : P) (ident : O) reg seq e,
  (forall d d' p p', has_pos transformer zero ident reg seq d e p -> has_pos transformer zero ident reg seq d' e p' -> p = p') /\
  (forall d d' o o', has_ori transformer zero reg seq d e o -> has_ori transformer zero reg seq d' e o' -> o = o').
Proof.
  intros. split; intros.
  - eapply has_pos_fun; eassumption.
  - exact (has_ori_fun transformer zero reg seq d e o H d' o' H0).
Qed.
Print Assumptions C21_declarations_determine.

(** Completeness: an element with a chain of declarations not deeper than the recursion limit is always answered, at whatever point of the
    history. *)
Theorem C21_resolvable_is_answered :
  forall (P O : Type) (transformer : P -> O -> P -> O -> P * O) (zero : P) (ident : O)
         (limit : nat) (seq : option (list string)) (before after : list (gop P O)) (e : string),
  NoDup (registered before) ->
  (forall d p, has_pos transformer zero ident (declarations before) seq d e p -> (d <= limit)%nat ->
     nth_error (snd (gsteps transformer zero ident limit (new_geometer seq) (before ++ OPosition e :: after))) (List.length before)
     = Some (APos (Ok p))) /\
  (forall d o, has_ori transformer zero (declarations before) seq d e o -> (d <= limit)%nat ->
     nth_error (snd (gsteps transformer zero ident limit (new_geometer seq) (before ++ OOrientation e :: after))) (List.length before)
     = Some (AOri (Ok o))).
Proof.
  intros P O tr zero ident limit seq before after e Nb.
  pose proof (gsteps_good tr zero ident limit before (fun _ => None) seq (new_geometer seq) (new_good tr zero ident seq) Nb (fun _ _ => eq_refl)) as G.
  split; intros d v H L; rewrite gsteps_nth; cbn.
  - pose proof (position_complete tr zero ident _ seq d e v H limit _ G L) as C.
    destruct (position tr zero ident limit _ e) as [g' r]. cbn in *. congruence.
  - pose proof (orientation_complete tr zero ident _ seq d e v H limit _ G L) as C.
    destruct (orientation tr zero limit _ e) as [g' r]. cbn in *. congruence.
Qed.
Print Assumptions C21_resolvable_is_answered.

(** Elements placed relative to each other in a cycle: every query exhausts the recursion limit, whatever it is (RecursionError). *)
Theorem C21_cycles_never_answered :
  forall (P O : Type) (transformer : P -> O -> P -> O -> P * O) (zero : P) (ident : O)
         (limit : nat) (seq : option (list string)) (before after : list (gop P O)) (C : string -> Prop) (e : string),
  NoDup (registered before) -> C e ->
  (cyclic_pos (declarations before) seq C ->
     nth_error (snd (gsteps transformer zero ident limit (new_geometer seq) (before ++ OPosition e :: after))) (List.length before)
     = Some (APos (Err OutOfFuel))) /\
  (cyclic_ori (declarations before) seq C ->
     nth_error (snd (gsteps transformer zero ident limit (new_geometer seq) (before ++ OOrientation e :: after))) (List.length before)
     = Some (AOri (Err OutOfFuel))).
Proof.
  intros P O tr zero ident limit seq before after C e Nb Ce.
  pose proof (gsteps_good tr zero ident limit before (fun _ => None) seq (new_geometer seq) (new_good tr zero ident seq) Nb (fun _ _ => eq_refl)) as G.
  split; intros Cy; rewrite gsteps_nth; cbn.
  - rewrite (cyclic_position tr zero ident _ seq C limit Cy _ e G Ce). reflexivity.
  - rewrite (cyclic_orientation tr zero ident _ seq C limit Cy _ e G Ce). reflexivity.
Qed.
Print Assumptions C21_cycles_never_answered.

(** Finding: a chain longer than the recursion limit fails, although it is acyclic, when no part of it has been queried before. *)
Theorem C21_long_chain_fails :
  forall (P O : Type) (transformer : P -> O -> P -> O -> P * O) (zero : P) (ident : O)
         (limit : nat) (seq : option (list string)) (before after : list (gop P O)) (e : string) (d : nat) (o : O),
  NoDup (registered before) -> (forall x, In x before -> exists e p o, x = ORegister e p o) ->
  has_ori transformer zero (declarations before) seq d e o -> (limit < d)%nat ->
  nth_error (snd (gsteps transformer zero ident limit (new_geometer seq) (before ++ OOrientation e :: after))) (List.length before)
  = Some (AOri (Err OutOfFuel)).
Proof.
  intros P O tr zero ident limit seq before after e d o Nb R H L.
  pose proof (gsteps_good tr zero ident limit before (fun _ => None) seq (new_geometer seq) (new_good tr zero ident seq) Nb (fun _ _ => eq_refl)) as G.
  rewrite gsteps_nth. cbn.
  assert (N : forall x, g_absori (fst (gsteps tr zero ident limit (new_geometer seq) before)) x = None).
  { assert (K : forall l g, (forall x, In x l -> exists e (p : coord P) (o : coord O), x = ORegister e p o) -> (forall x, g_absori g x = None) ->
                forall x, g_absori (fst (gsteps tr zero ident limit g l)) x = None).
    { induction l as [|y l IH]; intros g Rl Hg x; [apply Hg|]. destruct (Rl y (or_introl eq_refl)) as (e1 & p1 & o1 & ->).
      cbn [gsteps gstep]. specialize (IH (register g e1 p1 o1) (fun z I => Rl z (or_intror I)) Hg x).
      destruct (gsteps tr zero ident limit (register g e1 p1 o1) l). exact IH. }
    apply K; [exact R|reflexivity]. }
  pose proof (orientation_too_deep tr zero ident _ seq d e o H limit _ G N L) as C.
  destruct (orientation tr zero limit _ e) as [g' r]. cbn in *. congruence.
Qed.
Print Assumptions C21_long_chain_fails.

(** Once an element has been answered, it is answered the same for ever, whatever is registered afterwards. *)
Theorem C21_answers_never_change :
  forall (P O : Type) (transformer : P -> O -> P -> O -> P * O) (zero : P) (ident : O)
         (limit : nat) (seq : option (list string)) (h1 h2 h3 : list (gop P O)) (e : string),
  let answers q := snd (gsteps transformer zero ident limit (new_geometer seq) (h1 ++ q :: h2 ++ q :: h3)) in
  (forall p, nth_error (answers (OPosition e)) (List.length h1) = Some (APos (Ok p)) ->
             nth_error (answers (OPosition e)) (List.length h1 + 1 + List.length h2) = Some (APos (Ok p))) /\
  (forall o, nth_error (answers (OOrientation e)) (List.length h1) = Some (AOri (Ok o)) ->
             nth_error (answers (OOrientation e)) (List.length h1 + 1 + List.length h2) = Some (AOri (Ok o))).
Proof.
  intros P O tr zero ident limit seq h1 h2 h3 e answers. subst answers. cbn beta.
  assert (E : forall q, h1 ++ q :: h2 ++ q :: h3 = (h1 ++ q :: h2) ++ q :: h3) by (intro q; rewrite <- app_assoc; reflexivity).
  assert (L : forall q, (List.length h1 + 1 + List.length h2)%nat = List.length (h1 ++ (q : gop P O) :: h2)) by (intro q; rewrite app_length; cbn; lia).
  split; intros v H; rewrite gsteps_nth in H; injection H as H; rewrite E.
  - rewrite (L (OPosition e)), gsteps_nth. f_equal. rewrite gsteps_app. destruct (gsteps tr zero ident limit (new_geometer seq) h1) as [g1 a1].
    cbn [fst gstep] in H |- *. cbn [gsteps gstep].
    destruct (position_keeps tr zero ident limit g1 e) as (_ & _ & K).
    destruct (position tr zero ident limit g1 e) as [g2 r] eqn:Q. injection H as ->. cbn [fst snd] in K. specialize (K v eq_refl).
    destruct (gsteps_keep tr zero ident limit h2 g2) as [_ K2]. destruct (gsteps tr zero ident limit g2 h2) as [g3 a3]. cbn [fst snd] in *.
    apply K2 in K. destruct limit; cbn [position]; rewrite K; reflexivity.
  - rewrite (L (OOrientation e)), gsteps_nth. f_equal. rewrite gsteps_app. destruct (gsteps tr zero ident limit (new_geometer seq) h1) as [g1 a1].
    cbn [fst gstep] in H |- *. cbn [gsteps gstep].
    destruct (orientation_keeps tr zero limit g1 e) as (_ & _ & K).
    destruct (orientation tr zero limit g1 e) as [g2 r] eqn:Q. injection H as ->. cbn [fst snd] in K. specialize (K v eq_refl).
    destruct (gsteps_keep tr zero ident limit h2 g2) as [K2 _]. destruct (gsteps tr zero ident limit g2 h2) as [g3 a3]. cbn [fst snd] in *.
    apply K2 in K. destruct limit; cbn [orientation]; rewrite K; reflexivity.
Qed.
Print Assumptions C21_answers_never_change.

(** one-dimensional placements for examples: positions and orientations are integers, orientations add up *)
Definition ex_tr (p o rp ro : Z) : Z * Z := (p + (if Z.even o then rp else - rp), ro + o)%Z.
Open Scope string_scope.
Open Scope Z_scope.

(** Finding: registering an element again after it (or something placed relative to it) has been queried has no effect. *)
Theorem C21_reregistration_counts_refuted :
  exists (before : list (gop Z Z)) (e : string) (p p' : Z) (d : nat),
    nth_error (snd (gsteps ex_tr 0 0 10 (new_geometer None) (before ++ [OPosition e]))) (List.length before) = Some (APos (Ok p)) /\
    has_pos ex_tr 0 0 (declarations before) None d e p' /\ p <> p'.
Proof.
  exists [ORegister "a" (Absolute 1) (Absolute 0); ORegister "b" (Relative 2 "a") (Relative 0 "a"); OPosition "b";
          ORegister "a" (Absolute 10) (Absolute 0)], "b", 3, 12, 2%nat.
  split; [reflexivity|]. split; [|lia].
  apply (pos_relative ex_tr 0 0 _ None "b" (Relative 0 "a") 2 "a" "a" 1 1 10 0); try reflexivity.
  - left. split; [discriminate|reflexivity].
  - eapply pos_absolute. reflexivity.
  - eapply ori_absolute. reflexivity.
Qed.
Print Assumptions C21_reregistration_counts_refuted.

Example C21_example :   (* queries before, between and after registrations; previous; a failing and a repeated query *)
  snd (gsteps ex_tr 0 0 10 (new_geometer (Some ["s"; "m"; "d"]))
     [ORegister "d" (Relative 5 "previous") (Relative 0 "m"); OPosition "d"; ORegister "s" (Absolute 1) (Absolute 1);
      ORegister "m" (Relative 2 "previous") (Relative 1 "s"); OPosition "d"; OOrientation "d"; OPosition "s"; OPosition "m"])
  = [ANone; APos (Err KeyError); ANone; ANone; APos (Ok 4); AOri (Ok 2); APos (Ok 1); APos (Ok (-1))].
Proof. reflexivity. Qed.
Example C21_example_previous : refers (Some ["s"; "m"; "d"]) "previous" "d" "m".
Proof. right. split; [reflexivity|]. exists ["s"], []. split; [reflexivity|]. cbn. intuition discriminate. Qed.
Example C21_example_cycle :
  let before := [ORegister "a" (Relative 1 "b") (Relative 1 "b"); ORegister "b" (Relative 1 "a") (Relative 1 "a")] in
  NoDup (registered before) /\ cyclic_pos (declarations before) None (fun x => x = "a" \/ x = "b") /\
  cyclic_ori (declarations before) None (fun x => x = "a" \/ x = "b") /\
  snd (gsteps ex_tr 0 0 50 (new_geometer None) (before ++ [OPosition "a"])) = [ANone; ANone; APos (Err OutOfFuel)].
Proof.
  cbv zeta. split; [|split; [|split; [|reflexivity]]].
  - cbn. constructor; [cbn; intuition discriminate|]. constructor; [cbn; tauto|constructor].
  - intros e [->| ->]; do 4 eexists; (split; [reflexivity|]); (split; [left; split; [discriminate|reflexivity]|auto]).
  - intros e [->| ->]; do 4 eexists; (split; [reflexivity|]); (split; [left; split; [discriminate|reflexivity]|auto]).
Qed.
Example C21_example_long :
  let before := [ORegister "a" (Absolute 0) (Absolute 0); ORegister "b" (Absolute 0) (Relative 1 "a"); ORegister "c" (Absolute 0) (Relative 1 "b")] in
  snd (gsteps ex_tr 0 0 2 (new_geometer None) (before ++ [OOrientation "c"; OOrientation "b"; OOrientation "c"]))
  = [ANone; ANone; ANone; AOri (Err OutOfFuel); AOri (Ok 1); AOri (Ok 2)].
Proof. reflexivity. Qed.
