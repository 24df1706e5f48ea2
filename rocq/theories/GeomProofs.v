(** Proofs about GeomModel. *)
From Verif Require Import Base GeomModel GeomSpec.

Lemma index_of_spec e l i : index_of e l = Some i ->
  exists before after, l = before ++ e :: after /\ List.length before = i /\ ~ In e before.
Proof.
  revert i. induction l as [|x l IH]; cbn; intros i H; [discriminate|].
  destruct (String.eqb x e) eqn:E.
  - injection H as <-. apply String.eqb_eq in E. subst x. exists [], l. cbn. auto.
  - destruct (index_of e l) as [j|] eqn:J; [|discriminate]. injection H as <-.
    destruct (IH j eq_refl) as (b & a & -> & L & N). exists (x :: b), a. cbn. split; [reflexivity|]. split; [congruence|].
    intros [->|I]; [|exact (N I)]. rewrite String.eqb_refl in E. discriminate.
Qed.
Lemma index_of_app e before after : ~ In e before -> index_of e (before ++ e :: after) = Some (List.length before).
Proof.
  induction before as [|x b IH]; cbn; intro N; [rewrite String.eqb_refl; reflexivity|].
  destruct (String.eqb x e) eqn:E; [apply String.eqb_eq in E; subst x; exfalso; apply N; left; reflexivity|].
  rewrite IH by tauto. reflexivity.
Qed.

Section Proofs.
Context {P O : Type} (transformer : P -> O -> P -> O -> P * O) (zero : P) (ident : O).
Notation geometer := (geometer P O).
Notation orientation := (orientation transformer zero).
Notation position := (position transformer zero ident).
Notation has_ori := (has_ori transformer zero).
Notation has_pos := (has_pos transformer zero ident).

Lemma findReference_ok (g : geometer) ref e r : findReference g ref e = Ok r <-> refers (g_sequence g) ref e r.
Proof.
  unfold findReference, refers. destruct (String.eqb ref "previous") eqn:E.
  - apply String.eqb_eq in E. split.
    + intro H. right. split; [exact E|]. destruct (g_sequence g) as [seq|]; [|discriminate].
      destruct (index_of e seq) as [[|i]|] eqn:I; try discriminate.
      destruct (nth_error seq i) as [x|] eqn:N; [|discriminate]. injection H as ->.
      destruct (index_of_spec _ _ _ I) as (b & a & -> & L & NI).
      destruct (exists_last (l := b)) as (b' & y & ->); [intro; subst b; discriminate|].
      rewrite app_length in L. cbn in L. assert (L' : List.length b' = i) by lia.
      rewrite <- app_assoc in N. rewrite nth_error_app2 in N by lia. rewrite L', Nat.sub_diag in N. cbn in N. injection N as ->.
      exists b', a. rewrite <- app_assoc. cbn. split; [reflexivity|exact NI].
    + intros [[N _]|(_ & b & a & S & N)]; [congruence|]. rewrite S.
      replace (b ++ r :: e :: a) with ((b ++ [r]) ++ e :: a) by (rewrite <- app_assoc; reflexivity).
      rewrite (index_of_app e (b ++ [r]) a N), app_length. cbn. rewrite Nat.add_1_r, <- app_assoc.
      rewrite nth_error_app2 by lia. rewrite Nat.sub_diag. reflexivity.
  - apply String.eqb_neq in E. split.
    + intro H. injection H as <-. left. auto.
    + intros [[_ ->]|[H _]]; [reflexivity|congruence].
Qed.
Lemma refers_fun seq ref e r r' : refers seq ref e r -> refers seq ref e r' -> r = r'.
Proof.
  intros H H'. pose (g := mkG (fun _ => None) (fun _ => None) (fun _ => None) seq : geometer).
  apply (findReference_ok g) in H. apply (findReference_ok g) in H'. congruence.
Qed.

Section Fixed.
Variables (reg : string -> option (coord P * coord O)) (seq : option (list string)).

Lemma has_ori_inv d e o : has_ori reg seq d e o ->
  (d = 1%nat /\ exists cp, reg e = Some (cp, Absolute o)) \/
  (exists cp v ref r d' o', d = S d' /\ reg e = Some (cp, Relative v ref) /\ refers seq ref e r /\ has_ori reg seq d' r o' /\
     o = snd (transformer zero o' zero v)).
Proof. intro H. inversion H; subst; [left; eauto|right; do 6 eexists; eauto]. Qed.
Lemma has_pos_inv d e p : has_pos reg seq d e p ->
  (d = 1%nat /\ exists co, reg e = Some (Absolute p, co)) \/
  (exists co v ref r d1 d2 p' o', d = S (max d1 d2) /\ reg e = Some (Relative v ref, co) /\ refers seq ref e r /\
     has_pos reg seq d1 r p' /\ has_ori reg seq d2 r o' /\ p = fst (transformer p' o' v ident)).
Proof. intro H. inversion H; subst; [left; eauto|right; do 8 eexists; eauto 10]. Qed.

Lemma has_ori_fun d e o : has_ori reg seq d e o -> forall d' o', has_ori reg seq d' e o' -> o = o'.
Proof.
  induction 1 as [e cp v R|e cp v ref r d o R F H IH]; intros d' o' H'; apply has_ori_inv in H' as [(_ & cp' & R')|(cp' & v' & ref' & r' & d1 & o1 & _ & R' & F' & H' & ->)];
    rewrite R in R'; try discriminate.
  - congruence.
  - injection R' as _ <- <-. pose proof (refers_fun _ _ _ _ _ F F'); subst r'. rewrite (IH _ _ H'). reflexivity.
Qed.
Lemma has_pos_fun d e p : has_pos reg seq d e p -> forall d' p', has_pos reg seq d' e p' -> p = p'.
Proof.
  induction 1 as [e v co R|e co v ref r d1 d2 p o R F H IH HO]; intros d' p' H'; apply has_pos_inv in H' as [(_ & co' & R')|(co' & v' & ref' & r' & d3 & d4 & p1 & o1 & _ & R' & F' & H' & HO' & ->)];
    rewrite R in R'; try discriminate.
  - congruence.
  - injection R' as <- <- _. pose proof (refers_fun _ _ _ _ _ F F'); subst r'. rewrite (IH _ _ H'), (has_ori_fun _ _ _ HO _ _ HO'). reflexivity.
Qed.

(* the caches hold only what the declarations say *)
Record good (g : geometer) : Prop := mkGood {
  good_reg : g_registry g = reg;
  good_seq : g_sequence g = seq;
  good_ori : forall e o, g_absori g e = Some o -> exists d, has_ori reg seq d e o;
  good_pos : forall e p, g_abspos g e = Some p -> exists d, has_pos reg seq d e p }.

Lemma good_cache_ori g e o d : good g -> has_ori reg seq d e o -> good (cache_ori g e o).
Proof.
  intros [R S Q T] H. constructor; cbn; auto. intros e' o'. unfold dset. destruct (String.eqb e e') eqn:E; [|auto].
  apply String.eqb_eq in E. subst e'. intro X. injection X as <-. eauto.
Qed.
Lemma good_cache_pos g e p d : good g -> has_pos reg seq d e p -> good (cache_pos g e p).
Proof.
  intros [R S Q T] H. constructor; cbn; auto. intros e' p'. unfold dset. destruct (String.eqb e e') eqn:E; [|auto].
  apply String.eqb_eq in E. subst e'. intro X. injection X as <-. eauto.
Qed.

Lemma orientation_sound n : forall g e, good g ->
  good (fst (orientation n g e)) /\ (forall o, snd (orientation n g e) = Ok o -> exists d, has_ori reg seq d e o).
Proof.
  induction n as [|n IH]; intros g e G; cbn [GeomModel.orientation]; destruct (g_absori g e) as [o|] eqn:C; cbn [fst snd].
  - split; [exact G|]. intros o' H. injection H as <-. apply (good_ori g G _ _ C).
  - split; [exact G|discriminate].
  - split; [exact G|]. intros o' H. injection H as <-. apply (good_ori g G _ _ C).
  - rewrite (good_reg g G). destruct (reg e) as [[cp [v|v ref]]|] eqn:R; cbn [fst snd].
    + assert (H : has_ori reg seq 1 e v) by (eapply ori_absolute; exact R).
      split; [eapply good_cache_ori; eassumption|]. intros o H'. injection H' as <-. eauto.
    + destruct (findReference g ref e) as [r|x] eqn:F; cbn [fst snd]; [|split; [exact G|discriminate]].
      apply findReference_ok in F. rewrite (good_seq g G) in F.
      specialize (IH g r G). destruct (orientation n g r) as [g' [o|x]]; cbn [fst snd] in *; destruct IH as [G' H]; [|split; [exact G'|discriminate]].
      destruct (H o eq_refl) as (d & Hd).
      assert (H' : has_ori reg seq (S d) e (snd (transformer zero o zero v))) by (eapply ori_relative; eassumption).
      split; [eapply good_cache_ori; eassumption|]. intros o' X. injection X as <-. eauto.
    + split; [exact G|discriminate].
Qed.
Lemma position_sound n : forall g e, good g ->
  good (fst (position n g e)) /\ (forall p, snd (position n g e) = Ok p -> exists d, has_pos reg seq d e p).
Proof.
  induction n as [|n IH]; intros g e G; cbn [GeomModel.position]; destruct (g_abspos g e) as [p|] eqn:C; cbn [fst snd].
  - split; [exact G|]. intros o' H. injection H as <-. apply (good_pos g G _ _ C).
  - split; [exact G|discriminate].
  - split; [exact G|]. intros o' H. injection H as <-. apply (good_pos g G _ _ C).
  - rewrite (good_reg g G). destruct (reg e) as [[[v|v ref] co]|] eqn:R; cbn [fst snd].
    + assert (H : has_pos reg seq 1 e v) by (eapply pos_absolute; exact R).
      split; [eapply good_cache_pos; eassumption|]. intros o H'. injection H' as <-. eauto.
    + destruct (findReference g ref e) as [r|x] eqn:F; cbn [fst snd]; [|split; [exact G|discriminate]].
      apply findReference_ok in F. rewrite (good_seq g G) in F.
      specialize (IH g r G). destruct (position n g r) as [g1 [p|x]]; cbn [fst snd] in *; destruct IH as [G1 H]; [|split; [exact G1|discriminate]].
      destruct (H p eq_refl) as (d & Hd).
      pose proof (orientation_sound n g1 r G1) as HO. destruct (orientation n g1 r) as [g2 [o|x]]; cbn [fst snd] in *; destruct HO as [G2 HO]; [|split; [exact G2|discriminate]].
      destruct (HO o eq_refl) as (d' & Hd').
      assert (H' : has_pos reg seq (S (max d d')) e (fst (transformer p o v ident))) by (eapply pos_relative; eassumption).
      split; [eapply good_cache_pos; eassumption|]. intros o' X. injection X as <-. eauto.
    + split; [exact G|discriminate].
Qed.

Lemma orientation_complete d e o : has_ori reg seq d e o -> forall n g, good g -> (d <= n)%nat -> snd (orientation n g e) = Ok o.
Proof.
  induction 1 as [e cp v R|e cp v ref r d o R F H IH]; intros n g G L; (destruct n as [|n]; [lia|]); cbn [GeomModel.orientation];
    (destruct (g_absori g e) as [o'|] eqn:C; [destruct (good_ori g G _ _ C) as (d' & H'); cbn [snd]; f_equal|]).
  - symmetry. eapply has_ori_fun; [|exact H']. eapply ori_absolute; exact R.
  - rewrite (good_reg g G), R. reflexivity.
  - symmetry. eapply has_ori_fun; [|exact H']. eapply ori_relative; eassumption.
  - rewrite (good_reg g G), R. rewrite <- (good_seq g G) in F. apply findReference_ok in F. rewrite F.
    specialize (IH n g G ltac:(lia)). destruct (orientation n g r) as [g' r']. cbn [snd] in IH. rewrite IH. reflexivity.
Qed.
Lemma position_complete d e p : has_pos reg seq d e p -> forall n g, good g -> (d <= n)%nat -> snd (position n g e) = Ok p.
Proof.
  induction 1 as [e v co R|e co v ref r d d' p o R F H IH HO]; intros n g G L; (destruct n as [|n]; [lia|]); cbn [GeomModel.position];
    (destruct (g_abspos g e) as [p'|] eqn:C; [destruct (good_pos g G _ _ C) as (d'' & H'); cbn [snd]; f_equal|]).
  - symmetry. eapply has_pos_fun; [|exact H']. eapply pos_absolute; exact R.
  - rewrite (good_reg g G), R. reflexivity.
  - symmetry. eapply has_pos_fun; [|exact H']. eapply pos_relative; eassumption.
  - rewrite (good_reg g G), R. pose proof F as F'. rewrite <- (good_seq g G) in F'. apply findReference_ok in F'. rewrite F'.
    specialize (IH n g G ltac:(lia)). pose proof (position_sound n g r G) as [G1 _].
    destruct (position n g r) as [g1 r']. cbn [fst snd] in *. rewrite IH.
    pose proof (orientation_complete _ _ _ HO n g1 G1 ltac:(lia)) as X. destruct (orientation n g1 r) as [g2 r2]. cbn [snd] in X. rewrite X. reflexivity.
Qed.

Lemma cyclic_no_ori C : cyclic_ori reg seq C -> forall d e o, has_ori reg seq d e o -> ~ C e.
Proof.
  intros Cy d e o H. induction H as [e cp v R|e cp v ref r d o R F H IH]; intro Ce; destruct (Cy e Ce) as (cp' & v' & ref' & r' & R' & F' & C'); rewrite R in R'; try discriminate.
  injection R' as _ _ <-. pose proof (refers_fun _ _ _ _ _ F F'); subst r'. exact (IH C').
Qed.
Lemma cyclic_no_pos C : cyclic_pos reg seq C -> forall d e p, has_pos reg seq d e p -> ~ C e.
Proof.
  intros Cy d e p H. induction H as [e v co R|e co v ref r d d' p o R F H IH HO]; intro Ce; destruct (Cy e Ce) as (v' & ref' & co' & r' & R' & F' & C'); rewrite R in R'; try discriminate.
  injection R' as _ <- _. pose proof (refers_fun _ _ _ _ _ F F'); subst r'. exact (IH C').
Qed.
Lemma cyclic_orientation C n : cyclic_ori reg seq C -> forall g e, good g -> C e -> orientation n g e = (g, Err OutOfFuel).
Proof.
  intro Cy. induction n as [|n IH]; intros g e G Ce; cbn [GeomModel.orientation];
    (destruct (g_absori g e) as [o|] eqn:A; [destruct (good_ori g G _ _ A) as (d & H); exfalso; exact (cyclic_no_ori C Cy _ _ _ H Ce)|]).
  - reflexivity.
  - destruct (Cy e Ce) as (cp & v & ref & r & R & F & Cr). rewrite (good_reg g G), R.
    rewrite <- (good_seq g G) in F. apply findReference_ok in F. rewrite F, (IH g r G Cr). reflexivity.
Qed.
Lemma cyclic_position C n : cyclic_pos reg seq C -> forall g e, good g -> C e -> position n g e = (g, Err OutOfFuel).
Proof.
  intro Cy. induction n as [|n IH]; intros g e G Ce; cbn [GeomModel.position];
    (destruct (g_abspos g e) as [o|] eqn:A; [destruct (good_pos g G _ _ A) as (d & H); exfalso; exact (cyclic_no_pos C Cy _ _ _ H Ce)|]).
  - reflexivity.
  - destruct (Cy e Ce) as (v & ref & co & r & R & F & Cr). rewrite (good_reg g G), R.
    rewrite <- (good_seq g G) in F. apply findReference_ok in F. rewrite F, (IH g r G Cr). reflexivity.
Qed.
(* nothing cached: the whole chain is followed *)
Lemma orientation_too_deep d e o : has_ori reg seq d e o -> forall n g, good g -> (forall x, g_absori g x = None) -> (n < d)%nat ->
  snd (orientation n g e) = Err OutOfFuel.
Proof.
  induction 1 as [e cp v R|e cp v ref r d o R F H IH]; intros n g G N L; destruct n as [|n]; cbn [GeomModel.orientation]; rewrite N; try reflexivity; [lia|].
  rewrite (good_reg g G), R. rewrite <- (good_seq g G) in F. apply findReference_ok in F. rewrite F.
  specialize (IH n g G N ltac:(lia)). destruct (orientation n g r) as [g' x]. cbn [snd] in IH. rewrite IH. reflexivity.
Qed.
End Fixed.

(** ** Histories *)
Definition ext (reg reg' : string -> option (coord P * coord O)) : Prop := forall e c, reg e = Some c -> reg' e = Some c.
Lemma has_ori_ext reg reg' seq d e o : ext reg reg' -> has_ori reg seq d e o -> has_ori reg' seq d e o.
Proof. intros X H. induction H; [eapply ori_absolute|eapply ori_relative]; eauto. Qed.
Lemma has_pos_ext reg reg' seq d e p : ext reg reg' -> has_pos reg seq d e p -> has_pos reg' seq d e p.
Proof. intros X H. induction H; [eapply pos_absolute; eauto|]. eapply pos_relative; eauto. eapply has_ori_ext; eauto. Qed.

Lemma good_register reg seq g e p o : good reg seq g -> reg e = None ->
  good (fun q => if String.eqb e q then Some (p, o) else reg q) seq (register g e p o).
Proof.
  intros [R S Q T] F.
  assert (X : ext reg (fun q => if String.eqb e q then Some (p, o) else reg q)).
  { intros x c H. destruct (String.eqb e x) eqn:E; [|exact H]. apply String.eqb_eq in E. subst x. congruence. }
  constructor; cbn.
  - rewrite R. reflexivity.
  - exact S.
  - intros x y H. destruct (Q x y H) as (d & Hd). exists d. eapply has_ori_ext; eassumption.
  - intros x y H. destruct (T x y H) as (d & Hd). exists d. eapply has_pos_ext; eassumption.
Qed.
Notation gstep := (gstep transformer zero ident).
Notation gsteps := (gsteps transformer zero ident).
Lemma gstep_good reg seq n g x : good reg seq g -> (forall e p o, x = ORegister e p o -> reg e = None) ->
  good (declared [x] reg) seq (fst (gstep n g x)).
Proof.
  intros G F. destruct x as [e p o|e|e]; cbn.
  - apply good_register; [exact G|]. eapply F; reflexivity.
  - pose proof (position_sound reg seq n g e G) as [H _]. destruct (position n g e). exact H.
  - pose proof (orientation_sound reg seq n g e G) as [H _]. destruct (orientation n g e). exact H.
Qed.
Lemma declared_cons x (l : list (gop P O)) reg : declared (x :: l) reg = declared l (declared [x] reg).
Proof. destruct x; reflexivity. Qed.
Lemma declared_app (l l' : list (gop P O)) reg : declared (l ++ l') reg = declared l' (declared l reg).
Proof. revert reg. induction l as [|x l IH]; intro reg; [reflexivity|]. cbn [app]. rewrite declared_cons, IH, <- declared_cons. reflexivity. Qed.
Lemma registered_cons x (l : list (gop P O)) : registered (x :: l) = registered [x] ++ registered l.
Proof. destruct x; reflexivity. Qed.
Lemma gsteps_good n : forall l reg seq g, good reg seq g -> NoDup (registered l) -> (forall e, In e (registered l) -> reg e = None) ->
  good (declared l reg) seq (fst (gsteps n g l)).
Proof.
  induction l as [|x l IH]; intros reg seq g G N F; [exact G|].
  rewrite declared_cons, registered_cons in *. cbn [GeomModel.gsteps].
  assert (F1 : forall e p o, x = ORegister e p o -> reg e = None).
  { intros e p o ->. apply F. cbn. left. reflexivity. }
  pose proof (gstep_good reg seq n g x G F1) as G1. destruct (gstep n g x) as [g' a]. cbn [fst] in G1.
  specialize (IH (declared [x] reg) seq g' G1). destruct (gsteps n g' l) as [g'' l'']. cbn [fst] in *. apply IH.
  - destruct x; cbn in N; [inversion N; assumption|exact N|exact N].
  - intros e H. destruct x as [e' p o|e'|e']; cbn in *; [|apply F; exact H|apply F; exact H].
    inversion N as [|? ? N1 N2]; subst. destruct (String.eqb e' e) eqn:E; [apply String.eqb_eq in E; subst e'; contradiction|].
    apply F. right. exact H.
Qed.
Lemma new_good seq : good (fun _ => None) seq (new_geometer seq).
Proof. constructor; cbn; auto; discriminate. Qed.
Lemma declared_ext l : forall reg, NoDup (@registered P O l) -> (forall e, In e (registered l) -> reg e = None) -> ext reg (declared l reg).
Proof.
  induction l as [|x l IH]; intros reg N F e c H; [exact H|]. rewrite declared_cons. apply IH.
  - destruct x; cbn in N; [inversion N; assumption|exact N|exact N].
  - intros e' I. destruct x as [e0 p o|e0|e0]; cbn in *; [|apply F; exact I|apply F; exact I].
    inversion N as [|? ? N1 N2]; subst. destruct (String.eqb e0 e') eqn:E; [apply String.eqb_eq in E; subst e'; contradiction|].
    apply F. right. exact I.
  - destruct x as [e0 p o|e0|e0]; cbn; auto. destruct (String.eqb e0 e) eqn:E; [|exact H].
    apply String.eqb_eq in E. subst e0. rewrite (F e) in H; [discriminate|left; reflexivity].
Qed.

Lemma gsteps_app n l : forall g l', gsteps n g (l ++ l') =
  let (g1, a1) := gsteps n g l in let (g2, a2) := gsteps n g1 l' in (g2, a1 ++ a2).
Proof.
  induction l as [|x l IH]; intros g l'; cbn [app GeomModel.gsteps].
  - destruct (gsteps n g l'); reflexivity.
  - destruct (gstep n g x) as [g' a]. rewrite IH. destruct (gsteps n g' l) as [g1 a1]. destruct (gsteps n g1 l') as [g2 a2]. reflexivity.
Qed.
Lemma gsteps_length n l : forall g, List.length (snd (gsteps n g l)) = List.length l.
Proof.
  induction l as [|x l IH]; intro g; cbn [GeomModel.gsteps]; [reflexivity|].
  destruct (gstep n g x) as [g' a]. specialize (IH g'). destruct (gsteps n g' l) as [g'' l'']. cbn in *. congruence.
Qed.
(* the call at place i, made in the state reached by the calls before it *)
Lemma gsteps_nth n g l1 x l2 : nth_error (snd (gsteps n g (l1 ++ x :: l2))) (List.length l1) = Some (snd (gstep n (fst (gsteps n g l1)) x)).
Proof.
  rewrite gsteps_app. pose proof (gsteps_length n l1 g) as L. destruct (gsteps n g l1) as [g1 a1]. cbn [fst snd] in *.
  cbn [GeomModel.gsteps]. destruct (gstep n g1 x) as [g' a]. destruct (gsteps n g' l2) as [g2 a2]. cbn [snd].
  rewrite nth_error_app2 by lia. rewrite L, Nat.sub_diag. reflexivity.
Qed.

(** ** Stability *)
Lemma orientation_keeps n : forall g e, 
  (forall x v, g_absori g x = Some v -> g_absori (fst (orientation n g e)) x = Some v) /\
  (forall x, g_abspos (fst (orientation n g e)) x = g_abspos g x) /\
  (forall o, snd (orientation n g e) = Ok o -> g_absori (fst (orientation n g e)) e = Some o).
Proof.
  induction n as [|n IH]; intros g e; cbn [GeomModel.orientation]; destruct (g_absori g e) as [o|] eqn:C; cbn [fst snd].
  - split; [auto|]. split; [auto|]. congruence.
  - split; [auto|]. split; [auto|]. discriminate.
  - split; [auto|]. split; [auto|]. congruence.
  - destruct (g_registry g e) as [[cp [v|v ref]]|]; cbn [fst snd].
    + split; [|split].
      * intros x w H. cbn. unfold dset. destruct (String.eqb e x) eqn:E; [apply String.eqb_eq in E; congruence|exact H].
      * reflexivity.
      * intros o H. cbn. unfold dset. rewrite String.eqb_refl. congruence.
    + destruct (findReference g ref e) as [r|y]; cbn [fst snd]; [|split; [auto|split; [auto|discriminate]]].
      specialize (IH g r). destruct (orientation n g r) as [g' [o|y]]; cbn [fst snd] in *; destruct IH as (K1 & K2 & K3); [|split; [exact K1|split; [exact K2|discriminate]]].
      split; [|split].
      * intros x w H. cbn. unfold dset. destruct (String.eqb e x) eqn:E; [apply String.eqb_eq in E; congruence|auto].
      * exact K2.
      * intros o' H. cbn. unfold dset. rewrite String.eqb_refl. congruence.
    + split; [auto|]. split; [auto|]. discriminate.
Qed.
Lemma position_keeps n : forall g e, 
  (forall x v, g_absori g x = Some v -> g_absori (fst (position n g e)) x = Some v) /\
  (forall x v, g_abspos g x = Some v -> g_abspos (fst (position n g e)) x = Some v) /\
  (forall p, snd (position n g e) = Ok p -> g_abspos (fst (position n g e)) e = Some p).
Proof.
  induction n as [|n IH]; intros g e; cbn [GeomModel.position]; destruct (g_abspos g e) as [o|] eqn:C; cbn [fst snd].
  - split; [auto|]. split; [auto|]. congruence.
  - split; [auto|]. split; [auto|]. discriminate.
  - split; [auto|]. split; [auto|]. congruence.
  - destruct (g_registry g e) as [[[v|v ref] co]|]; cbn [fst snd].
    + split; [|split].
      * auto.
      * intros x w H. cbn. unfold dset. destruct (String.eqb e x) eqn:E; [apply String.eqb_eq in E; congruence|exact H].
      * intros o H. cbn. unfold dset. rewrite String.eqb_refl. congruence.
    + destruct (findReference g ref e) as [r|y]; cbn [fst snd]; [|split; [auto|split; [auto|discriminate]]].
      specialize (IH g r). destruct (position n g r) as [g1 [p|y]]; cbn [fst snd] in *; destruct IH as (K1 & K2 & K3); [|split; [exact K1|split; [exact K2|discriminate]]].
      destruct (orientation_keeps n g1 r) as (J1 & J2 & J3). destruct (orientation n g1 r) as [g2 [o|y]]; cbn [fst snd] in *.
      * split; [|split].
        -- intros x w H. cbn. auto.
        -- intros x w H. cbn. unfold dset. destruct (String.eqb e x) eqn:E; [apply String.eqb_eq in E; congruence|]. rewrite J2. auto.
        -- intros o' H. cbn. unfold dset. rewrite String.eqb_refl. congruence.
      * split; [auto|split; [intros x w H; rewrite J2; auto|discriminate]].
    + split; [auto|]. split; [auto|]. discriminate.
Qed.
Lemma gsteps_keep n l : forall g,
  (forall x v, g_absori g x = Some v -> g_absori (fst (gsteps n g l)) x = Some v) /\
  (forall x v, g_abspos g x = Some v -> g_abspos (fst (gsteps n g l)) x = Some v).
Proof.
  induction l as [|x l IH]; intro g; [split; auto|]. cbn [GeomModel.gsteps].
  assert (K : (forall y v, g_absori g y = Some v -> g_absori (fst (gstep n g x)) y = Some v) /\
              (forall y v, g_abspos g y = Some v -> g_abspos (fst (gstep n g x)) y = Some v)).
  { destruct x as [e p o|e|e]; cbn.
    - split; auto.
    - destruct (position_keeps n g e) as (A & B & _). destruct (position n g e). split; assumption.
    - destruct (orientation_keeps n g e) as (A & B & _). destruct (orientation n g e). cbn in *. split; [exact A|]. intros y v H. rewrite B. exact H. }
  destruct (gstep n g x) as [g' a]. cbn [fst] in K. specialize (IH g'). destruct (gsteps n g' l) as [g'' l'']. cbn [fst] in *.
  destruct K, IH. split; auto.
Qed.
End Proofs.
