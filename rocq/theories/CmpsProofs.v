(** Proofs for C61 and C62: weights and lines. *)
From Coq Require Import Reals Lra Lia.
From Verif Require Import Base RotModel RotSpec RotProofs ChanModel ShapeModel ShapeSpec ShapeProofs ScatModel ScatSpec HitModel HitSpec CmpsModel CmpsSpec.
Open Scope R_scope.

(** ** Moving *)

Lemma later_propagate : forall ev t, propagate ev t = later ev t.
Proof. intros [r v s1 s2 t0 p] t. unfold propagate, later, arrow_at, on_line; cbn. f_equal. Qed.
Lemma later_0 : forall ev, later ev 0 = ev.
Proof.
  intros [[x y z] v s1 s2 t0 p]. unfold later, on_line; cbn. f_equal; [f_equal; ring|ring].
Qed.
Lemma later_later : forall ev a b, later (later ev a) b = later ev (a + b).
Proof. intros [[x y z] v s1 s2 t0 p] a b. unfold later, on_line; cbn. f_equal; [f_equal; ring|ring]. Qed.
Lemma later_p : forall ev t, e_p (later ev t) = e_p ev.
Proof. reflexivity. Qed.
Lemma later_v : forall ev t, e_v (later ev t) = e_v ev.
Proof. reflexivity. Qed.
Lemma incident_later : forall tol ev s ev', propagate_to_next_incident_surface tol ev s = Ok ev' -> exists t, ev' = later ev t.
Proof.
  intros tol ev s ev' H. unfold propagate_to_next_incident_surface in H.
  assert (K : exists t, ev = later ev t) by (exists 0; now rewrite later_0).
  destruct (locate_ev tol ev s); [discriminate H| |].
  - destruct (search _ _ _ _ _) as [t|]; injection H as <-; [exists t; apply later_propagate|exact K].
  - destruct (forward_tofs tol ev s) as [|t l]; injection H as <-; [exact K|exists t; apply later_propagate].
Qed.
Lemma exit_later : forall tol ev s ev', propagate_to_next_exiting_surface tol ev s = Ok ev' -> exists t, ev' = later ev t.
Proof.
  intros tol ev s ev' H. unfold propagate_to_next_exiting_surface in H.
  assert (K : forall e0, (exists t, e0 = later ev t) -> (if negb (loc_eqb (locate_ev tol e0 s) Onborder) then Err CppException
      else match search tol s e0 Inside (forward_tofs tol e0 s) with Some t => Ok (propagate e0 t) | None => Ok e0 end) = Ok ev' -> exists t, ev' = later ev t).
  { intros e0 [a E] G. destruct (negb _); [discriminate G|]. destruct (search _ _ _ _ _) as [t|]; injection G as <-.
    - exists (a + t). rewrite later_propagate, E. apply later_later.
    - now exists a. }
  destruct (locate_ev tol ev s); cbn [loc_eqb bind] in H.
  - destruct (forward_tofs tol ev s) as [|t l]; [discriminate H|]. injection H as <-. exists t. apply later_propagate.
  - apply (K ev); [exists 0; now rewrite later_0|exact H].
  - destruct (propagate_to_next_incident_surface tol ev s) as [e0|] eqn:E; cbn [bind] in H; [|discriminate H].
    apply (K e0); [eapply incident_later; exact E|exact H].
Qed.
Lemma out_later : forall tol ev s, exists t, propagate_out tol ev s = later ev t.
Proof. intros. unfold propagate_out. destruct (rev _) as [|t l]; [exists 0; now rewrite later_0|exists t; apply later_propagate]. Qed.

(** ** No weight is created *)

Lemma total_app : forall l l', total (l ++ l') = total l + total l'.
Proof. induction l as [|x l IH]; intros; cbn; [ring|rewrite IH; ring]. Qed.
Lemma sound_app : forall l l', sound (l ++ l') <-> sound l /\ sound l'.
Proof. intros. unfold sound. apply Forall_app. Qed.
Lemma sound_one : forall x, 0 <= e_p x -> sound [x].
Proof. intros. constructor; [assumption|constructor]. Qed.
Lemma total_pos : forall l, sound l -> 0 <= total l.
Proof. induction 1; cbn; lra. Qed.
Lemma total_filter : forall (f g : event -> bool) l, (forall x, g x = negb (f x)) -> total (filter g l) + total (filter f l) = total l.
Proof.
  intros f g l H. induction l as [|x l IH]; cbn; [ring|]. rewrite (H x). destruct (f x); cbn; lra.
Qed.
Lemma sound_filter : forall (f : event -> bool) l, sound l -> sound (filter f l).
Proof.
  intros f l H. unfold sound in *. apply Forall_forall. intros x I. apply filter_In in I. rewrite Forall_forall in H. apply H. tauto.
Qed.
Lemma total_map : forall f l, (forall x, e_p (f x) = e_p x) -> total (map f l) = total l.
Proof. intros f l H. induction l as [|x l IH]; cbn; [reflexivity|]. now rewrite H, IH. Qed.
Lemma sound_map : forall f l, (forall x, e_p (f x) = e_p x) -> sound l -> sound (map f l).
Proof. intros f l H S. unfold sound in *. apply Forall_map. eapply Forall_impl; [|exact S]. intros x. cbn. now rewrite H. Qed.

Lemma hit_in : forall tol c ev e, hit tol c ev = Some e -> In e (c_elements c).
Proof. intros tol c ev e H. unfold hit in H. destruct (find_1st_hit _ _ _ _); [|discriminate H]. eapply nth_error_In; exact H. Qed.

Lemma attenuation_01 : forall c ev stop, Forall frugal (c_elements c) -> 0 <= attenuation c ev stop <= 1.
Proof.
  intros c ev stop H. unfold attenuation. assert (K : forall l a, Forall frugal l -> 0 <= a <= 1 ->
    0 <= fold_left (fun ret e => ret * el_attenuation e (global2local ev (el_position e) (el_orientation e)) stop) l a <= 1).
  { induction l as [|e l IH]; intros a F A; cbn; [exact A|]. apply IH; [eapply Forall_inv_tail; exact F|].
    pose proof (proj2 (Forall_inv F) (global2local ev (el_position e) (el_orientation e)) stop) as B. nra. }
  apply K; [exact H|lra].
Qed.

Section gain.
Context (tol : R) (c : composite) (FR : Forall frugal (c_elements c)).

Lemma inner_event_gain : forall n ev n' out more, 0 <= e_p ev -> inner_event tol c n ev = Ok (n', out, more) ->
  sound out /\ sound more /\ total out + total more <= e_p ev.
Proof using FR.
  intros n ev n' out more P H. unfold inner_event in H. destruct (too_low _ _).
  { injection H as <- <- <-. cbn. split; [constructor|]. split; [constructor|]. lra. }
  destruct (hit tol c ev) as [e|] eqn:E.
  2:{ injection H as <- <- <-. cbn. split; [constructor; [exact P|constructor]|]. split; [constructor|]. lra. }
  destruct (el_interactM e n _) as [[itype newly]|] eqn:Q; cbn [bind] in H; [|discriminate H].
  rewrite Forall_forall in FR. pose proof (FR e (hit_in _ _ _ _ E)) as [G _]. specialize (G n (global2local ev (el_position e) (el_orientation e)) itype newly P Q). destruct G as [G1 G2]. cbn in G2.
  assert (N : sound (@nil event) /\ sound (@nil event) /\ total [] + total [] <= e_p ev) by (cbn; split; [constructor|split; [constructor|lra]]).
  set (f := fun x => local2global x (el_position e) (el_orientation e)) in *.
  assert (M : sound (map f newly)) by (apply sound_map; [reflexivity|exact G1]).
  assert (TT : total (map f newly) = total newly) by (apply total_map; reflexivity).
  destruct itype; injection H as <- <- <-; try exact N;
  (split; [now apply sound_filter|]; split; [now apply sound_filter|]; rewrite total_filter by reflexivity; lra).
Qed.
Lemma inner_round_gain : forall todo n evts again n' evts' again', sound todo -> sound evts -> sound again ->
  inner_round tol c n todo evts again = Ok (n', evts', again') -> sound evts' /\ sound again' /\ total evts' + total again' <= total evts + total again + total todo.
Proof using FR.
  induction todo as [|ev l IH]; intros n evts again n' evts' again' A B D H; cbn [inner_round] in H.
  { injection H as <- <- <-. cbn. split; [exact B|]. split; [exact D|]. lra. }
  destruct (inner_event tol c n ev) as [[[n1 out] more]|] eqn:E; cbn [bind] in H; [|discriminate H].
  destruct (inner_event_gain n ev n1 out more (Forall_inv A) E) as [K1 [K2 K3]].
  destruct (IH _ _ _ _ _ _ (Forall_inv_tail A) (proj2 (sound_app _ _) (conj B K1)) (proj2 (sound_app _ _) (conj D K2)) H) as [L1 [L2 L3]].
  split; [exact L1|]. split; [exact L2|]. rewrite !total_app in L3. cbn. lra.
Qed.
Lemma inner_loop_gain : forall left n todo evts n' evts' rest, sound todo -> sound evts ->
  inner_loop tol c left n todo evts = Ok (n', evts', rest) -> sound evts' /\ sound rest /\ total evts' + total rest <= total evts + total todo.
Proof using FR.
  induction left as [|left IH]; intros n todo evts n' evts' rest A B H; cbn [inner_loop] in H.
  { injection H as <- <- <-. split; [exact B|]. split; [exact A|]. lra. }
  destruct todo as [|x todo]. { injection H as <- <- <-. split; [exact B|]. split; [constructor|]. lra. }
  destruct (inner_round tol c n (x :: todo) evts []) as [[[n1 e1] a1]|] eqn:E; cbn [bind] in H; [|discriminate H].
  destruct (inner_round_gain _ _ _ _ _ _ _ A B (Forall_nil _) E) as [K1 [K2 K3]].
  destruct (IH _ _ _ _ _ _ K2 K1 H) as [L1 [L2 L3]]. split; [exact L1|]. split; [exact L2|]. cbn [total] in K3 |- *. lra.
Qed.
Lemma scaled_less : forall ev ev1 stop, 0 <= e_p ev -> e_p ev1 = e_p ev -> 0 <= e_p (scale_p ev1 (attenuation c ev stop)) <= e_p ev.
Proof using FR. intros ev ev1 stop P E. pose proof (attenuation_01 c ev stop FR) as A. cbn. rewrite E. nra. Qed.
Lemma inner_rest_gain : forall todo evts evts', sound todo -> sound evts -> inner_rest tol c todo evts = Ok evts' ->
  sound evts' /\ total evts' <= total evts + total todo.
Proof using FR.
  induction todo as [|ev l IH]; intros evts evts' A B H; cbn [inner_rest] in H. { injection H as <-. cbn. split; [exact B|lra]. }
  destruct (propagate_to_next_exiting_surface tol ev (c_frame c)) as [ev1|] eqn:E; cbn [bind] in H; [|discriminate H].
  destruct (exit_later _ _ _ _ E) as [t Et]. assert (P1 : e_p ev1 = e_p ev) by (rewrite Et; reflexivity).
  pose proof (scaled_less ev ev1 (e_r ev1) (Forall_inv A) P1) as S1.
  destruct (IH _ _ (Forall_inv_tail A) (proj2 (sound_app _ _) (conj B (sound_one (scale_p ev1 (attenuation c ev (e_r ev1))) (proj1 S1)))) H) as [L1 L2].
  split; [exact L1|]. rewrite total_app in L2. cbn [total] in L2 |- *. lra.
Qed.
Lemma interactM_gain : forall n ev evts n' i evts', 0 <= e_p ev -> sound evts -> interactM_path1 tol c n ev evts = Ok (n', i, evts') ->
  sound evts' /\ total evts' <= total evts + e_p ev.
Proof using FR.
  intros n ev evts n' i evts' P B H. unfold interactM_path1 in H.
  destruct (if loc_eqb _ _ then _ else _) as [ev1|] eqn:E; cbn [bind] in H; [|discriminate H].
  assert (P1 : e_p ev1 = e_p ev).
  { destruct (loc_eqb _ _) in E; [destruct (incident_later _ _ _ _ E) as [t ->]; reflexivity|injection E as <-; reflexivity]. }
  destruct (inner_loop _ _ _ _ _ _) as [[[n1 e1] rest]|] eqn:L; cbn [bind] in H; [|discriminate H].
  destruct (inner_rest _ _ _ _) as [e2|] eqn:Q; cbn [bind] in H; [|discriminate H]. injection H as <- <- <-.
  destruct (inner_loop_gain _ _ _ _ _ _ _ (sound_one ev1 (eq_ind_r (fun z => 0 <= z) P P1)) B L) as [K1 [K2 K3]].
  destruct (inner_rest_gain _ _ _ K2 K1 Q) as [M1 M2]. split; [exact M1|]. cbn [total] in K3. lra.
Qed.
Lemma nudge_gain : forall ev l, total (nudge ev l) = total l /\ (sound l -> sound (nudge ev l)).
Proof using.
  intros ev l. unfold nudge. destruct l as [|x [|y l]]; try (split; [reflexivity|now intros]).
  destruct (Req_EM_T _ _); [split; [reflexivity|now intros]|]. destruct (Rltb _ _); [|split; [reflexivity|now intros]].
  split; [reflexivity|]. intros S. constructor; [exact (Forall_inv S)|constructor].
Qed.
Lemma outer_round_gain : forall todo n evts s2 n' evts' s2', sound todo -> sound evts -> sound s2 ->
  outer_round tol c n todo evts s2 = Ok (n', evts', s2') -> sound evts' /\ sound s2' /\ total evts' + total s2' <= total evts + total s2 + total todo.
Proof using FR.
  induction todo as [|ev l IH]; intros n evts s2 n' evts' s2' A B D H; cbn [outer_round] in H.
  { injection H as <- <- <-. cbn. split; [exact B|]. split; [exact D|]. lra. }
  pose proof (Forall_inv A) as P. pose proof (Forall_inv_tail A) as A'. cbn [total].
  destruct (too_low _ _). { destruct (IH _ _ _ _ _ _ A' B D H) as [K1 [K2 K3]]. split; [exact K1|]. split; [exact K2|]. lra. }
  destruct (negb _). { destruct (IH _ _ _ _ _ _ A' B D H) as [K1 [K2 K3]]. split; [exact K1|]. split; [exact K2|]. lra. }
  destruct (is_exiting _ _ _).
  { destruct (IH _ _ _ _ _ _ A' (proj2 (sound_app _ _) (conj B (sound_one ev P))) D H) as [K1 [K2 K3]].
    split; [exact K1|]. split; [exact K2|]. rewrite total_app in K3. cbn [total] in K3. lra. }
  destruct (interactM_path1 tol c n ev s2) as [[[n1 i1] s1]|] eqn:E; cbn [bind] in H; [|discriminate H].
  destruct (interactM_gain _ _ _ _ _ _ P D E) as [G1 G2]. destruct (nudge_gain ev s1) as [N1 N2].
  destruct (IH _ _ _ _ _ _ A' B (N2 G1) H) as [K1 [K2 K3]]. split; [exact K1|]. split; [exact K2|]. lra.
Qed.
Lemma outer_loop_gain : forall left n todo evts n' evts' rest, sound todo -> sound evts ->
  outer_loop tol c left n todo evts = Ok (n', evts', rest) -> sound evts' /\ sound rest /\ total evts' + total rest <= total evts + total todo.
Proof using FR.
  induction left as [|left IH]; intros n todo evts n' evts' rest A B H; cbn [outer_loop] in H.
  { injection H as <- <- <-. split; [exact B|]. split; [exact A|]. lra. }
  destruct todo as [|x todo]. { injection H as <- <- <-. split; [exact B|]. split; [constructor|]. lra. }
  destruct (outer_round tol c n (x :: todo) evts []) as [[[n1 e1] a1]|] eqn:E; cbn [bind] in H; [|discriminate H].
  destruct (outer_round_gain _ _ _ _ _ _ _ A B (Forall_nil _) E) as [K1 [K2 K3]].
  destruct (IH _ _ _ _ _ _ K2 K1 H) as [L1 [L2 L3]]. split; [exact L1|]. split; [exact L2|]. cbn [total] in K3 |- *. lra.
Qed.
Lemma rest_gain : forall l, sound l -> sound (map (outer_rest tol c) l) /\ total (map (outer_rest tol c) l) <= total l.
Proof using FR.
  induction 1 as [|x l P S [IH1 IH2]]; cbn [map total]; [split; [constructor|lra]|].
  destruct (out_later tol x (c_frame c)) as [t Et].
  pose proof (scaled_less x (propagate_out tol x (c_frame c)) (e_r (propagate_out tol x (c_frame c))) P ltac:(rewrite Et; reflexivity)) as K.
  change (0 <= e_p (outer_rest tol c x) <= e_p x) in K. split; [constructor; [exact (proj1 K)|exact IH1]|]. lra.
Qed.
Lemma scatterM_gain : forall n ev out, 0 <= e_p ev -> scatterM tol c n ev = Ok out -> sound out /\ total out <= e_p ev.
Proof using FR.
  intros n ev out P H. unfold scatterM in H. destruct (outer_loop _ _ _ _ _ _) as [[[n1 e1] rest]|] eqn:E; cbn [bind] in H; [|discriminate H].
  injection H as <-. destruct (outer_loop_gain _ _ _ _ _ _ _ (sound_one ev P) (Forall_nil _) E) as [K1 [K2 K3]].
  destruct (rest_gain _ K2) as [L1 L2]. split; [apply sound_app; now split|]. rewrite total_app. cbn [total] in K3. lra.
Qed.
End gain.
