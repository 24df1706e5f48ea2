(** Proofs for C61 and C62: the weight is a factor; lines are kept. *)
From Coq Require Import Reals Lra Lia.
From Verif Require Import Base RotModel RotSpec RotProofs ChanModel ChanProofs ShapeModel ShapeSpec ShapeProofs ScatModel ScatSpec HitModel HitSpec CmpsModel CmpsSpec CmpsProofs.
Open Scope R_scope.

Lemma times_propagate : forall k ev t, propagate (times k ev) t = times k (propagate ev t).
Proof. reflexivity. Qed.
Lemma times_incident : forall k tol ev s, propagate_to_next_incident_surface tol (times k ev) s = over (times k) (propagate_to_next_incident_surface tol ev s).
Proof.
  intros. unfold propagate_to_next_incident_surface, locate_ev, forward_tofs. cbn [e_r e_v times].
  destruct (locate tol s (e_r ev)); [reflexivity| |].
  - change (search tol s (times k ev)) with (search tol s (times k ev)). assert (E : forall l, search tol s (times k ev) Outside l = search tol s ev Outside l).
    { induction l as [|t l IH]; cbn; [reflexivity|]. destruct (locate _ _ _); try reflexivity. exact IH. }
    rewrite E. destruct (search tol s ev Outside _); reflexivity.
  - destruct (forward_intersect _ _ _ _); reflexivity.
Qed.
Lemma times_search : forall k tol ev s w l, search tol s (times k ev) w l = search tol s ev w l.
Proof. intros. induction l as [|t l IH]; cbn; [reflexivity|]. destruct (locate _ _ _); try reflexivity. exact IH. Qed.
Lemma times_exit : forall k tol ev s, propagate_to_next_exiting_surface tol (times k ev) s = over (times k) (propagate_to_next_exiting_surface tol ev s).
Proof.
  intros. unfold propagate_to_next_exiting_surface. rewrite times_incident. unfold locate_ev at 1 2, forward_tofs at 1. cbn [e_r e_v times].
  unfold locate_ev at 2 3. assert (K : forall e0, (if negb (loc_eqb (locate_ev tol (times k e0) s) Onborder) then Err CppException
      else match search tol s (times k e0) Inside (forward_tofs tol (times k e0) s) with Some t => Ok (propagate (times k e0) t) | None => Ok (times k e0) end) =
    over (times k) (if negb (loc_eqb (locate_ev tol e0 s) Onborder) then Err CppException
      else match search tol s e0 Inside (forward_tofs tol e0 s) with Some t => Ok (propagate e0 t) | None => Ok e0 end)).
  { intros e0. change (locate_ev tol (times k e0) s) with (locate_ev tol e0 s). change (forward_tofs tol (times k e0) s) with (forward_tofs tol e0 s).
    destruct (negb _); [reflexivity|]. rewrite times_search. destruct (search _ _ _ _ _); reflexivity. }
  destruct (locate tol s (e_r ev)) eqn:L; cbn [loc_eqb bind].
  - unfold forward_tofs. destruct (forward_intersect _ _ _ _); reflexivity.
  - apply K.
  - destruct (propagate_to_next_incident_surface tol ev s) as [e0|]; cbn [over bind]; [apply K|reflexivity].
Qed.
Lemma times_out : forall k tol ev s, propagate_out tol (times k ev) s = times k (propagate_out tol ev s).
Proof. intros. unfold propagate_out, all_tofs. cbn [e_r e_v times]. destruct (rev _); reflexivity. Qed.
Lemma times_exiting : forall k tol ev s, is_exiting tol (times k ev) s = is_exiting tol ev s.
Proof.
  intros. unfold is_exiting, locate_ev, forward_tofs. cbn [e_r e_v times]. destruct (locate _ _ _); try reflexivity; destruct (forward_intersect _ _ _ _) as [|t l]; try reflexivity.
  cbn [loc_eqb]. generalize 0. revert t. induction l as [|t' l IH]; intros t a; cbn [all_onborder e_r e_v times]; [reflexivity|]. f_equal. apply IH.
Qed.
Lemma times_g2l : forall k ev p m, global2local (times k ev) p m = times k (global2local ev p m).
Proof. reflexivity. Qed.
Lemma times_l2g : forall k ev p m, local2global (times k ev) p m = times k (local2global ev p m).
Proof. reflexivity. Qed.
Lemma times_scale : forall k ev a, scale_p (times k ev) a = times k (scale_p ev a).
Proof. intros k [r v s1 s2 t p] a. unfold scale_p, times; cbn. f_equal. ring. Qed.
Lemma hit_times : forall k tol c ev, hit tol c (times k ev) = hit tol c ev.
Proof. reflexivity. Qed.
Lemma filter_times : forall k (f : event -> bool) l, (forall x, f (times k x) = f x) -> filter f (map (times k) l) = map (times k) (filter f l).
Proof. intros k f l H. induction l as [|x l IH]; cbn; [reflexivity|]. rewrite H, IH. destruct (f x); reflexivity. Qed.
Lemma fold_same : forall (e : list element) (f g : element -> R) a, (forall x, In x e -> f x = g x) -> fold_left (fun r x => r * f x) e a = fold_left (fun r x => r * g x) e a.
Proof.
  induction e as [|x e IH]; intros f g a H; cbn; [reflexivity|]. rewrite (H x (or_introl eq_refl)). apply IH. intros y I. apply H. now right.
Qed.

Section factor.
Context (tol k : R) (c : composite) (K : 0 < k) (MIN : c_min c <= 0).
Let tri (r : nat * list event * list event) := (fst (fst r), map (times k) (snd (fst r)), map (times k) (snd r)).

Lemma never_low : forall ev, too_low (c_min c) ev = false.
Proof using MIN.
  intros. unfold too_low. destruct (Rleb 0 (e_p ev)) eqn:A; [|reflexivity]. cbn [andb]. apply Rltb_f. unfold Rleb in A. destruct (Rle_dec 0 (e_p ev)); [lra|discriminate A].
Qed.

Section many.
Context (LIN : Forall linearM (c_elements c)).
Lemma times_attenuationM : forall ev stop, attenuation c (times k ev) stop = attenuation c ev stop.
Proof using K LIN.
  intros. unfold attenuation. apply fold_same. intros e I. rewrite Forall_forall in LIN. rewrite times_g2l. apply (proj2 (LIN e I)), K.
Qed.
Lemma inner_event_times : forall n ev, inner_event tol c n (times k ev) = over tri (inner_event tol c n ev).
Proof using K MIN LIN.
  intros n ev. unfold inner_event. rewrite !never_low, hit_times. destruct (hit tol c ev) as [e|] eqn:E; [|reflexivity].
  rewrite times_g2l. rewrite Forall_forall in LIN. rewrite (proj1 (LIN e (hit_in _ _ _ _ E)) k n _ K).
  destruct (el_interactM e n _) as [[itype l]|]; cbn [over bind fst snd]; [|reflexivity].
  assert (F : map (fun x => local2global x (el_position e) (el_orientation e)) (map (times k) l) = map (times k) (map (fun x => local2global x (el_position e) (el_orientation e)) l)).
  { rewrite !map_map. apply map_ext. intros. reflexivity. }
  destruct itype; cbn [over]; unfold tri; cbn [fst snd]; try reflexivity; rewrite F, !filter_times by (intros; reflexivity); reflexivity.
Qed.
Lemma inner_round_times : forall todo n evts again, inner_round tol c n (map (times k) todo) (map (times k) evts) (map (times k) again) = over tri (inner_round tol c n todo evts again).
Proof using K MIN LIN.
  induction todo as [|ev l IH]; intros; cbn [map inner_round]; [reflexivity|]. rewrite inner_event_times.
  destruct (inner_event tol c n ev) as [[[n1 o] m]|]; cbn [over bind]; [|reflexivity]. unfold tri at 1. cbn [fst snd]. rewrite <- !map_app. apply IH.
Qed.
Lemma inner_loop_times : forall left n todo evts, inner_loop tol c left n (map (times k) todo) (map (times k) evts) = over tri (inner_loop tol c left n todo evts).
Proof using K MIN LIN.
  induction left as [|left IH]; intros; cbn [inner_loop]; [reflexivity|]. destruct todo as [|x todo]; [reflexivity|]. cbn [map].
  change (times k x :: map (times k) todo) with (map (times k) (x :: todo)). change (@nil event) with (map (times k) []) at 1. rewrite inner_round_times.
  destruct (inner_round tol c n (x :: todo) evts []) as [[[n1 o] m]|]; cbn [over bind]; [|reflexivity]. unfold tri at 1. cbn [fst snd]. apply IH.
Qed.
Lemma inner_rest_times : forall todo evts, inner_rest tol c (map (times k) todo) (map (times k) evts) = over (map (times k)) (inner_rest tol c todo evts).
Proof using K LIN.
  induction todo as [|ev l IH]; intros; cbn [map inner_rest]; [reflexivity|]. rewrite times_exit.
  destruct (propagate_to_next_exiting_surface tol ev (c_frame c)) as [ev1|]; cbn [over bind]; [|reflexivity].
  rewrite times_attenuationM, times_scale. change (e_r (times k ev1)) with (e_r ev1). change [times k (scale_p ev1 (attenuation c ev (e_r ev1)))] with (map (times k) [scale_p ev1 (attenuation c ev (e_r ev1))]).
  rewrite <- map_app. apply IH.
Qed.
Lemma interactM_times : forall n ev evts, interactM_path1 tol c n (times k ev) (map (times k) evts) =
  over (fun r => (fst r, map (times k) (snd r))) (interactM_path1 tol c n ev evts).
Proof using K MIN LIN.
  intros. unfold interactM_path1. change (locate_ev tol (times k ev) (c_frame c)) with (locate_ev tol ev (c_frame c)). rewrite times_incident.
  assert (G : forall e0, (let! r := inner_loop tol c (c_inner_loops c) n [times k e0] (map (times k) evts) in
      let '(n', evts', rest) := r in let! evts'' := inner_rest tol c rest evts' in Ok (n', match evts'' with [] => Absorption | _ => Scattering end, evts'')) =
    over (fun r => (fst r, map (times k) (snd r))) (let! r := inner_loop tol c (c_inner_loops c) n [e0] evts in
      let '(n', evts', rest) := r in let! evts'' := inner_rest tol c rest evts' in Ok (n', match evts'' with [] => Absorption | _ => Scattering end, evts''))).
  { intros e0. change [times k e0] with (map (times k) [e0]). rewrite inner_loop_times. destruct (inner_loop _ _ _ _ _ _) as [[[n1 o] m]|]; cbn [over bind]; [|reflexivity].
    unfold tri. cbn [fst snd]. rewrite inner_rest_times. destruct (inner_rest tol c m o) as [e2|]; cbn [over bind fst snd]; [|reflexivity]. destruct e2; reflexivity. }
  destruct (loc_eqb _ _); [|apply G]. destruct (propagate_to_next_incident_surface tol ev (c_frame c)) as [e0|]; cbn [over bind]; [apply G|reflexivity].
Qed.
Lemma nudge_times : forall ev l, nudge (times k ev) (map (times k) l) = map (times k) (nudge ev l).
Proof using K.
  intros ev l. destruct l as [|x [|y l]]; cbn [map nudge]; try reflexivity. cbn [e_p times].
  replace (Rabs (k * e_p x - k * e_p ev)) with (k * Rabs (e_p x - e_p ev)).
  2:{ replace (k * e_p x - k * e_p ev) with (k * (e_p x - e_p ev)) by ring. rewrite Rabs_mult, (Rabs_right k); lra. }
  destruct (Req_EM_T (e_p ev) 0) as [Z|Z]; destruct (Req_EM_T (k * e_p ev) 0) as [Y|Y]; try reflexivity.
  - exfalso. apply Y. rewrite Z. ring.
  - exfalso. apply Rmult_integral in Y. destruct Y; [lra|contradiction].
  - replace (k * Rabs (e_p x - e_p ev) / (k * e_p ev)) with (Rabs (e_p x - e_p ev) / e_p ev) by (field; split; [exact Z|lra]).
    destruct (Rltb _ _); reflexivity.
Qed.
Lemma outer_round_times : forall todo n evts s2, outer_round tol c n (map (times k) todo) (map (times k) evts) (map (times k) s2) = over tri (outer_round tol c n todo evts s2).
Proof using K MIN LIN.
  induction todo as [|ev l IH]; intros; cbn [map outer_round]; [reflexivity|]. rewrite !never_low. change (is_moving (times k ev)) with (is_moving ev).
  destruct (negb _); [apply IH|]. rewrite times_exiting. destruct (is_exiting _ _ _).
  { change [times k ev] with (map (times k) [ev]). rewrite <- map_app. apply IH. }
  rewrite interactM_times. destruct (interactM_path1 tol c n ev s2) as [[[n1 i] s3]|]; cbn [over bind fst snd]; [|reflexivity].
  rewrite nudge_times. apply IH.
Qed.
Lemma outer_loop_times : forall left n todo evts, outer_loop tol c left n (map (times k) todo) (map (times k) evts) = over tri (outer_loop tol c left n todo evts).
Proof using K MIN LIN.
  induction left as [|left IH]; intros; cbn [outer_loop]; [reflexivity|]. destruct todo as [|x todo]; [reflexivity|]. cbn [map].
  change (times k x :: map (times k) todo) with (map (times k) (x :: todo)). change (@nil event) with (map (times k) []) at 1. rewrite outer_round_times.
  destruct (outer_round tol c n (x :: todo) evts []) as [[[n1 o] m]|]; cbn [over bind]; [|reflexivity]. unfold tri at 1. cbn [fst snd]. apply IH.
Qed.
Lemma scatterM_times : forall n ev, scatterM tol c n (times k ev) = over (map (times k)) (scatterM tol c n ev).
Proof using K MIN LIN.
  intros. unfold scatterM. pose proof (outer_loop_times (c_loops c) n [ev] []) as G. cbn [map] in G. rewrite G. clear G.
  destruct (outer_loop tol c (c_loops c) n [ev] []) as [[[n1 o] m]|]; cbn [over bind]; [|reflexivity]. unfold tri. cbn [fst snd]. rewrite map_app. f_equal. f_equal.
  rewrite !map_map. apply map_ext. intros x. unfold outer_rest. rewrite times_out, times_attenuationM, times_scale. reflexivity.
Qed.
End many.

Section one.
Context (LIN : Forall linear (c_elements c)).
Lemma times_attenuation : forall ev stop, attenuation c (times k ev) stop = attenuation c ev stop.
Proof using K LIN.
  intros. unfold attenuation. apply fold_same. intros e I. rewrite Forall_forall in LIN. rewrite times_g2l. apply (proj2 (LIN e I)), K.
Qed.
(* absorbed events have the weight -1 *)
Definition factor_of (r : nat * interaction * event) : nat * interaction * event :=
  (fst r, match snd (fst r) with Absorption => snd r | _ => times k (snd r) end).
Lemma interact_times : forall fuel n ev, c_interact_path1 fuel tol c n (times k ev) = over factor_of (c_interact_path1 fuel tol c n ev).
Proof using K LIN.
  induction fuel as [|fuel IH]; intros n ev; cbn [c_interact_path1]; [reflexivity|]. rewrite hit_times. destruct (hit tol c ev) as [e|] eqn:E.
  2:{ rewrite times_exit. destruct (propagate_to_next_exiting_surface _ _ _); reflexivity. }
  rewrite times_g2l. pose proof LIN as LIN'. rewrite Forall_forall in LIN'. rewrite (proj1 (LIN' e (hit_in _ _ _ _ E)) k n _ K).
  destruct (el_interact e n _) as [[itype x]|]; cbn [over bind fst snd]; [|reflexivity].
  rewrite times_l2g. set (x1 := local2global x (el_position e) (el_orientation e)). change (locate_ev tol (times k x1) (c_frame c)) with (locate_ev tol x1 (c_frame c)).
  destruct itype.
  - reflexivity.
  - rewrite times_exit. destruct (loc_eqb _ _); cbn [over bind].
    + destruct (propagate_to_next_exiting_surface _ _ _) as [x2|]; cbn [over bind]; [|reflexivity]. unfold factor_of. cbn [fst snd]. rewrite times_attenuation, times_scale. reflexivity.
    + unfold factor_of. cbn [fst snd]. rewrite times_attenuation, times_scale. reflexivity.
  - destruct (negb _); [reflexivity|]. apply IH.
Qed.
Lemma interact_absorbed : forall fuel n ev n' x, c_interact_path1 fuel tol c n ev = Ok (n', Absorption, x) -> e_p x = -1.
Proof using.
  induction fuel as [|fuel IH]; intros n ev n' x H; cbn [c_interact_path1] in H; [discriminate H|]. destruct (hit tol c ev) as [e|].
  2:{ destruct (propagate_to_next_exiting_surface _ _ _); discriminate H. }
  destruct (el_interact e n _) as [[itype y]|]; cbn [bind] in H; [|discriminate H]. destruct itype.
  - injection H as _ <-. reflexivity.
  - destruct (if loc_eqb _ _ then _ else _); discriminate H.
  - destruct (negb _); [discriminate H|]. eapply IH; exact H.
Qed.
Lemma scatter_times : forall fuel n ev x, scatter fuel tol c n ev = Ok x ->
  scatter fuel tol c n (times k ev) = Ok (times k x) \/ (e_p x = -1 /\ scatter fuel tol c n (times k ev) = Ok x).
Proof using K LIN.
  induction fuel as [|fuel IH]; intros n ev x H; cbn [scatter] in H |- *; [discriminate H|].
  change (is_moving (times k ev)) with (is_moving ev). destruct (negb _). { injection H as <-. right. split; reflexivity. }
  rewrite !times_exiting. destruct (is_exiting tol ev (c_frame c)). { injection H as <-. now left. }
  destruct (is_exiting tol ev (c_union c)). { rewrite times_exit, H. now left. }
  rewrite interact_times. destruct (c_interact_path1 fuel tol c n ev) as [[[n1 i] e1]|] eqn:E; cbn [over bind] in H |- *; [|discriminate H].
  unfold factor_of. cbn [fst snd]. destruct i.
  - injection H as <-. right. split; [eapply interact_absorbed; exact E|reflexivity].
  - left. change (all_tofs tol (times k e1) (c_frame c)) with (all_tofs tol e1 (c_frame c)). destruct (all_tofs _ _ _); injection H as <-; [reflexivity|].
    rewrite times_out, times_attenuation, times_scale. reflexivity.
  - rewrite times_incident. destruct (propagate_to_next_incident_surface tol e1 (c_union c)) as [e2|]; cbn [over bind] in H |- *; [|discriminate H]. apply IH, H.
Qed.
Lemma scatter_times_err : forall fuel n ev x, scatter fuel tol c n ev = Err x -> scatter fuel tol c n (times k ev) = Err x.
Proof using K LIN.
  induction fuel as [|fuel IH]; intros n ev x H; cbn [scatter] in H |- *; [exact H|].
  change (is_moving (times k ev)) with (is_moving ev). destruct (negb _); [discriminate H|].
  rewrite !times_exiting. destruct (is_exiting tol ev (c_frame c)); [discriminate H|].
  destruct (is_exiting tol ev (c_union c)). { rewrite times_exit, H. reflexivity. }
  rewrite interact_times. destruct (c_interact_path1 fuel tol c n ev) as [[[n1 i] e1]|] eqn:E; cbn [over bind] in H |- *; [|exact H].
  unfold factor_of. cbn [fst snd]. destruct i; [discriminate H| |].
  - destruct (all_tofs _ _ _); discriminate H.
  - rewrite times_incident. destruct (propagate_to_next_incident_surface tol e1 (c_union c)) as [e2|]; cbn [over bind] in H |- *; [|exact H]. apply IH, H.
Qed.
End one.
End factor.

(** ** Transparent elements *)

Lemma g2l_l2g : forall ev p m t, orthogonal m -> local2global (later (global2local ev p m) t) p m = later ev t.
Proof.
  intros [r v s1 s2 t0 w] p m t O. unfold local2global, later, global2local; cbn.
  assert (A : forall a, dot_mv m (dot_mv (transpose m) a) = a) by (intros a; apply orth_right; exact O).
  f_equal; [|apply A]. replace (on_line (dot_mv (transpose m) (vsub r p)) (dot_mv (transpose m) v) t) with (dot_mv (transpose m) (vadd (vsub r p) (vscale t v))).
  - rewrite A. apply vec_eq; cbn; ring.
  - apply vec_eq; cbn; ring.
Qed.
(* exactly one event, in one of the two lists *)
Definition in_one (ev : event) (a b : list event) : Prop := exists t, (a = [later ev t] /\ b = []) \/ (a = [] /\ b = [later ev t]).

Lemma attenuation_one : forall c ev stop, (forall e, In e (c_elements c) -> forall x s, el_attenuation e x s = 1) -> attenuation c ev stop = 1.
Proof.
  intros c ev stop H. unfold attenuation. assert (K : forall l a, (forall e, In e l -> forall x s, el_attenuation e x s = 1) ->
    fold_left (fun ret e => ret * el_attenuation e (global2local ev (el_position e) (el_orientation e)) stop) l a = a).
  { induction l as [|e l IH]; intros a G; cbn; [reflexivity|]. rewrite (G e (or_introl eq_refl)), Rmult_1_r. apply IH. intros e' I. apply G. now right. }
  apply K, H.
Qed.
Lemma scale_1 : forall ev, scale_p ev 1 = ev.
Proof. intros [r v s1 s2 t p]. unfold scale_p; cbn. f_equal. ring. Qed.

Section straight.
Context (tol : R) (c : composite) (OR : Forall (fun e => orthogonal (el_orientation e)) (c_elements c)).

Section many.
Context (TR : Forall transparentM (c_elements c)) (ev : event) (LOW : too_low (c_min c) ev = false) (MV : is_moving ev = true).
Lemma attenuation_1M : forall x stop, attenuation c x stop = 1.
Proof using TR. intros. apply attenuation_one. intros e I. rewrite Forall_forall in TR. apply (proj2 (TR e I)). Qed.
Lemma inner_event_straight : forall n t n' out more, inner_event tol c n (later ev t) = Ok (n', out, more) -> in_one ev out more.
Proof using OR TR LOW.
  intros n t n' out more H. unfold inner_event in H. change (too_low (c_min c) (later ev t)) with (too_low (c_min c) ev) in H. rewrite LOW in H.
  destruct (hit tol c (later ev t)) as [e|] eqn:E. 2:{ injection H as <- <- <-. exists t. now left. }
  destruct (el_interactM e n _) as [[itype l]|] eqn:Q; cbn [bind] in H; [|discriminate H].
  pose proof (hit_in _ _ _ _ E) as I. rewrite Forall_forall in OR, TR. destruct (proj1 (TR e I) _ _ _ _ Q) as [NA [t' Et]]. subst l.
  cbn [map] in H. rewrite g2l_l2g, later_later in H by exact (OR e I).
  destruct itype; [congruence| |]; injection H as <- <- <-; exists (t + t'); cbn [filter]; destruct (loc_eqb _ _); cbn [negb]; tauto.
Qed.
Lemma inner_loop_straight : forall left n evts todo n' evts' rest, in_one ev evts todo -> inner_loop tol c left n todo evts = Ok (n', evts', rest) -> in_one ev evts' rest.
Proof using OR TR LOW.
  induction left as [|left IH]; intros n evts todo n' evts' rest I H; cbn [inner_loop] in H. { injection H as <- <- <-. exact I. }
  destruct I as [t [[-> ->]|[-> ->]]]. { injection H as <- <- <-. exists t. now left. }
  cbn [inner_round app] in H. destruct (inner_event tol c n (later ev t)) as [[[n1 o] m]|] eqn:E; cbn [bind] in H; [|discriminate H].
  eapply IH; [|exact H]. eapply inner_event_straight; exact E.
Qed.
Lemma inner_rest_straight : forall evts rest evts', in_one ev evts rest -> inner_rest tol c rest evts = Ok evts' -> exists t, evts' = [later ev t].
Proof using TR.
  intros evts rest evts' [t [[-> ->]|[-> ->]]] H; cbn [inner_rest] in H. { injection H as <-. now exists t. }
  destruct (propagate_to_next_exiting_surface _ _ _) as [x|] eqn:E; cbn [bind app] in H; [|discriminate H]. injection H as <-.
  destruct (exit_later _ _ _ _ E) as [t' ->]. rewrite attenuation_1M, scale_1, later_later. now exists (t + t').
Qed.
Lemma interactM_straight : forall n t n' i evts', interactM_path1 tol c n (later ev t) [] = Ok (n', i, evts') -> exists t, evts' = [later ev t].
Proof using OR TR LOW.
  intros n t n' i evts' H. unfold interactM_path1 in H. destruct (if loc_eqb _ _ then _ else _) as [x|] eqn:E; cbn [bind] in H; [|discriminate H].
  assert (X : exists t', x = later ev t').
  { destruct (loc_eqb _ _) in E; [destruct (incident_later _ _ _ _ E) as [t' ->]; exists (t + t'); apply later_later|injection E as <-; now exists t]. }
  destruct X as [t' ->]. destruct (inner_loop _ _ _ _ _ _) as [[[n1 o] m]|] eqn:L; cbn [bind] in H; [|discriminate H].
  destruct (inner_rest _ _ _ _) as [e2|] eqn:Q; cbn [bind] in H; [|discriminate H]. injection H as <- <- <-.
  eapply inner_rest_straight; [|exact Q]. eapply inner_loop_straight; [|exact L]. exists t'. now right.
Qed.
Lemma outer_loop_straight : forall left n evts todo n' evts' rest, in_one ev evts todo -> outer_loop tol c left n todo evts = Ok (n', evts', rest) -> in_one ev evts' rest.
Proof using OR TR LOW MV.
  induction left as [|left IH]; intros n evts todo n' evts' rest I H; cbn [outer_loop] in H. { injection H as <- <- <-. exact I. }
  destruct I as [t [[-> ->]|[-> ->]]]. { injection H as <- <- <-. exists t. now left. }
  cbn [outer_round app] in H. change (too_low (c_min c) (later ev t)) with (too_low (c_min c) ev) in H. change (is_moving (later ev t)) with (is_moving ev) in H.
  rewrite LOW, MV in H. cbn [negb] in H. destruct (is_exiting _ _ _); cbn [bind] in H. { eapply IH; [|exact H]. exists t. now left. }
  destruct (interactM_path1 tol c n (later ev t) []) as [[[n1 i] s]|] eqn:E; cbn [bind] in H; [|discriminate H].
  eapply IH; [|exact H]. destruct (interactM_straight _ _ _ _ _ E) as [t' ->]. cbn [nudge].
  destruct (Req_EM_T _ _); [exists t'; now right|]. destruct (Rltb _ _); [|exists t'; now right].
  rewrite later_propagate, later_later. eexists. right. split; reflexivity.
Qed.
Lemma scatterM_straight : forall n out, scatterM tol c n ev = Ok out -> exists t, out = [later ev t].
Proof using OR TR LOW MV.
  intros n out H. unfold scatterM in H. destruct (outer_loop _ _ _ _ _ _) as [[[n1 e1] rest]|] eqn:E; cbn [bind] in H; [|discriminate H]. injection H as <-.
  assert (I : in_one ev [] [ev]) by (exists 0; right; rewrite later_0; split; reflexivity).
  destruct (outer_loop_straight _ _ _ _ _ _ _ I E) as [t [[-> ->]|[-> ->]]]; cbn [map app]; [now exists t|].
  unfold outer_rest. rewrite attenuation_1M, scale_1. destruct (out_later tol (later ev t) (c_frame c)) as [t' ->]. rewrite later_later. now exists (t + t').
Qed.
End many.

Section one.
Context (TR : Forall transparent (c_elements c)).
Lemma attenuation_1 : forall x stop, attenuation c x stop = 1.
Proof using TR. intros. apply attenuation_one. intros e I. rewrite Forall_forall in TR. apply (proj2 (TR e I)). Qed.
Lemma interact_straight : forall fuel n ev n' i x, c_interact_path1 fuel tol c n ev = Ok (n', i, x) -> i <> Absorption /\ exists t, x = later ev t.
Proof using OR TR.
  induction fuel as [|fuel IH]; intros n ev n' i x H; cbn [c_interact_path1] in H; [discriminate H|]. destruct (hit tol c ev) as [e|] eqn:E.
  2:{ destruct (propagate_to_next_exiting_surface _ _ _) as [y|] eqn:Q; cbn [bind] in H; [|discriminate H]. injection H as <- <- <-. split; [discriminate|]. eapply exit_later; exact Q. }
  destruct (el_interact e n _) as [[itype y]|] eqn:Q; cbn [bind] in H; [|discriminate H].
  pose proof (hit_in _ _ _ _ E) as I. pose proof (proj1 (Forall_forall _ _) OR e I) as O1. pose proof (proj1 (Forall_forall _ _) TR e I) as T1.
  destruct (proj1 T1 _ _ _ _ Q) as [NA [t Et]]. subst y. rewrite g2l_l2g in H by exact O1. destruct itype; [congruence| |].
  - destruct (if loc_eqb _ _ then _ else _) as [x2|] eqn:W; cbn [bind] in H; [|discriminate H]. injection H as <- <- <-. split; [discriminate|].
    rewrite attenuation_1, scale_1. destruct (loc_eqb _ _) in W; [|injection W as <-; now exists t].
    destruct (exit_later _ _ _ _ W) as [t' ->]. rewrite later_later. now exists (t + t').
  - destruct (negb _); [injection H as <- <- <-; split; [discriminate|now exists t]|].
    destruct (IH _ _ _ _ _ H) as [NI [t' ->]]. split; [exact NI|]. rewrite later_later. now exists (t + t').
Qed.
Lemma scatter_straight : forall fuel n ev x, is_moving ev = true -> scatter fuel tol c n ev = Ok x -> exists t, x = later ev t.
Proof using OR TR.
  induction fuel as [|fuel IH]; intros n ev x M H; cbn [scatter] in H; [discriminate H|]. rewrite M in H. cbn [negb] in H.
  assert (Z : exists t, ev = later ev t) by (exists 0; now rewrite later_0).
  destruct (is_exiting tol ev (c_frame c)). { injection H as <-. exact Z. }
  destruct (is_exiting tol ev (c_union c)). { eapply exit_later; exact H. }
  destruct (c_interact_path1 fuel tol c n ev) as [[[n1 i] e1]|] eqn:E; cbn [bind] in H; [|discriminate H].
  destruct (interact_straight _ _ _ _ _ _ E) as [NA [t Et]]. destruct i; [congruence| |].
  - destruct (all_tofs _ _ _); injection H as <-; [now exists t|]. rewrite attenuation_1, scale_1. destruct (out_later tol e1 (c_frame c)) as [t' Eq].
    rewrite Eq, Et, later_later. now exists (t + t').
  - destruct (propagate_to_next_incident_surface _ _ _) as [e2|] eqn:Q; cbn [bind] in H; [|discriminate H].
    destruct (incident_later _ _ _ _ Q) as [t' Et']. assert (M2 : is_moving e2 = true) by (rewrite Et', Et; exact M).
    destruct (IH _ _ _ M2 H) as [t'' ->]. rewrite Et', Et, !later_later. eexists; reflexivity.
Qed.
End one.
End straight.
