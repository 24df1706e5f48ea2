(** Proofs for C37, second part. *)
From Coq Require Import Reals Lra Psatz.
From Coquelicot Require Import Coquelicot.
From Verif Require Import Base RotModel RotSpec ChanModel ChanProofs ShapeModel ShapeSpec ShapeProofs ShapeProofs2 ScatModel ScatSpec ScatProofs ScatProofs2 ScatProofs3.
Open Scope R_scope.

Lemma ratio_bounds a b c : 0 <= a -> 0 <= b -> 0 <= c -> let W := a + b + c in 0 < W -> 0 <= a / W /\ a / W <= (a + b) / W /\ (a + b) / W <= 1 /\
  (0 < c -> (a + b) / W < 1).
Proof.
  cbv zeta. intros A B C HW. set (W := a + b + c) in *. assert (I : 0 < / W) by (apply Rinv_0_lt_compat, HW). unfold Rdiv.
  assert (E : W * / W = 1) by (apply Rinv_r; lra).
  split; [rewrite <- (Rmult_0_l (/ W)); apply Rmult_le_compat_r; lra|]. split; [apply Rmult_le_compat_r; lra|]. rewrite <- E. split.
  - apply Rmult_le_compat_r; [lra|unfold W; lra].
  - intros D. apply Rmult_lt_compat_r; [lra|unfold W; lra].
Qed.
Section means.
Variables (tol : R) (h : hscatterer) (ev ev0 : event) (tof : R) (n : nat).
Hypothesis EN : enters tol h ev ev0 tof.
Hypothesis NW : proper_w (h_weights h).
Let w := h_weights h.
Let W := total_w w.
Let t := mu h ev0 + sigma h ev0.
Let L := tof * len (e_v ev0).
Let a := w_transmission w / W.
Let b := (w_transmission w + w_absorption w) / W.
Lemma W_pos : 0 < W.
Proof. apply NW. Qed.
Lemma marks : 0 <= a /\ a <= b /\ b <= 1 /\ (0 < w_scattering w -> b < 1).
Proof. destruct NW as (A & B & C & D). apply (ratio_bounds _ _ _ C A B D). Qed.
Lemma trans_iff u : u * W < w_transmission w <-> u < a.
Proof. apply scaled_piece, W_pos. Qed.
Lemma abs_iff u : w_transmission w <= u * W < w_transmission w + w_absorption w <-> a <= u < b.
Proof. pose proof (trans_iff u). pose proof (scaled_piece (w_transmission w + w_absorption w) W W_pos u). unfold b. lra. Qed.
Lemma scat_iff u : w_transmission w + w_absorption w <= u * W <-> b <= u.
Proof. apply scaled_piece2, W_pos. Qed.
Lemma case_trans u1 u2 : 0 < u1 < a -> interact_path1 tol h ev u1 u2 n =
    (let! ev1 := propagate_to_next_exiting_surface tol ev0 (h_shape h) in
     Ok (mkO NoInteraction NoCall (scale_p ev1 (exp (- t * L) * (W / w_transmission w))))).
Proof.
  intros (H0 & H). apply trans_iff in H. apply path_transmission; [exact EN|exact H|]. fold w. pose proof (Rmult_lt_0_compat _ _ H0 W_pos). lra.
Qed.
Lemma case_abs u1 u2 : a <= u1 < b -> interact_path1 tol h ev u1 u2 n =
  Ok (mkO Absorption (CallAbsorb (to_absorb h ev0 tof u2)) (set_p (k_absorb (h_kernel h) n (to_absorb h ev0 tof u2)) (-1))).
Proof. intros H. apply path_absorption; [exact EN|now apply abs_iff]. Qed.
Lemma case_scat u1 u2 : b <= u1 < 1 -> interact_path1 tol h ev u1 u2 n =
    (let! p := after_scatter tol h n (to_scatter h ev0 tof (W / w_scattering w) u2) in Ok (mkO (fst p) (CallScatter (to_scatter h ev0 tof (W / w_scattering w) u2)) (snd p))).
Proof.
  intros (H & H1). apply scat_iff in H. apply path_scattering; [exact EN|exact H|apply NW|]. fold w.
  pose proof W_pos as HW. assert (u1 * W < 1 * W) by (apply Rmult_lt_compat_r; assumption). unfold W, total_w in *. lra.
Qed.
Lemma after_type e p : after_scatter tol h n e = Ok p -> fst p <> NoInteraction.
Proof.
  unfold after_scatter. destruct (Rleb _ 0); [intros E; injection E as <-; discriminate|].
  destruct (propagate_to_next_exiting_surface _ _ _); cbn [bind]; [|discriminate]. intros E; injection E as <-; discriminate.
Qed.

Lemma mean_transmitted ev1 : 0 < w_transmission w -> propagate_to_next_exiting_surface tol ev0 (h_shape h) = Ok ev1 ->
  mean2 (fun u1 u2 => transmitted (interact_path1 tol h ev u1 u2 n)) (e_p ev0 * exp (- t * L)).
Proof.
  intros PW X. destruct marks as (A & B & C & _).
  replace (e_p ev0 * exp (- t * L)) with ((a - 0) * (e_p ev0 * (exp (- t * L) * (W / w_transmission w)) * 1)).
  2:{ unfold a. field. pose proof W_pos. lra. }
  assert (T1 : forall u1 u2, 0 < u1 < a -> transmitted (interact_path1 tol h ev u1 u2 n) = e_p ev0 * (exp (- t * L) * (W / w_transmission w)) * 1).
  { intros u1 u2 H. rewrite case_trans by exact H. rewrite X. cbn. rewrite (exit_keeps _ _ _ _ X). ring. }
  assert (T0 : forall u1 u2, a <= u1 < 1 -> transmitted (interact_path1 tol h ev u1 u2 n) = 0).
  { intros u1 u2 H. destruct (Rlt_dec u1 b) as [K|K]; [rewrite case_abs by lra; reflexivity|]. rewrite case_scat by lra.
    destruct (after_scatter tol h n _) as [p|] eqn:E; [|reflexivity]. cbn. apply after_type in E. destruct (fst p); congruence. }
  apply (piece_mean _ 0 a _ 1 (fun _ => 1)); try lra.
  - intros; exfalso; lra.
  - intros; apply T1; lra.
  - intros; apply T0; lra.
  - pose proof (const_int 0 1 1 (fun _ => 1) ltac:(lra) ltac:(auto)) as K. rewrite Rmult_1_r, Rminus_0_r in K. exact K.
  - intros u. destruct (Rlt_dec 0 u); [|right; right; lra]. destruct (Rlt_dec u 1); [|right; right; lra].
    destruct (Rlt_dec u a); [right; left|left]; intros; [apply T1|apply T0]; lra.
Qed.
Variables (G : vec3 -> R -> R) (I : R).
Hypothesis IG : is_RInt (fun x => G (on_line (e_r ev0) (e_v ev0) (x / len (e_v ev0))) (e_t ev0 + x / len (e_v ev0)) * exp (- t * x)) 0 L I.
Let F (u : R) : R := L * (G (on_line (e_r ev0) (e_v ev0) (u * L / len (e_v ev0))) (e_t ev0 + u * L / len (e_v ev0)) * exp (- t * (u * L))).
Lemma F_int : is_RInt F 0 1 I.
Proof. exact (scaled_int _ L I IG). Qed.
Lemma mean_absorbed : 0 < w_absorption w -> mean2 (fun u1 u2 => absorbed G (interact_path1 tol h ev u1 u2 n)) (e_p ev0 * (mu h ev0 * I)).
Proof.
  intros PW. destruct marks as (A & B & C & _).
  replace (e_p ev0 * (mu h ev0 * I)) with ((b - a) * (e_p ev0 * mu h ev0 * (W / w_absorption w) * I)).
  2:{ unfold a, b. field. pose proof W_pos. lra. }
  assert (T1 : forall u1 u2, a <= u1 < b -> absorbed G (interact_path1 tol h ev u1 u2 n) = e_p ev0 * mu h ev0 * (W / w_absorption w) * F u2).
  { intros u1 u2 H. rewrite case_abs by exact H. unfold absorbed, to_absorb. cbn [o_call propagate scale_p e_p e_r e_v e_t]. rewrite arrow_line. unfold F. fold w W t L. ring. }
  assert (T0 : forall u1 u2, 0 < u1 < a \/ b <= u1 < 1 -> absorbed G (interact_path1 tol h ev u1 u2 n) = 0).
  { intros u1 u2 [H|H].
    - rewrite case_trans by lra. destruct (propagate_to_next_exiting_surface _ _ _); reflexivity.
    - rewrite case_scat by lra. destruct (after_scatter tol h n _); reflexivity. }
  apply (piece_mean _ a b _ I F); try lra.
  - intros; apply T0; lra.
  - intros; apply T1; lra.
  - intros; apply T0; lra.
  - exact F_int.
  - intros u. destruct (Rlt_dec 0 u); [|right; right; lra]. destruct (Rlt_dec u 1); [|right; right; lra].
    destruct (Rlt_dec u a); [left; intros; apply T0; lra|]. destruct (Rlt_dec u b); [right; left|left]; intros; [apply T1|apply T0]; lra.
Qed.
Lemma case_scat_handed u1 u2 : b <= u1 < 1 -> (exists q, after_scatter tol h n (to_scatter h ev0 tof (W / w_scattering w) u2) = Ok q) ->
  handed G (interact_path1 tol h ev u1 u2 n) = e_p ev0 * (W / w_scattering w) * F u2.
Proof.
  intros H (q & E). rewrite case_scat by exact H. rewrite E. unfold handed, to_scatter. cbn [bind o_call propagate scale_p e_p e_r e_v e_t]. rewrite arrow_line. unfold F. fold w W t L. ring.
Qed.
Lemma mean_handed : 0 < w_scattering w -> (forall u1 u2, 0 < u1 < 1 -> 0 < u2 < 1 -> exists o, interact_path1 tol h ev u1 u2 n = Ok o) ->
  mean2 (fun u1 u2 => handed G (interact_path1 tol h ev u1 u2 n)) (e_p ev0 * I).
Proof.
  intros PW OKS. destruct marks as (A & B & C & D). specialize (D PW).
  assert (AF : forall u2, 0 < u2 < 1 -> exists q, after_scatter tol h n (to_scatter h ev0 tof (W / w_scattering w) u2) = Ok q).
  { intros u2 H2. destruct (OKS ((b + 1) / 2) u2 ltac:(lra) H2) as (o & E). rewrite case_scat in E by lra. destruct (after_scatter tol h n _) as [q|]; [now exists q|discriminate]. }
  replace (e_p ev0 * I) with ((1 - b) * (e_p ev0 * (W / w_scattering w) * I)).
  2:{ replace (1 - b) with (w_scattering w / W). - field. pose proof W_pos. lra.
      - unfold b. unfold W, total_w. field. pose proof W_pos. unfold W, total_w in *. lra. }
  assert (T0 : forall u1 u2, 0 < u1 < b -> handed G (interact_path1 tol h ev u1 u2 n) = 0).
  { intros u1 u2 H. destruct (Rlt_dec u1 a).
    - rewrite case_trans by lra. destruct (propagate_to_next_exiting_surface _ _ _); reflexivity.
    - rewrite case_abs by lra. reflexivity. }
  apply (piece_mean _ b 1 _ I F); try lra.
  - intros; apply T0; lra.
  - intros; apply case_scat_handed; [lra|now apply AF].
  - intros; lra.
  - exact F_int.
  - intros u. destruct (Rlt_dec 0 u); [|right; right; lra]. destruct (Rlt_dec u 1); [|right; right; lra].
    destruct (Rlt_dec u b); [left; intros; apply T0; lra|]. right; left. intros; apply case_scat_handed; [lra|now apply AF].
Qed.
End means.

(** ** The weight is only a weight *)

Lemma sbw_sym e e' : same_but_weight e e' -> same_but_weight e' e.
Proof. unfold same_but_weight. intuition congruence. Qed.
Lemma sbw_scale e k : same_but_weight e (scale_p e k).
Proof. repeat split. Qed.
Lemma sbw_propagate e e' t : same_but_weight e e' -> same_but_weight (propagate e t) (propagate e' t).
Proof. intros (A & B & C & D & E). unfold same_but_weight, propagate. cbn. rewrite A, B, C, D, E. repeat split. Qed.
Lemma search_sbw tol s e e' w : same_but_weight e e' -> forall l, search tol s e' w l = search tol s e w l.
Proof. intros (A & B & _). induction l as [|t l IH]; cbn; [reflexivity|]. rewrite A, B, IH. reflexivity. Qed.
(** Two results that are the same but for the weight, or the same failure. *)
Definition like (k : R) (a b : result event) : Prop :=
  match a, b with Ok e, Ok e' => same_but_weight e e' /\ e_p e' = k * e_p e | Err x, Err y => x = y | _, _ => False end.
Lemma like_propagate k e e' t : same_but_weight e e' -> e_p e' = k * e_p e -> like k (Ok (propagate e t)) (Ok (propagate e' t)).
Proof. intros A B. split; [now apply sbw_propagate|exact B]. Qed.
Lemma incident_like tol s k e e' : same_but_weight e e' -> e_p e' = k * e_p e ->
  like k (propagate_to_next_incident_surface tol e s) (propagate_to_next_incident_surface tol e' s).
Proof.
  intros S P. destruct S as (A & B & S'). assert (S : same_but_weight e e') by (split; [exact A|split; [exact B|exact S']]).
  unfold propagate_to_next_incident_surface, locate_ev, forward_tofs. rewrite <- A, <- B. destruct (locate _ _ _).
  - reflexivity.
  - rewrite (search_sbw _ _ _ _ _ S). destruct (search _ _ _ _ _); [now apply like_propagate|now split].
  - destruct (forward_intersect _ _ _ _); [now split|now apply like_propagate].
Qed.
Lemma exiting_like tol s k e e' : same_but_weight e e' -> e_p e' = k * e_p e ->
  like k (propagate_to_next_exiting_surface tol e s) (propagate_to_next_exiting_surface tol e' s).
Proof.
  intros S P. pose proof (incident_like tol s k e e' S P) as IN. destruct S as (A & B & S'). assert (S : same_but_weight e e') by (split; [exact A|split; [exact B|exact S']]).
  unfold propagate_to_next_exiting_surface, locate_ev, forward_tofs. rewrite <- A, <- B.
  assert (TAIL : forall x y, like k x y -> like k
     (let! ev1 := x in if negb (loc_eqb (locate tol s (e_r ev1)) Onborder) then Err CppException
       else match search tol s ev1 Inside (forward_intersect tol s (e_r ev1) (e_v ev1)) with Some t => Ok (propagate ev1 t) | None => Ok ev1 end)
     (let! ev1 := y in if negb (loc_eqb (locate tol s (e_r ev1)) Onborder) then Err CppException
       else match search tol s ev1 Inside (forward_intersect tol s (e_r ev1) (e_v ev1)) with Some t => Ok (propagate ev1 t) | None => Ok ev1 end)).
  { intros [x|x] [y|y] K; cbn [like bind] in *; try contradiction; [|exact K]. destruct K as (KS & KP). pose proof KS as (KA & KB & _). rewrite <- KA, <- KB, (search_sbw _ _ _ _ _ KS).
    destruct (negb _); [reflexivity|]. destruct (search _ _ _ _ _); [now apply like_propagate|now split]. }
  destruct (locate _ _ _) eqn:LO; cbn [loc_eqb].
  - destruct (forward_intersect _ _ _ _); [reflexivity|now apply like_propagate].
  - apply (TAIL (Ok e) (Ok e')). now split.
  - apply TAIL, IN.
Qed.
Lemma attenuation_sbw tol h e e' stop : blind h -> same_but_weight e e' -> calculate_attenuation tol h e' stop = calculate_attenuation tol h e stop.
Proof. intros (BM & _) S. destruct (BM e e' S) as (M & G). change (mu h e = mu h e') in M. change (sigma h e = sigma h e') in G. destruct S as (A & B & _). unfold calculate_attenuation. now rewrite <- A, <- B, M, G. Qed.
(** The value seen after a scattering. *)
Definition gain (Q : event -> R) (p : result (interaction * event)) : R :=
  match p with Ok (Scattering, e) => e_p e * Q e | _ => 0 end.
Lemma gain_scaled tol h n Q k e e' : blind h -> (forall a b, same_but_weight a b -> Q a = Q b) -> 0 < k -> same_but_weight e e' -> e_p e' = k * e_p e ->
  gain Q (after_scatter tol h n e') = k * gain Q (after_scatter tol h n e).
Proof.
  intros BL QB K S P. destruct (proj2 BL n e e' k K S P) as (S1 & P1). unfold after_scatter.
  set (x := scale_p (k_scatter (h_kernel h) n e) (h_packing h)). set (y := scale_p (k_scatter (h_kernel h) n e') (h_packing h)).
  assert (SX : same_but_weight x y) by exact S1.
  assert (PX : e_p y = k * e_p x) by (unfold x, y; cbn; rewrite P1; ring).
  assert (R1 : Rleb (e_p y) 0 = Rleb (e_p x) 0).
  { rewrite PX. unfold Rleb. destruct (Rle_dec (e_p x) 0) as [U|U], (Rle_dec (k * e_p x) 0) as [V|V]; try reflexivity; exfalso.
    - apply V. rewrite <- (Rmult_0_r k). apply Rmult_le_compat_l; lra.
    - apply U. apply Rmult_le_reg_l with k; lra. }
  rewrite R1. destruct (Rleb (e_p x) 0); [cbn; ring|].
  pose proof (exiting_like tol (h_shape h) k x y SX PX) as X.
  destruct (propagate_to_next_exiting_surface tol x (h_shape h)) as [a|a], (propagate_to_next_exiting_surface tol y (h_shape h)) as [b|b]; cbn [like] in X; try contradiction; cbn; [|ring].
  destruct X as (XS & XP). pose proof XS as (XR & _). rewrite <- XR, (attenuation_sbw tol h x y _ BL SX).
  rewrite (QB (scale_p b _) (scale_p a (calculate_attenuation tol h x (e_r a)))) by exact (sbw_sym _ _ XS). rewrite XP. ring.
Qed.
Section scattering.
Variables (tol : R) (h : hscatterer) (ev ev0 : event) (tof : R) (n : nat) (Q : event -> R).
Hypothesis EN : enters tol h ev ev0 tof.
Hypothesis BL : blind h.
Hypothesis QB : forall a b, same_but_weight a b -> Q a = Q b.
Lemma scattered_gain p c : scattered Q (let! q := p in Ok (mkO (fst q) c (snd q))) = gain Q p.
Proof. destruct p as [[t e]|]; reflexivity. Qed.
Lemma forced u1 u2 : 0 < u1 -> scattered Q (interact_path1 tol (reweigh h (mkW 0 1 0)) ev u1 u2 n) = gain Q (after_scatter tol h n (to_scatter h ev0 tof 1 u2)).
Proof.
  intros U. rewrite (path_scattering tol (reweigh h (mkW 0 1 0)) ev ev0 tof n EN u1 u2); [|cbn; unfold total_w; cbn; lra|cbn; lra|cbn; exact R1_neq_R0].
  rewrite scattered_gain. change (gain Q (after_scatter tol h n (to_scatter h ev0 tof (total_w (mkW 0 1 0) / 1) u2)) = gain Q (after_scatter tol h n (to_scatter h ev0 tof 1 u2))).
  replace (total_w (mkW 0 1 0) / 1) with 1 by (unfold total_w; cbn; field). reflexivity.
Qed.
Lemma after_any k u2 : 0 < k -> gain Q (after_scatter tol h n (to_scatter h ev0 tof k u2)) = k * gain Q (after_scatter tol h n (to_scatter h ev0 tof 1 u2)).
Proof.
  intros K. apply gain_scaled; try assumption.
  - repeat split.
  - unfold to_scatter, propagate, scale_p. cbn. ring.
Qed.
Hypothesis NW : proper_w (h_weights h).
Hypothesis PS : 0 < w_scattering (h_weights h).
Lemma mean_scattered m : mean2 (fun u1 u2 => scattered Q (interact_path1 tol h ev u1 u2 n)) m <->
  mean1 (fun u2 => scattered Q (interact_path1 tol (reweigh h (mkW 0 1 0)) ev (1 / 2) u2 n)) m.
Proof.
  destruct (marks h NW) as (A & B & C & D). specialize (D PS). pose proof (W_pos h NW) as HW.
  set (W := total_w (h_weights h)) in *. set (b := (w_transmission (h_weights h) + w_absorption (h_weights h)) / W) in *.
  assert (E : mean2 (fun u1 u2 => scattered Q (interact_path1 tol h ev u1 u2 n)) m <-> is_RInt (fun u2 => gain Q (after_scatter tol h n (to_scatter h ev0 tof 1 u2))) 0 1 m).
  { apply last_piece with (a := b) (k := W / w_scattering (h_weights h)); [lra| | |].
    - unfold b. unfold W, total_w in *. field. lra.
    - intros u1 u2 H _. destruct (Rlt_dec u1 (w_transmission (h_weights h) / W)).
      + rewrite (case_trans tol h ev ev0 tof n EN NW) by (split; [lra|assumption]). destruct (propagate_to_next_exiting_surface _ _ _); reflexivity.
      + rewrite (case_abs tol h ev ev0 tof n EN NW); [reflexivity|fold W b; lra].
    - intros u1 u2 H _. rewrite (case_scat tol h ev ev0 tof n EN NW) by (fold W b; lra). rewrite scattered_gain. apply after_any. apply Rdiv_lt_0_compat; assumption. }
  rewrite E. unfold mean1. split; apply is_RInt_ext; intros x _; rewrite forced by lra; reflexivity.
Qed.
End scattering.
(** Other weights, same means. *)
Lemma mean_any_weights tol h w w' ev ev0 tof n Q m : enters tol h ev ev0 tof -> blind h -> (forall a b, same_but_weight a b -> Q a = Q b) -> 
  proper_w w -> 0 < w_scattering w -> proper_w w' -> 0 < w_scattering w' ->
  mean2 (fun u1 u2 => scattered Q (interact_path1 tol (reweigh h w) ev u1 u2 n)) m <-> mean2 (fun u1 u2 => scattered Q (interact_path1 tol (reweigh h w') ev u1 u2 n)) m.
Proof.
  intros EN BL QB P PS P' PS'.
  rewrite (mean_scattered tol (reweigh h w) ev ev0 tof n Q EN BL QB P PS m), (mean_scattered tol (reweigh h w') ev ev0 tof n Q EN BL QB P' PS' m). reflexivity.
Qed.

(** ** Several events at once *)

Section many.
Variables (tol : R) (h : hscatterer) (ev ev0 : event) (tof : R) (n : nat).
Hypothesis EN : enters tol h ev ev0 tof.
Let t := mu h ev0 + sigma h ev0.
Let L := tof * len (e_v ev0).
Lemma many_form u om : interactM1 tol h ev u n = Ok om ->
  t <> 0 /\ e_p (m_transmitted om) = e_p ev0 * exp (- t * L) /\ m_absorbed om = scale_p ev0 ((1 - exp (- t * L)) * (mu h ev0 / t)) /\
  m_handed om = propagate (scale_p ev0 (L * exp (- t * (u * L)))) (u * L / len (e_v ev0)).
Proof.
  destruct EN as (E0 & E1 & V). unfold interactM1. rewrite E0. cbn [bind]. rewrite E1. cbn [bind]. fold t.
  change (vnorm (e_v ev0)) with (len (e_v ev0)). fold L. unfold divide at 1. destruct (Req_EM_T t 0) as [Z|Z]; [discriminate|]. cbn [bind].
  destruct (propagate_to_next_exiting_surface tol ev0 (h_shape h)) as [ev1|] eqn:X; [|discriminate]. cbn [bind].
  rewrite div_ok by (pose proof (len_pos _ V); lra). cbn [bind]. intros H. injection H as <-. cbn [m_transmitted m_absorbed m_handed].
  split; [exact Z|]. split; [cbn; now rewrite (exit_keeps _ _ _ _ X)|]. split; [reflexivity|]. unfold random. rewrite Rminus_0_r, Rplus_0_r. reflexivity.
Qed.
Lemma many_handed (G : vec3 -> R -> R) I :
  is_RInt (fun x => G (on_line (e_r ev0) (e_v ev0) (x / len (e_v ev0))) (e_t ev0 + x / len (e_v ev0)) * exp (- t * x)) 0 L I ->
  (forall u, 0 < u < 1 -> exists om, interactM1 tol h ev u n = Ok om) ->
  mean1 (fun u => match interactM1 tol h ev u n with Ok om => e_p (m_handed om) * G (e_r (m_handed om)) (e_t (m_handed om)) | Err _ => 0 end) (e_p ev0 * I).
Proof.
  intros IG OKS. apply scaled_int in IG. apply (@is_RInt_scal R_NormedModule _ 0 1 (e_p ev0)) in IG. unfold mean1.
  apply is_RInt_ext with (2 := IG). intros u Hu. rewrite Rmin_left, Rmax_right in Hu by lra. destruct (OKS u Hu) as (om & E). rewrite E.
  destruct (many_form u om E) as (_ & _ & _ & ->). cbn [propagate scale_p e_p e_r e_t e_v].
  change (e_p ev0 * (L * (G (on_line (e_r ev0) (e_v ev0) (u * L / len (e_v ev0))) (e_t ev0 + u * L / len (e_v ev0)) * exp (- t * (u * L)))) =
    e_p ev0 * (L * exp (- t * (u * L))) * G (on_line (e_r ev0) (e_v ev0) (u * L / len (e_v ev0))) (e_t ev0 + u * L / len (e_v ev0))). ring.
Qed.
End many.

(** ** A case: a unit sphere that absorbs and scatters, entered at its middle *)

Definition pass : kernel := mkK (fun _ => 1) (fun _ => 1) (fun _ ev => ev) (fun _ ev => ev).
Definition pearl (w : weights) : hscatterer := mkH (Sphere 1) pass None w 1 10 0.
Definition in_pearl : event := mkE (mkV 0 0 0) one 0 0 0 1.
Lemma pearl_blind w : blind (pearl w).
Proof. split; [intros; split; reflexivity|]. intros n e e' k K S P. split; [exact S|exact P]. Qed.
Lemma forward_pearl tol z t : -1 < z < 1 -> In t (forward_intersect tol (Sphere 1) (mkV 0 0 z) one) <-> t = 1 - z.
Proof. intros Hz. rewrite fwd_in. cbn [intersect]. rewrite sphere_in by exact one_nz. rewrite pellet_border. lra. Qed.
Lemma forward_cons tol z : -1 < z < 1 -> exists l, forward_intersect tol (Sphere 1) (mkV 0 0 z) one = (1 - z) :: l.
Proof.
  intros Hz. destruct (forward_intersect tol (Sphere 1) (mkV 0 0 z) one) as [|t l] eqn:E.
  - exfalso. pose proof (proj2 (forward_pearl tol z (1 - z) Hz) eq_refl) as K. rewrite E in K. exact K.
  - exists l. f_equal. apply (forward_pearl tol z t Hz). rewrite E. now left.
Qed.
Lemma pearl_locate tol z : 0 < tol -> -1 < z < 1 -> locate tol (Sphere 1) (mkV 0 0 z) <> Outside.
Proof.
  intros Ht Hz. cbn [locate]. unfold locate_sphere; cbn.
  replace (Rltb tol (0 * 0 + 0 * 0 + z * z - 1 * 1)) with false by (symmetry; apply Rltb_f; nra).
  destruct (Rltb tol _); discriminate.
Qed.
Lemma pearl_enters tol w : 0 < tol < 1 / 10 -> enters tol (pearl w) in_pearl in_pearl 1.
Proof.
  intros Ht. unfold enters, locate_ev, in_pearl. cbn [h_shape pearl e_r]. rewrite pellet_locate by lra. cbn [loc_eqb]. split; [reflexivity|]. split; [|exact one_nz].
  unfold tof_before_exit, locate_ev, forward_tofs. cbn [e_r e_v]. rewrite pellet_locate by lra. destruct (forward_cons tol 0 ltac:(lra)) as (l & ->). cbn. now rewrite Rminus_0_r.
Qed.
Lemma pearl_exit tol z s1 s2 t p : 0 < tol -> -1 < z < 1 -> exists e, propagate_to_next_exiting_surface tol (mkE (mkV 0 0 z) one s1 s2 t p) (Sphere 1) = Ok e.
Proof.
  intros Ht Hz. unfold propagate_to_next_exiting_surface, locate_ev, forward_tofs. cbn [e_r e_v].
  destruct (locate tol (Sphere 1) (mkV 0 0 z)) eqn:LO.
  - destruct (forward_cons tol z Hz) as (l & ->). eexists. reflexivity.
  - cbn [loc_eqb bind e_r e_v]. rewrite LO. cbn [loc_eqb negb]. destruct (search _ _ _ _ _); eexists; reflexivity.
  - exfalso. now apply (pearl_locate tol z Ht Hz).
Qed.
Lemma pearl_len : 1 * len (e_v in_pearl) = 1.
Proof. rewrite Rmult_1_l. exact len_one. Qed.
Lemma pearl_after tol w n z e : 0 < tol -> -1 < z < 1 -> e_r e = mkV 0 0 z -> e_v e = one -> exists q, after_scatter tol (pearl w) n e = Ok q.
Proof.
  intros Ht Hz Hr Hv. unfold after_scatter. destruct (Rleb _ 0); [eexists; reflexivity|]. destruct e as [r v s1 s2 t p]. cbn in Hr, Hv. subst.
  destruct (pearl_exit tol z s1 s2 t (p * 1) Ht Hz) as (e & E). change (h_shape (pearl w)) with (Sphere 1).
  change (scale_p (k_scatter (h_kernel (pearl w)) n (mkE (mkV 0 0 z) one s1 s2 t p)) (h_packing (pearl w))) with (mkE (mkV 0 0 z) one s1 s2 t (p * 1)).
  rewrite E. eexists. reflexivity.
Qed.
Lemma pearl_runs tol w u1 u2 n : 0 < tol < 1 / 10 -> proper_w w -> 0 < u1 < 1 -> 0 < u2 < 1 -> exists o, interact_path1 tol (pearl w) in_pearl u1 u2 n = Ok o.
Proof.
  intros Ht NW H1 H2. pose proof (pearl_enters tol w Ht) as EN. destruct (marks (pearl w) NW) as (A & B & C & _). cbn [h_weights pearl] in A, B, C.
  destruct (Rlt_dec u1 (w_transmission w / total_w w)).
  - rewrite (case_trans tol (pearl w) in_pearl in_pearl 1 n EN NW) by (split; [lra|assumption]). destruct (pearl_exit tol 0 0 0 0 1 ltac:(lra) ltac:(lra)) as (e & E).
    change (mkE (mkV 0 0 0) one 0 0 0 1) with in_pearl in E. change (h_shape (pearl w)) with (Sphere 1). rewrite E. eexists. reflexivity.
  - destruct (Rlt_dec u1 ((w_transmission w + w_absorption w) / total_w w)).
    + rewrite (case_abs tol (pearl w) in_pearl in_pearl 1 n EN NW) by (cbn; lra). eexists. reflexivity.
    + rewrite (case_scat tol (pearl w) in_pearl in_pearl 1 n EN NW) by (cbn; lra).
      destruct (pearl_after tol w n u2 (to_scatter (pearl w) in_pearl 1 (total_w w / w_scattering w) u2)) as (q & E); try lra.
      * unfold to_scatter. rewrite pearl_len. change (len (e_v (in_pearl))) with (len one). rewrite len_one. unfold propagate, scale_p, in_pearl, one, arrow_at, vadd, vscale. cbn. f_equal; field.
      * reflexivity.
      * change (h_weights (pearl w)) with w. rewrite E. eexists. reflexivity.
Qed.
Lemma pearlM_runs tol w u n : 0 < tol < 1 / 10 -> exists om, interactM1 tol (pearl w) in_pearl u n = Ok om.
Proof.
  intros Ht. destruct (pearl_enters tol w Ht) as (E0 & E1 & V). unfold interactM1. rewrite E0. cbn [bind]. rewrite E1. cbn [bind].
  rewrite div_ok by (unfold mu, sigma; cbn; lra). cbn [bind]. destruct (pearl_exit tol 0 0 0 0 1 ltac:(lra) ltac:(lra)) as (e & E).
  change (h_shape (pearl w)) with (Sphere 1). change (mkE (mkV 0 0 0) one 0 0 0 1) with in_pearl in E. change (h_shape (pearl w)) with (Sphere 1). rewrite E. cbn [bind]. rewrite div_ok by (pose proof (len_pos _ V); change (vnorm (e_v in_pearl)) with (len (e_v in_pearl)); lra).
  eexists. reflexivity.
Qed.
Lemma pearl_integral w c d : is_RInt (fun x => (fun _ _ => c) (on_line (e_r in_pearl) (e_v in_pearl) (x / len (e_v in_pearl))) (e_t in_pearl + x / len (e_v in_pearl)) * exp (- (mu (pearl w) in_pearl + sigma (pearl w) in_pearl) * x)) 0 (1 * len (e_v in_pearl)) d
  <-> d = c * ((1 - exp (- 2)) / 2).
Proof.
  assert (T : mu (pearl w) in_pearl + sigma (pearl w) in_pearl = 2) by (unfold mu, sigma; cbn; ring). rewrite T, pearl_len.
  pose proof (exp_int 2 1 ltac:(lra)) as K. rewrite Rmult_1_r in K.
  assert (K2 : is_RInt (fun x => c * exp (- 2 * x)) 0 1 (c * ((1 - exp (- 2)) / 2))) by exact (@is_RInt_scal R_NormedModule _ 0 1 c _ K). cbv beta. split.
  - intros H. apply (@is_RInt_unique R_CompleteNormedModule) in H, K2. rewrite <- H, <- K2. reflexivity.
  - intros ->. exact K2.
Qed.

(** ** What goes wrong *)

(** The random number 1 enters the branch of scattering although its weight is zero. *)
Lemma end_of_dice tol u2 n : 0 < tol < 1 / 10 -> interact_path1 tol (pearl (mkW 1 0 1)) in_pearl 1 u2 n = Err ZeroDivisionError.
Proof.
  intros Ht. destruct (pearl_enters tol (mkW 1 0 1) Ht) as (E0 & E1 & V). unfold interact_path1. rewrite E0. cbn [bind]. rewrite E1. cbn [bind h_weights pearl w_transmission w_absorption w_scattering]. unfold random.
  replace (Rltb (1 * (1 + 1 + 0 - 0) + 0) 1) with false by (symmetry; apply Rltb_f; lra).
  replace (Rltb (1 * (1 + 1 + 0 - 0) + 0) (1 + 1)) with false by (symmetry; apply Rltb_f; lra).
  unfold divide at 1. destruct (Req_EM_T 0 0); [reflexivity|contradiction].
Qed.
(** Absorption of several events at once takes place where the neutron enters, not along the path. *)
Lemma late_int : is_RInt (fun x => x * exp (- 2 * x)) 0 1 ((1 - 3 * exp (- 2)) / 4).
Proof.
  pose (F := fun x => - (2 * x + 1) * exp (- 2 * x) / 4).
  replace ((1 - 3 * exp (- 2)) / 4) with (minus (F 1) (F 0)).
  2:{ change (F 1 - F 0 = (1 - 3 * exp (- 2)) / 4). unfold F. rewrite (Rmult_1_r (- 2)), (Rmult_0_r (- 2)), exp_0. field. }
  apply (@is_RInt_derive R_CompleteNormedModule F).
  - intros x _. unfold F. auto_derive; [trivial|]. field.
  - intros x _. apply continuity_pt_filterlim. apply continuity_pt_mult; [apply continuity_pt_id|]. 
    apply (continuity_pt_comp (fun x => - 2 * x) exp); [apply continuity_pt_mult; [apply continuity_pt_const; intros a b; reflexivity|apply continuity_pt_id]|apply derivable_continuous_pt, derivable_pt_exp].
Qed.
Lemma late_mean tol w n : 0 < tol < 1 / 10 -> proper_w w -> 0 < w_absorption w ->
  mean2 (fun u1 u2 => absorbed (fun _ t => t) (interact_path1 tol (pearl w) in_pearl u1 u2 n)) ((1 - 3 * exp (- 2)) / 4).
Proof.
  intros Ht NW PA. replace ((1 - 3 * exp (- 2)) / 4) with (e_p in_pearl * (mu (pearl w) in_pearl * ((1 - 3 * exp (- 2)) / 4))) by (unfold mu; cbn; ring).
  apply (mean_absorbed tol (pearl w) in_pearl in_pearl 1 n (pearl_enters tol w Ht) NW (fun _ t => t)); [|exact PA].
  rewrite pearl_len. apply is_RInt_ext with (2 := late_int). intros x _. change (len (e_v in_pearl)) with (len one). rewrite len_one.
  replace (mu (pearl w) in_pearl + sigma (pearl w) in_pearl) with 2 by (unfold mu, sigma; cbn; ring).
  change (e_t in_pearl) with 0. change (x * exp (- 2 * x) = (0 + x / 1) * exp (- (2) * x)). replace (0 + x / 1) with x by field. reflexivity.
Qed.
Lemma exp_small : exp (- 2) < 1 / 3.
Proof.
  pose proof (exp_ineq1 2 ltac:(lra)) as K. replace (-2) with (Ropp 2) by lra. rewrite exp_Ropp. apply Rmult_lt_reg_r with (exp 2); [apply exp_pos|]. rewrite Rinv_l by (apply Rgt_not_eq, exp_pos). lra.
Qed.
Lemma early tol w u n om : 0 < tol < 1 / 10 -> interactM1 tol (pearl w) in_pearl u n = Ok om -> e_t (m_absorbed om) = 0.
Proof. intros Ht H. destruct (many_form tol (pearl w) in_pearl in_pearl 1 n (pearl_enters tol w Ht) u om H) as (_ & _ & -> & _). reflexivity. Qed.
Lemma balance tol h ev ev0 tof n : enters tol h ev ev0 tof -> proper_w (h_weights h) ->
  0 < w_transmission (h_weights h) -> 0 < w_absorption (h_weights h) -> 0 < w_scattering (h_weights h) -> mu h ev0 + sigma h ev0 <> 0 ->
  (exists ev1, propagate_to_next_exiting_surface tol ev0 (h_shape h) = Ok ev1) ->
  (forall u1 u2, 0 < u1 < 1 -> 0 < u2 < 1 -> exists o, interact_path1 tol h ev u1 u2 n = Ok o) ->
  exists T A S, mean2 (fun u1 u2 => transmitted (interact_path1 tol h ev u1 u2 n)) T /\
    mean2 (fun u1 u2 => absorbed (fun _ _ => 1) (interact_path1 tol h ev u1 u2 n)) A /\
    mean2 (fun u1 u2 => handed (fun _ _ => 1) (interact_path1 tol h ev u1 u2 n)) S /\
    T + A + sigma h ev0 * S = e_p ev0.
Proof.
  intros EN NW PT PA PS NZ (ev1 & X) OKS. set (t := mu h ev0 + sigma h ev0) in *. set (L := tof * len (e_v ev0)).
  pose proof (exp_int t L NZ) as K.
  assert (K1 : is_RInt (fun x => (fun _ _ => 1) (on_line (e_r ev0) (e_v ev0) (x / len (e_v ev0))) (e_t ev0 + x / len (e_v ev0)) * exp (- t * x)) 0 L ((1 - exp (- t * L)) / t)).
  { apply is_RInt_ext with (2 := K). intros x _. cbv beta. now rewrite Rmult_1_l. }
  exists (e_p ev0 * exp (- t * L)), (e_p ev0 * (mu h ev0 * ((1 - exp (- t * L)) / t))), (e_p ev0 * ((1 - exp (- t * L)) / t)). split; [|split; [|split]].
  - now apply (mean_transmitted tol h ev ev0 tof n EN NW ev1).
  - now apply (mean_absorbed tol h ev ev0 tof n EN NW (fun _ _ => 1)).
  - now apply (mean_handed tol h ev ev0 tof n EN NW (fun _ _ => 1)).
  - replace (sigma h ev0) with (t - mu h ev0) by (unfold t; ring). field. exact NZ.
Qed.
Lemma many_same tol h ev ev0 tof n u om : enters tol h ev ev0 tof -> interactM1 tol h ev u n = Ok om ->
  proper_w (h_weights h) -> 0 < w_transmission (h_weights h) -> 0 < w_absorption (h_weights h) ->
  (exists ev1, propagate_to_next_exiting_surface tol ev0 (h_shape h) = Ok ev1) ->
  mean2 (fun u1 u2 => transmitted (interact_path1 tol h ev u1 u2 n)) (e_p (m_transmitted om)) /\
  mean2 (fun u1 u2 => absorbed (fun _ _ => 1) (interact_path1 tol h ev u1 u2 n)) (e_p (m_absorbed om)).
Proof.
  intros EN H NW PT PA (ev1 & X). destruct (many_form tol h ev ev0 tof n EN u om H) as (NZ & -> & -> & _). split.
  - now apply (mean_transmitted tol h ev ev0 tof n EN NW ev1).
  - set (t := mu h ev0 + sigma h ev0) in *. set (L := tof * len (e_v ev0)).
    replace (e_p (scale_p ev0 ((1 - exp (- t * L)) * (mu h ev0 / t)))) with (e_p ev0 * (mu h ev0 * ((1 - exp (- t * L)) / t))) by (cbn; field; exact NZ).
    apply (mean_absorbed tol h ev ev0 tof n EN NW (fun _ _ => 1)); [|exact PA].
    apply is_RInt_ext with (2 := exp_int t L NZ). intros x _. cbv beta. now rewrite Rmult_1_l.
Qed.
