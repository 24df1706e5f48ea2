(** Proofs for C28, C48, C49. *)
From Coq Require Import List Ascii String Bool Arith Lia Permutation Sorting.Sorted.
From Verif Require Import Base CliModel CliSpec.
Import ListNotations.
Open Scope list_scope.

Lemma text_eqb_spec a b : reflect (a = b) (text_eqb a b).
Proof.
  revert b. induction a as [|x a IH]; intros [|y b]; cbn; try (constructor; congruence).
  destruct (Ascii.eqb_spec x y) as [->|]; cbn; [|constructor; congruence].
  destruct (IH b); constructor; congruence.
Qed.

Lemma starts_spec p s : starts p s = true <-> exists q, s = p ++ q.
Proof.
  revert s. induction p as [|a p IH]; intro s; cbn.
  - split; [intros _; exists s; reflexivity|reflexivity].
  - destruct s as [|b s]; [split; [discriminate|intros [q H]; discriminate]|].
    rewrite andb_true_iff, IH. split.
    + intros [E [q ->]]. apply Ascii.eqb_eq in E. subst. exists q. reflexivity.
    + intros [q H]. injection H as -> ->. split; [apply Ascii.eqb_refl|exists q; reflexivity].
Qed.

Lemma found_spec p s : found p s = true <-> exists u v, s = u ++ p ++ v.
Proof.
  induction s as [|a s IH]; cbn [found].
  - rewrite orb_true_iff, starts_spec. split.
    + intros [[q H]|H]; [exists [], q; exact H|discriminate].
    + intros [u [v H]]. left. destruct u; [exists v; exact H|discriminate].
  - rewrite orb_true_iff, starts_spec, IH. split.
    + intros [[q H]|[u [v H]]]; [exists [], q; exact H|]. exists (a :: u), v. cbn. congruence.
    + intros [[|b u] [v H]]; [left; exists v; exact H|right]. cbn in H. injection H as _ H. exists u, v. exact H.
Qed.

Lemma found_char c s : found [c] s = true <-> In c s.
Proof.
  rewrite found_spec. split.
  - intros [u [v ->]]. apply in_or_app. right. left. reflexivity.
  - intro I. apply in_split in I. destruct I as [u [v ->]]. exists u, v. reflexivity.
Qed.
Lemma found_char_false c s : without c s -> found [c] s = false.
Proof. intro W. destruct (found [c] s) eqn:E; [|reflexivity]. apply found_char in E. contradiction. Qed.

(** ** split *)
Lemma split_skip sep p cur s : split_go sep (List.length p) cur (p ++ s) = split_go sep 0 cur s.
Proof. revert cur. induction p as [|a p IH]; intro cur; cbn [List.length app split_go]; [reflexivity|apply IH]. Qed.

Lemma split_hit a sep cur s : split_go (a :: sep) 0 cur ((a :: sep) ++ s) = rev cur :: split_go (a :: sep) 0 [] s.
Proof.
  cbn [app split_go]. replace (starts (a :: sep) (a :: sep ++ s)) with true
    by (symmetry; apply starts_spec; exists s; reflexivity).
  cbn [List.length]. rewrite Nat.sub_0_r || rewrite Nat.sub_succ, Nat.sub_0_r. f_equal. apply split_skip.
Qed.

Lemma split_first a sep cur u s :
  (forall p q, u = p ++ q -> q <> [] -> starts (a :: sep) (q ++ (a :: sep) ++ s) = false) ->
  split_go (a :: sep) 0 cur (u ++ (a :: sep) ++ s) = (rev cur ++ u) :: split_go (a :: sep) 0 [] s.
Proof.
  revert cur. induction u as [|b u IH]; intros cur H.
  - rewrite app_nil_r. apply split_hit.
  - assert (S : starts (a :: sep) ((b :: u) ++ (a :: sep) ++ s) = false) by (apply (H [] (b :: u)); [reflexivity|discriminate]).
    cbn [app] in S |- *. cbn [split_go]. rewrite S.
    change (a :: sep ++ s) with ((a :: sep) ++ s). rewrite IH.
    + cbn [rev]. rewrite <- app_assoc. reflexivity.
    + intros p q E N. apply (H (b :: p) q); [cbn; congruence|exact N].
Qed.

Lemma split_char_first c cur u s : without c u ->
  split_go [c] 0 cur (u ++ c :: s) = (rev cur ++ u) :: split_go [c] 0 [] s.
Proof.
  intro W. apply (split_first c []). intros p q E N. destruct q as [|b q]; [congruence|]. cbn.
  rewrite andb_true_r. destruct (Ascii.eqb_spec c b) as [<-|]; [|reflexivity].
  exfalso. apply W. subst. apply in_or_app. right. left. reflexivity.
Qed.

Lemma split_char_none c cur s : without c s -> split_go [c] 0 cur s = [rev cur ++ s].
Proof.
  revert cur. induction s as [|b s IH]; intros cur W; cbn [split_go starts].
  - rewrite app_nil_r. reflexivity.
  - destruct (Ascii.eqb_spec c b) as [<-|N]; cbn; [exfalso; apply W; left; reflexivity|].
    rewrite IH by (intro I; apply W; right; exact I). cbn [rev]. rewrite <- app_assoc. reflexivity.
Qed.

Lemma split_nonempty sep k cur s : split_go sep k cur s <> [].
Proof.
  revert k cur. induction s as [|a s IH]; intros k cur; cbn [split_go]; [discriminate|].
  destruct k; [|apply IH]. destruct (starts sep (a :: s)); [discriminate|apply IH].
Qed.

Lemma join_cons sep a l : l <> [] -> join sep (a :: l) = a ++ sep ++ join sep l.
Proof. destruct l; [congruence|reflexivity]. Qed.

Lemma split_join a sep cur s : join (a :: sep) (split_go (a :: sep) 0 cur s) = rev cur ++ s.
Proof.
  remember (List.length s) as n eqn:E. revert cur s E. induction n as [n IH] using lt_wf_ind; intros cur s E.
  destruct s as [|b s]; [cbn; rewrite app_nil_r; reflexivity|].
  destruct (starts (a :: sep) (b :: s)) eqn:S.
  - apply starts_spec in S. destruct S as [q S]. rewrite S, split_hit, join_cons by apply split_nonempty.
    rewrite (IH (List.length q)); [reflexivity| |reflexivity].
    rewrite E, S. rewrite app_length. cbn. lia.
  - cbn [split_go]. rewrite S, (IH (List.length s)); [|subst; cbn; lia|reflexivity].
    cbn [rev]. rewrite <- app_assoc. reflexivity.
Qed.

Lemma split_two a sep s x y : split (a :: sep) s = [x; y] -> s = x ++ (a :: sep) ++ y.
Proof. intro H. pose proof (split_join a sep [] s) as J. unfold split in H. rewrite H in J. cbn in J. cbn. congruence. Qed.

Lemma split_pieces c cur s : (forall x, In x (split_go [c] 0 cur s) -> without c x \/ exists t, x = rev cur ++ t /\ without c t).
Proof.
  revert cur. induction s as [|b s IH]; intros cur x; cbn [split_go starts].
  - intros [<-|[]]. right. exists []. rewrite app_nil_r. split; [reflexivity|intros []].
  - destruct (Ascii.eqb_spec c b) as [->|N]; cbn.
    + intros [<-|I]; [right; exists []; rewrite app_nil_r; split; [reflexivity|intros []]|].
      left. destruct (IH [] x I) as [W|[t [-> W]]]; exact W.
    + intro I. destruct (IH _ x I) as [W|[t [-> W]]]; [left; exact W|]. right. exists (b :: t).
      cbn [rev]. rewrite <- app_assoc. split; [reflexivity|]. intros [<-|J]; [congruence|exact (W J)].
Qed.

(** ** strip *)
Lemma lstrip_blank b s : blank b -> lstrip (b ++ s) = lstrip s.
Proof.
  induction b as [|a b IH]; intro B; cbn; [reflexivity|].
  rewrite (B a (or_introl eq_refl)). apply IH. intros x I. apply B. right. exact I.
Qed.
Lemma lstrip_nil_blank s : lstrip s = [] <-> blank s.
Proof.
  split.
  - induction s as [|a s IH]; cbn; intro H; [intros x []|]. destruct (is_space a) eqn:E; [|discriminate].
    intros x [<-|I]; [exact E|apply IH; assumption].
  - intro B. rewrite <- (app_nil_r s). rewrite lstrip_blank by exact B. reflexivity.
Qed.
Lemma lstrip_app s t : lstrip s <> [] -> lstrip (s ++ t) = lstrip s ++ t.
Proof. induction s as [|a s IH]; cbn; [congruence|]. destruct (is_space a); [exact IH|reflexivity]. Qed.
Lemma lstrip_decomp s : exists b, blank b /\ s = b ++ lstrip s.
Proof.
  induction s as [|a s [b [B E]]]; cbn; [exists []; split; [intros x []|reflexivity]|].
  destruct (is_space a) eqn:A.
  - exists (a :: b). split; [intros x [<-|I]; [exact A|exact (B x I)]|cbn; congruence].
  - exists []. split; [intros x []|reflexivity].
Qed.
Lemma lstrip_head s a t : lstrip s = a :: t -> is_space a = false.
Proof. induction s as [|b s IH]; cbn; [discriminate|]. destruct (is_space b) eqn:E; [exact IH|]. intro H. injection H as -> _. exact E. Qed.
Lemma lstrip_fix s : (forall a t, s = a :: t -> is_space a = false) -> lstrip s = s.
Proof. destruct s as [|a s]; intro H; cbn; [reflexivity|]. rewrite (H a s eq_refl). reflexivity. Qed.

Lemma blank_rev s : blank s -> blank (rev s).
Proof. intros B a I. apply B. apply in_rev. exact I. Qed.
Lemma rstrip_blank s b : blank b -> rstrip (s ++ b) = rstrip s.
Proof. intro B. unfold rstrip. rewrite rev_app_distr, lstrip_blank by (apply blank_rev; exact B). reflexivity. Qed.
Lemma rstrip_decomp s : exists b, blank b /\ s = rstrip s ++ b.
Proof.
  destruct (lstrip_decomp (rev s)) as [b [B E]]. exists (rev b). split; [apply blank_rev; exact B|].
  unfold rstrip. rewrite <- rev_app_distr, <- E, rev_involutive. reflexivity.
Qed.
Lemma rstrip_fix s : (forall t a, s = t ++ [a] -> is_space a = false) -> rstrip s = s.
Proof.
  intro H. unfold rstrip. rewrite lstrip_fix, rev_involutive; [reflexivity|].
  intros a t E. apply (H (rev t) a). rewrite <- (rev_involutive s), E. reflexivity.
Qed.
Lemma rstrip_last s t a : rstrip s = t ++ [a] -> is_space a = false.
Proof.
  unfold rstrip. intro H. apply (f_equal (@rev ascii)) in H. rewrite rev_involutive, rev_app_distr in H. cbn in H.
  exact (lstrip_head _ _ _ H).
Qed.

Lemma strip_trim s : trimmed (strip s).
Proof.
  unfold strip. split.
  - intros a t E. destruct (rstrip_decomp (lstrip s)) as [b [_ D]]. rewrite E in D. exact (lstrip_head _ _ _ D).
  - intros t a E. exact (rstrip_last _ _ _ E).
Qed.
Lemma strip_fix s : trimmed s -> strip s = s.
Proof. intros [A B]. unfold strip. rewrite lstrip_fix by exact A. apply rstrip_fix. exact B. Qed.
Lemma strip_decomp s : exists l r, blank l /\ blank r /\ s = l ++ strip s ++ r.
Proof.
  destruct (lstrip_decomp s) as [l [L E]]. destruct (rstrip_decomp (lstrip s)) as [r [R E']].
  exists l, r. split; [exact L|]. split; [exact R|]. unfold strip. rewrite <- E'. exact E.
Qed.
Lemma strip_padded s : padded s (strip s).
Proof.
  destruct (strip_decomp s) as [l [r [L [R E]]]]. rewrite E at 1. constructor; [exact L|exact R|apply strip_trim].
Qed.
Lemma strip_app_blank s b : blank b -> strip (s ++ b) = strip s.
Proof.
  intro B. unfold strip. destruct (lstrip s) as [|a t] eqn:E.
  - pose proof E as E0. apply lstrip_nil_blank in E. rewrite lstrip_blank by exact E.
    destruct (lstrip b) as [|x y] eqn:F; [reflexivity|]. apply lstrip_nil_blank in B. congruence.
  - rewrite lstrip_app by congruence. rewrite E. apply rstrip_blank. exact B.
Qed.
Lemma strip_blank_app b s : blank b -> strip (b ++ s) = strip s.
Proof. intro B. unfold strip. rewrite lstrip_blank by exact B. reflexivity. Qed.
Lemma padded_strip raw a : padded raw a -> strip raw = a.
Proof.
  intros [l x r L R Tr]. rewrite strip_blank_app by exact L. rewrite strip_app_blank by exact R. apply strip_fix. exact Tr.
Qed.
Lemma strip_nil_blank s : strip s = [] <-> blank s.
Proof.
  split.
  - intro H. pose proof (strip_padded s) as P. rewrite H in P. inversion P as [l a r L R Tr E1 E2]. subst.
    intros x I. cbn in I. apply in_app_or in I. destruct I; auto.
  - intro B. rewrite <- (app_nil_r s). rewrite strip_blank_app by exact B. reflexivity.
Qed.

Lemma blank_without c b : is_space c = false -> blank b -> without c b.
Proof. intros H B I. rewrite (B c I) in H. discriminate. Qed.

Lemma split_strip_r c cur r b : is_space c = false -> blank b ->
  map strip (split_go [c] 0 cur (r ++ b)) = map strip (split_go [c] 0 cur r).
Proof.
  intros C B. revert cur. induction r as [|a r IH]; intro cur; cbn [app].
  - rewrite split_char_none by (apply blank_without; assumption). cbn. rewrite strip_app_blank by exact B. reflexivity.
  - cbn [split_go starts]. destruct (Ascii.eqb c a); cbn [andb].
    + cbn [List.length Nat.sub map]. rewrite IH. reflexivity.
    + apply IH.
Qed.
Lemma split_strip_l c cur b s : is_space c = false -> blank b ->
  map strip (split_go [c] 0 cur (b ++ s)) = map strip (split_go [c] 0 (rev b ++ cur) s).
Proof.
  intros C B. revert cur. induction b as [|a b IH]; intro cur; cbn [app rev].
  - reflexivity.
  - assert (A : is_space a = true) by (apply B; left; reflexivity).
    cbn [split_go starts]. destruct (Ascii.eqb_spec c a) as [<-|N]; [congruence|]. cbn [andb].
    rewrite IH by (intros x I; apply B; right; exact I). rewrite <- app_assoc. reflexivity.
Qed.
Lemma split_cur c cur s : blank cur -> map strip (split_go [c] 0 cur s) = map strip (split_go [c] 0 [] s).
Proof.
  intro B. assert (G : forall s cur', map strip (split_go [c] 0 (cur' ++ cur) s) = map strip (split_go [c] 0 cur' s)).
  { clear s. induction s as [|a s IH]; intro cur'; cbn [split_go starts].
    - cbn. rewrite rev_app_distr, strip_blank_app by (apply blank_rev; exact B). reflexivity.
    - destruct (Ascii.eqb c a); cbn [andb].
      + cbn [List.length Nat.sub map]. rewrite rev_app_distr, strip_blank_app by (apply blank_rev; exact B). reflexivity.
      + apply (IH (a :: cur')). }
  apply (G s []).
Qed.
Lemma split_strip c s : is_space c = false -> map strip (split [c] (strip s)) = map strip (split [c] s).
Proof.
  intro C. destruct (strip_decomp s) as [l [r [L [R E]]]]. unfold split. rewrite E at 2. rewrite split_strip_l by assumption. rewrite app_nil_r.
  rewrite (split_cur c (rev l)) by (apply blank_rev; exact L). rewrite split_strip_r by assumption. reflexivity.
Qed.

Lemma commas_split l s : commas l s -> Forall (without ",") l -> split (T ",") s = l.
Proof.
  unfold split. induction 1 as [a|a l s H IH]; intro F; inversion F as [|x y W F']; subst.
  - apply split_char_none. exact W.
  - change (a ++ T "," ++ s) with (a ++ ","%char :: s). change (T ",") with [","%char]. rewrite (split_char_first "," [] a s W). cbn [rev app].
    apply (f_equal (cons a)). exact (IH F').
Qed.
Lemma commas_join l : l <> [] -> commas l (join (T ",") l).
Proof.
  induction l as [|a l IH]; [congruence|]. intros _. destruct l as [|b l]; [constructor|].
  change (join (T ",") (a :: b :: l)) with (a ++ T "," ++ join (T ",") (b :: l)). constructor. apply IH. discriminate.
Qed.

(** ** decode *)
Lemma count_app c (a b : text) : count_occ ascii_dec (a ++ b) c = count_occ ascii_dec a c + count_occ ascii_dec b c.
Proof. apply count_occ_app. Qed.
Lemma count_without c s : without c s -> count_occ ascii_dec s c = 0.
Proof. apply count_occ_not_In. Qed.

Lemma no_scheme s : count_occ ascii_dec s "/"%char <= 1 -> found (T "://") s = false.
Proof.
  intro C. destruct (found (T "://") s) eqn:F; [|reflexivity]. exfalso.
  apply found_spec in F. destruct F as [u [v ->]]. rewrite !count_app in C.
  change (count_occ ascii_dec (T "://") "/"%char) with 2 in C. lia.
Qed.

Lemma split_scheme u s : without "/" u -> found (T "://") s = false -> split (T "://") (u ++ T "://" ++ s) = [u; s].
Proof.
  intros W F. unfold split. change (T "://") with (":"%char :: T "//") at 1 2. rewrite split_first.
  - cbn [rev app].
    assert (G : forall cur, split_go (":"%char :: T "//") 0 cur s = [rev cur ++ s]).
    { revert F. induction s as [|a s IH]; intros F cur; cbn [split_go].
      - rewrite app_nil_r. reflexivity.
      - cbn [found] in F. apply orb_false_iff in F. destruct F as [F1 F2].
        change (":"%char :: T "//") with (T "://"). rewrite F1. change (T "://") with (":"%char :: T "//").
        rewrite IH by exact F2. cbn [rev]. rewrite <- app_assoc. reflexivity. }
    rewrite G. reflexivity.
  - intros p q E N. destruct q as [|a q]; [congruence|]. destruct (starts _ _) eqn:S; [|reflexivity]. exfalso.
    apply starts_spec in S. destruct S as [v S]. cbn in S. injection S as -> S.
    destruct q as [|b q]; cbn in S; [discriminate|]. injection S as -> _.
    apply W. rewrite E. apply in_or_app. right. right. left. reflexivity.
Qed.

Definition args_text (args : option text) : text := match args with Some s => T "(" ++ s ++ T ")" | None => [] end.

Lemma decode_tail t2 typ raw :
  without "(" typ -> (forall a t, typ = a :: t -> is_space a = false) -> without "(" raw ->
  t2 = typ ++ T "(" ++ raw ++ T ")" ->
  found (T "(") t2 = true /\ split (T "(") (chop (strip t2)) = [typ; raw].
Proof.
  intros W H R ->. split.
  - apply found_char. apply in_or_app. right. left. reflexivity.
  - replace (strip (typ ++ T "(" ++ raw ++ T ")")) with ((typ ++ T "(" ++ raw) ++ T ")").
    + unfold chop. change (T ")") with [")"%char]. rewrite removelast_last. unfold split.
      change (typ ++ T "(" ++ raw) with (typ ++ "("%char :: raw). change (T "(") with ["("%char].
      rewrite (split_char_first "(" [] typ raw W). cbn [rev app]. rewrite split_char_none by exact R. reflexivity.
    + symmetry. rewrite <- !app_assoc. apply strip_fix. split.
      * intros a t E. destruct typ as [|b typ]; cbn in E; injection E as <- _; [reflexivity|]. apply (H b typ). reflexivity.
      * intros t a E. replace (typ ++ T "(" ++ raw ++ T ")") with ((typ ++ T "(" ++ raw) ++ [")"%char]) in E
          by (rewrite <- !app_assoc; reflexivity).
        apply app_inj_tail in E. destruct E as [_ <-]. reflexivity.
Qed.

Lemma decode_forms sup cat typ (raws : option (list text)) argstext args :
  (forall u, sup = Some u -> without "/" u) ->
  (forall c, cat = Some c -> without "/" c) ->
  without "/" typ -> without "(" typ -> (forall a t, typ = a :: t -> is_space a = false) ->
  match raws with
  | None => argstext = [] /\ args = None
  | Some l => exists s, argstext = T "(" ++ s ++ T ")" /\ commas l s /\
      Forall (fun r => without "/" r /\ without "(" r /\ without "," r) l /\
      args = (if forallb (fun a => match a with [] => true | _ => false end) (map strip l) && Nat.eqb (List.length l) 1
              then None else Some (map strip l))
  end ->
  decode (opt_sup sup ++ opt_cat cat ++ typ ++ argstext) = Ok (sup, cat, typ, args).
Proof.
  intros HS HC T1 T2 T3 HA.
  assert (NA : without "/" argstext /\ (raws = None -> argstext = [])).
  { destruct raws as [l|].
    - destruct HA as [s [-> [C [FA _]]]]. split; [|discriminate].
      assert (G : without "/" s).
      { clear -C FA. induction C as [a|a l s C IH]; inversion FA as [|x y [W _] F']; subst; [exact W|].
        intro I. apply in_app_or in I. destruct I as [I|[I|I]]; [exact (W I)|discriminate|exact (IH F' I)]. }
      intro I. apply in_app_or in I. destruct I as [[I|[]]|I]; [discriminate|].
      apply in_app_or in I. destruct I as [I|[I|[]]]; [exact (G I)|discriminate].
    - destruct HA as [-> _]. split; [intros []|reflexivity]. }
  destruct NA as [NA _].
  assert (NB : without "/" (typ ++ argstext)) by (intro I; apply in_app_or in I; destruct I; contradiction).
  assert (NC : count_occ ascii_dec (opt_cat cat ++ typ ++ argstext) "/"%char <= 1).
  { rewrite count_app, (count_without _ _ NB). destruct cat as [c|]; cbn [opt_cat].
    - rewrite count_app, (count_without _ _ (HC c eq_refl)). cbn. lia.
    - cbn. lia. }
  unfold decode.
  assert (ST : before (T "://") (opt_sup sup ++ opt_cat cat ++ typ ++ argstext) = Ok (sup, opt_cat cat ++ typ ++ argstext)).
  { unfold before, unpack2. destruct sup as [u|]; cbn [opt_sup].
    - rewrite <- app_assoc. rewrite split_scheme by (auto using no_scheme).
      replace (found (T "://") (u ++ T "://" ++ opt_cat cat ++ typ ++ argstext)) with true; [reflexivity|].
      symmetry. apply found_spec. exists u, (opt_cat cat ++ typ ++ argstext). reflexivity.
    - cbn [app]. rewrite no_scheme by exact NC. reflexivity. }
  rewrite ST. cbn [bind fst snd].
  assert (CT : before (T "/") (opt_cat cat ++ typ ++ argstext) = Ok (cat, typ ++ argstext)).
  { unfold before, unpack2. destruct cat as [c|]; cbn [opt_cat].
    - change (T "/") with ["/"%char]. rewrite <- app_assoc.
      replace (found ["/"%char] (c ++ ["/"%char] ++ typ ++ argstext)) with true
        by (symmetry; apply found_char, in_or_app; right; left; reflexivity).
      unfold split. change (["/"%char] ++ typ ++ argstext) with ("/"%char :: typ ++ argstext).
      rewrite (split_char_first "/" [] c _ (HC c eq_refl)). rewrite split_char_none by exact NB. reflexivity.
    - cbn [app]. change (T "/") with ["/"%char]. rewrite (found_char_false "/" _ NB). reflexivity. }
  rewrite CT. cbn [bind fst snd].
  destruct raws as [l|].
  - destruct HA as [s [-> [C [FA ->]]]].
    assert (G : without "(" s).
    { clear -C FA. induction C as [a|a l s C IH]; inversion FA as [|x y [_ [W _]] F']; subst; [exact W|].
      intro I. apply in_app_or in I. destruct I as [I|[I|I]]; [exact (W I)|discriminate|exact (IH F' I)]. }
    destruct (decode_tail (typ ++ T "(" ++ s ++ T ")") typ s T2 T3 G eq_refl) as [E1 E2].
    unfold type_args, unpack2. rewrite E1, E2. cbn [bind fst snd]. unfold arg_list.
    assert (FW : Forall (without ",") l) by (eapply Forall_impl; [|exact FA]; intros x [_ [_ W]]; exact W).
    pose proof (split_strip "," s eq_refl) as SS. change [","%char] with (T ",") in SS. rewrite (commas_split l s C FW) in SS.
    destruct (strip s) as [|x y] eqn:SP.
    + apply strip_nil_blank in SP. inversion C as [a E3 E4|a l' s' C' E3 E4]; subst.
      * cbn [map forallb List.length Nat.eqb]. rewrite (proj2 (strip_nil_blank s) SP). reflexivity.
      * exfalso. assert (K : is_space ","%char = true) by (apply SP, in_or_app; right; left; reflexivity). discriminate.
    + rewrite SS. destruct l as [|r [|r' l]]; [inversion C| |].
      * inversion C as [a E3 E4|a l' s' C' E3 E4]; subst; [|inversion C']. cbn [map forallb List.length Nat.eqb]. rewrite SP. reflexivity.
      * cbn [List.length Nat.eqb]. rewrite andb_false_r. reflexivity.
  - destruct HA as [-> ->]. rewrite app_nil_r. unfold type_args. change (T "(") with ["("%char].
    rewrite (found_char_false "(" _ T2). reflexivity.
Qed.

Lemma before_ok a sep s o r : before (a :: sep) s = Ok (o, r) ->
  s = (match o with Some u => u ++ (a :: sep) | None => [] end) ++ r.
Proof.
  unfold before, unpack2. destruct (found (a :: sep) s).
  - destruct (split (a :: sep) s) as [|u [|t [|z w]]] eqn:E; try discriminate. cbn. intro H. injection H as <- <-.
    rewrite <- app_assoc. apply split_two. exact E.
  - intro H. injection H as <- <-. reflexivity.
Qed.

(** nothing is lost but white space and one closing character *)
Lemma decode_sound s sup cat typ args : decode s = Ok (sup, cat, typ, args) ->
  exists body, s = opt_sup sup ++ opt_cat cat ++ body /\
   ((typ = body /\ args = None /\ without "(" body) \/
    (exists raw last, strip body = typ ++ T "(" ++ raw ++ [last] /\
       ((args = None /\ blank raw) \/
        (exists l raws, args = Some l /\ ~ blank raw /\ commas raws raw /\ Forall (without ",") raws /\ Forall2 padded raws l)))).
Proof.
  unfold decode. destruct (before (T "://") s) as [[u t1]|] eqn:B1; [|discriminate]. cbn [bind fst snd].
  destruct (before (T "/") t1) as [[c t2]|] eqn:B2; [|discriminate]. cbn [bind fst snd].
  destruct (type_args t2) as [[ty raw]|] eqn:B3; [|discriminate]. cbn [bind fst snd].
  intro H. injection H as <- <- <- <-. exists t2. split.
  { change (T "://") with (":"%char :: T "//") in B1. apply before_ok in B1.
    change (T "/") with ("/"%char :: []) in B2. apply before_ok in B2. rewrite B1, B2 at 1. reflexivity. }
  unfold type_args in B3. destruct (found (T "(") t2) eqn:F.
  - right. unfold unpack2 in B3. destruct (split (T "(") (chop (strip t2))) as [|ty' [|raw' [|z w]]] eqn:E; try discriminate.
    injection B3 as -> ->.
    apply (split_two "(" []) in E.
    assert (NE : strip t2 <> []) by (intro Z; rewrite Z in E; destruct ty; discriminate).
    exists raw, (List.last (strip t2) "0"%char). split.
    + rewrite (app_removelast_last "0"%char NE) at 1. unfold chop in E. rewrite E. rewrite <- !app_assoc. reflexivity.
    + unfold arg_list. destruct (strip raw) as [|x y] eqn:SR.
      * left. split; [reflexivity|]. apply strip_nil_blank. exact SR.
      * right. exists (map strip (split (T ",") (x :: y))), (split (T ",") raw). split; [reflexivity|]. split.
        { intro B. apply strip_nil_blank in B. congruence. }
        split.
        { replace raw with (join (T ",") (split (T ",") raw)) at 2.
          - apply commas_join. apply split_nonempty.
          - change (T ",") with (","%char :: []). unfold split. rewrite split_join. reflexivity. }
        split.
        { apply Forall_forall. intros r I. destruct (split_pieces "," [] raw r I) as [W|[t [-> W]]]; exact W. }
        { rewrite <- SR. pose proof (split_strip "," raw eq_refl) as SS. change [","%char] with (T ",") in SS. rewrite SS.
          clear. induction (split (T ",") raw) as [|r l IH]; cbn; [constructor|]. constructor; [apply strip_padded|exact IH]. }
  - left. injection B3 as <- <-. split; [reflexivity|]. split; [reflexivity|].
    intro I. apply (proj2 (found_char _ _)) in I. change (T "(") with ["("%char] in F. congruence.
Qed.

(** ** super applications *)
Lemma index_sep_none argv : no_separator argv -> index_sep argv = None.
Proof.
  induction argv as [|a argv IH]; intro N; cbn [index_sep]; [reflexivity|].
  destruct (text_eqb_spec a (T "---")) as [->|]; [exfalso; apply N; left; reflexivity|].
  rewrite IH by (intro I; apply N; right; exact I). reflexivity.
Qed.
Lemma index_sep_some pre post : no_separator pre -> index_sep (pre ++ separator :: post) = Some (List.length pre).
Proof.
  induction pre as [|a pre IH]; intro N; cbn [app index_sep List.length].
  - destruct (text_eqb_spec separator (T "---")) as [|X]; [reflexivity|exfalso; apply X; reflexivity].
  - destruct (text_eqb_spec a (T "---")) as [->|]; [exfalso; apply N; left; reflexivity|].
    rewrite IH by (intro I; apply N; right; exact I). reflexivity.
Qed.
Lemma member_in names n : member names n = true <-> In n names.
Proof.
  unfold member. rewrite existsb_exists. split.
  - intros [x [I E]]. destruct (text_eqb_spec n x) as [->|]; [exact I|discriminate].
  - intro I. exists n. split; [exact I|]. destruct (text_eqb_spec n n); congruence.
Qed.

Lemma run_super_sep names arg0 pre post : no_separator (arg0 :: pre) ->
  run_super names (arg0 :: pre ++ separator :: post) = (arg0 :: pre, Ok (arg0 :: post)).
Proof.
  intro N. pose proof (index_sep_some (arg0 :: pre) post N) as I. cbn [app List.length] in I.
  unfold run_super, set_super. rewrite I. cbn [firstn].
  replace (firstn (List.length pre) (pre ++ separator :: post)) with pre
    by (rewrite firstn_app, firstn_all, Nat.sub_diag; cbn [firstn]; rewrite app_nil_r; reflexivity).
  unfold set_app. rewrite I.
  replace (Nat.eqb (List.length (arg0 :: pre ++ separator :: post)) 1) with false
    by (symmetry; apply Nat.eqb_neq; cbn [List.length]; rewrite app_length; cbn; lia).
  cbn [bind]. replace (skipn (S (S (List.length pre))) (arg0 :: pre ++ separator :: post)) with (skipn (S (List.length pre)) (pre ++ separator :: post)) by reflexivity.
  replace (skipn (S (List.length pre)) (pre ++ separator :: post)) with post; [reflexivity|].
  rewrite skipn_app, skipn_all2 by lia. replace (S (List.length pre) - List.length pre) with 1 by lia. reflexivity.
Qed.

Lemma run_super_plain names arg0 args : no_separator (arg0 :: args) ->
  fst (run_super names (arg0 :: args)) = arg0 :: args /\
  ((forall a, In a args -> In (argName a) names) -> snd (run_super names (arg0 :: args)) = Ok [arg0]) /\
  ((forall a, In a args -> ~ In (argName a) names) -> snd (run_super names (arg0 :: args)) = Ok (arg0 :: args)) /\
  ((exists a, In a args /\ In (argName a) names) -> (exists a, In a args /\ ~ In (argName a) names) ->
     snd (run_super names (arg0 :: args)) = Err AssertionError).
Proof.
  intro N. unfold run_super, set_super. rewrite index_sep_none by exact N. split; [reflexivity|]. cbn [snd].
  unfold set_app. rewrite index_sep_none by exact N.
  destruct args as [|a1 more].
  - cbn. split; [reflexivity|]. split; [reflexivity|]. intros [a [[] _]].
  - cbn [List.length Nat.eqb].
    assert (FT : forall l, forallb (fun a => member names (argName a)) l = true <-> forall a, In a l -> In (argName a) names).
    { intro l. rewrite forallb_forall. split; intros H a I; [apply member_in|apply member_in]; apply H; exact I. }
    assert (FF : forall l, forallb (fun a => negb (member names (argName a))) l = true <-> forall a, In a l -> ~ In (argName a) names).
    { intro l. rewrite forallb_forall. split; intros H a I.
      - intro J. apply member_in in J. specialize (H a I). rewrite J in H. discriminate.
      - specialize (H a I). destruct (member names (argName a)) eqn:M; [apply member_in in M; contradiction|reflexivity]. }
    destruct (member names (argName a1)) eqn:M1.
    + pose proof (proj1 (member_in _ _) M1) as M1'.
      destruct (forallb (fun a => member names (argName a)) more) eqn:FM.
      * pose proof (proj1 (FT more) FM) as A. cbn [bind]. split; [|split].
        -- intros _. rewrite skipn_all2 by (cbn; lia). reflexivity.
        -- intro H. exfalso. apply (H a1 (or_introl eq_refl) M1').
        -- intros _ [a [[<-|I] X]]; exfalso; [exact (X M1')|exact (X (A a I))].
      * split; [|split].
        -- intro H. exfalso. assert (K : forallb (fun a => member names (argName a)) more = true)
             by (apply FT; intros a I; apply H; right; exact I). congruence.
        -- intro H. exfalso. apply (H a1 (or_introl eq_refl) M1').
        -- reflexivity.
    + assert (M1' : ~ In (argName a1) names) by (intro J; apply member_in in J; congruence).
      destruct (forallb (fun a => negb (member names (argName a))) more) eqn:FM.
      * pose proof (proj1 (FF more) FM) as A. cbn [bind skipn]. split; [|split].
        -- intro H. exfalso. exact (M1' (H a1 (or_introl eq_refl))).
        -- reflexivity.
        -- intros [a [[<-|I] X]] _; exfalso; [exact (M1' X)|exact (A a I X)].
      * split; [|split].
        -- intro H. exfalso. exact (M1' (H a1 (or_introl eq_refl))).
        -- intro H. exfalso. assert (K : forallb (fun a => negb (member names (argName a))) more = true)
             by (apply FF; intros a I; apply H; right; exact I). congruence.
        -- reflexivity.
Qed.

(** ** cache keys *)
Lemma leb_total a b : text_leb a b = true \/ text_leb b a = true.
Proof.
  revert b. induction a as [|x a IH]; intros [|y b]; cbn [text_leb]; auto.
  cbv zeta. destruct (Nat.ltb_spec (nat_of_ascii x) (nat_of_ascii y)), (Nat.ltb_spec (nat_of_ascii y) (nat_of_ascii x)); auto; lia.
Qed.
Lemma nat_of_ascii_inj x y : nat_of_ascii x = nat_of_ascii y -> x = y.
Proof. intro H. rewrite <- (ascii_nat_embedding x), <- (ascii_nat_embedding y), H. reflexivity. Qed.
Lemma leb_antisym a b : text_leb a b = true -> text_leb b a = true -> a = b.
Proof.
  revert b. induction a as [|x a IH]; intros [|y b]; cbn [text_leb]; cbv zeta; try congruence.
  destruct (Nat.ltb_spec (nat_of_ascii x) (nat_of_ascii y)), (Nat.ltb_spec (nat_of_ascii y) (nat_of_ascii x)); try discriminate; try lia.
  intros H1 H2. f_equal; [apply nat_of_ascii_inj; lia|apply IH; assumption].
Qed.
Lemma leb_trans a b c : text_leb a b = true -> text_leb b c = true -> text_leb a c = true.
Proof.
  revert b c. induction a as [|x a IH]; intros [|y b] [|z c]; cbn [text_leb]; cbv zeta; try congruence.
  destruct (Nat.ltb_spec (nat_of_ascii x) (nat_of_ascii y)), (Nat.ltb_spec (nat_of_ascii y) (nat_of_ascii z)),
    (Nat.ltb_spec (nat_of_ascii x) (nat_of_ascii z)), (Nat.ltb_spec (nat_of_ascii y) (nat_of_ascii x)),
    (Nat.ltb_spec (nat_of_ascii z) (nat_of_ascii y)), (Nat.ltb_spec (nat_of_ascii z) (nat_of_ascii x)); try congruence; try lia.
  apply IH.
Qed.

Lemma insert_perm a l : Permutation (insert a l) (a :: l).
Proof.
  induction l as [|b l IH]; cbn; [reflexivity|]. destruct (text_leb a b); [reflexivity|].
  rewrite IH. apply perm_swap.
Qed.
Lemma sorted_perm l : Permutation (sorted l) l.
Proof. induction l as [|a l IH]; cbn; [reflexivity|]. rewrite insert_perm, IH. reflexivity. Qed.
Lemma insert_comm a b l : insert a (insert b l) = insert b (insert a l).
Proof.
  induction l as [|c l IH]; cbn [insert].
  - destruct (text_leb a b) eqn:E1, (text_leb b a) eqn:E2; try reflexivity.
    + rewrite (leb_antisym _ _ E1 E2). reflexivity.
    + destruct (leb_total a b); congruence.
  - destruct (text_leb b c) eqn:BC, (text_leb a c) eqn:AC; cbn [insert]; rewrite ?BC, ?AC.
    + destruct (text_leb a b) eqn:E1, (text_leb b a) eqn:E2; try reflexivity.
      * rewrite (leb_antisym _ _ E1 E2). reflexivity.
      * destruct (leb_total a b); congruence.
    + destruct (text_leb a b) eqn:E1; [|reflexivity]. rewrite (leb_trans _ _ _ E1 BC) in AC. discriminate.
    + destruct (text_leb b a) eqn:E1; [|reflexivity]. rewrite (leb_trans _ _ _ E1 AC) in BC. discriminate.
    + rewrite IH. reflexivity.
Qed.
Lemma sorted_of_perm l l' : Permutation l l' -> sorted l = sorted l'.
Proof.
  induction 1; cbn [sorted]; [reflexivity|congruence|apply insert_comm|congruence].
Qed.

Lemma join_inj l l' : Forall word l -> Forall word l' -> join (T " ") l = join (T " ") l' -> l = l'.
Proof.
  assert (Z : forall a m, word a -> join (T " ") (a :: m) <> []).
  { intros a m [N _]. destruct m; cbn; [exact N|]. destruct a; [congruence|discriminate]. }
  assert (G : forall (a b u v : text), ~ In " "%char a -> ~ In " "%char b -> a ++ " "%char :: u = b ++ " "%char :: v -> a = b /\ u = v).
  { induction a as [|x a IH]; intros [|y b] u v Ha Hb E; cbn in E.
    - injection E as ->. auto.
    - injection E as <- _. exfalso. apply Hb. left. reflexivity.
    - injection E as -> _. exfalso. apply Ha. left. reflexivity.
    - injection E as -> E2. destruct (IH b u v) as [-> ->]; auto.
      + intro I. apply Ha. right. exact I.
      + intro I. apply Hb. right. exact I. }
  revert l'. induction l as [|a l IH]; intros [|b l'] F F' E.
  - reflexivity.
  - exfalso. inversion F'; subst. apply (Z b l'); auto.
  - exfalso. inversion F; subst. apply (Z a l); auto.
  - apply Forall_cons_iff in F as [Wa Fl]. apply Forall_cons_iff in F' as [Wb Fl'].
    destruct l as [|a2 l], l' as [|b2 l'].
    + cbn in E. congruence.
    + exfalso. cbn [join] in E. destruct Wa as [_ Wa]. apply Wa. rewrite E. apply in_or_app. right. left. reflexivity.
    + exfalso. cbn [join] in E. destruct Wb as [_ Wb]. apply Wb. rewrite <- E. apply in_or_app. right. left. reflexivity.
    + rewrite (join_cons _ a) in E by discriminate. rewrite (join_cons _ b) in E by discriminate.
      destruct (G a b _ _ (proj2 Wa) (proj2 Wb) E) as [-> E2]. f_equal. apply IH; assumption.
Qed.

Lemma arg_str_iff {V W} (p : list (text * V)) (p' : list (text * W)) args args' :
  map fst p = map fst p' -> Forall word args -> Forall word args' ->
  arg_str p args = arg_str p' args' <-> Permutation args args'.
Proof.
  intros K W1 W2. unfold arg_str. rewrite K. split.
  - intro E. apply app_inv_head in E. apply app_inv_head in E.
    assert (S1 : Forall word (sorted args)) by (eapply Permutation_Forall; [symmetry; apply sorted_perm|exact W1]).
    assert (S2 : Forall word (sorted args')) by (eapply Permutation_Forall; [symmetry; apply sorted_perm|exact W2]).
    apply join_inj in E; [|exact S1|exact S2]. rewrite <- (sorted_perm args), E. apply sorted_perm.
  - intro P. rewrite (sorted_of_perm _ _ P). reflexivity.
Qed.
Lemma arg_str_perm {V W} (p : list (text * V)) (p' : list (text * W)) args args' :
  map fst p = map fst p' -> Permutation args args' -> arg_str p args = arg_str p' args'.
Proof. intros K P. unfold arg_str. rewrite K, (sorted_of_perm _ _ P). reflexivity. Qed.

Section Cache.
  Variables V D : Type.
  Variable md5 : text -> text.
  Variable shell : text -> option D.
  Variable overlay : D -> D -> D.
  Notation inv := (invoke (V := V) md5 shell overlay).
  Notation invs := (invocations (V := V) md5 shell overlay).
  Definition path_of (i : invocation V) := cache_path md5 (i_cmd i) (i_params i) (i_args i).

  Lemma path_eqb_spec p q : reflect (p = q) (path_eqb p q).
  Proof.
    revert q. induction p as [|a p IH]; intros [|b q]; cbn; try (constructor; congruence).
    destruct (text_eqb_spec a b) as [->|]; cbn; [|constructor; congruence].
    destruct (IH q); constructor; congruence.
  Qed.

  Lemma invoke_cache c i q :
    (exists d, fst (inv c i) q = Some d) <->
    (exists d, c q = Some d) \/ ((exists line, snd (inv c i) = RanCommand line) /\ q = path_of i).
  Proof.
    unfold invoke. fold (path_of i).
    destruct (if i_use_cache i && negb (i_only_metadata i) then c (path_of i) else None) as [d|].
    - cbn. split; [auto|]. intros [H|[[l H] _]]; [exact H|discriminate].
    - destruct (i_only_metadata i).
      + cbn. split; [auto|]. intros [H|[[l H] _]]; [exact H|discriminate].
      + destruct (negb (i_keep i)).
        * cbn. split; [auto|]. intros [H|[[l H] _]]; [exact H|discriminate].
        * destruct (shell _) as [d|]; cbn [fst snd].
          -- destruct (path_eqb_spec q (path_of i)) as [->|N].
             ++ split; [|intros _; eexists; reflexivity]. intros _. right. split; [eexists; reflexivity|reflexivity].
             ++ split; [auto|]. intros [H|[_ H]]; [exact H|contradiction].
          -- split; [auto|]. intros [H|[[l H] _]]; [exact H|discriminate].
  Qed.

  Lemma invocations_cache c h q :
    (exists d, fst (invs c h) q = Some d) <->
    (exists d, c q = Some d) \/
    (exists i o, In (i, o) (combine h (snd (invs c h))) /\ (exists line, o = RanCommand line) /\ path_of i = q).
  Proof.
    revert c. induction h as [|i h IH]; intro c; cbn [invocations].
    - cbn. split; [auto|]. intros [H|[i [o [[] _]]]]. exact H.
    - destruct (inv c i) as [c1 o] eqn:E. destruct (invs c1 h) as [c2 os] eqn:E2. cbn [fst snd combine].
      specialize (IH c1). rewrite E2 in IH. cbn [fst snd] in IH. rewrite IH.
      pose proof (invoke_cache c i q) as I. rewrite E in I. cbn [fst snd] in I. rewrite I. split.
      + intros [[H|[[line H] P]]|[j [oj [J [L P]]]]].
        * auto.
        * right. exists i, o. split; [left; reflexivity|]. split; [exists line; exact H|symmetry; exact P].
        * right. exists j, oj. split; [right; exact J|]. auto.
      + intros [H|[j [oj [[J|J] [L P]]]]].
        * auto.
        * injection J as <- <-. left. right. split; [exact L|symmetry; exact P].
        * right. exists j, oj. auto.
  Qed.

  Definition over (o : option D) (l : list D) : option D :=
    match o with None => overlaid overlay l | Some d => Some (fold_left overlay l d) end.
  Lemma cache_content c h q : fst (invs c h) q = over (c q) (kept md5 shell q (combine h (snd (invs c h)))).
  Proof.
    revert c. induction h as [|i h IH]; intro c; cbn [invocations].
    - cbn. unfold over. destruct (c q); reflexivity.
    - destruct (inv c i) as [c1 o] eqn:E. specialize (IH c1). destruct (invs c1 h) as [c2 os] eqn:E2. cbn [fst snd combine] in *. rewrite IH. clear IH E2.
      unfold invoke in E. fold (path_of i) in E.
      assert (G : c1 = c -> (forall l, o <> RanCommand l) -> over (c1 q) (kept md5 shell q (combine h os)) = over (c q) (kept md5 shell q ((i, o) :: combine h os))).
      { intros -> N. cbn [kept]. destruct o; try reflexivity. exfalso. exact (N line eq_refl). }
      destruct (if i_use_cache i && negb (i_only_metadata i) then c (path_of i) else None).
      { injection E as <- <-. apply G; [reflexivity|discriminate]. }
      destruct (i_only_metadata i); [injection E as <- <-; apply G; [reflexivity|discriminate]|].
      destruct (negb (i_keep i)); [injection E as <- <-; apply G; [reflexivity|discriminate]|].
      set (line := join (T " ") (i_cmd i) ++ T " " ++ arg_str (i_params i) (i_args i)) in *.
      destruct (shell line) as [d|] eqn:SH; injection E as <- <-; [|apply G; [reflexivity|discriminate]].
      cbn [kept]. fold (path_of i). rewrite SH.
      destruct (path_eqb_spec q (path_of i)) as [->|N].
      + destruct (list_eq_dec (list_eq_dec ascii_dec) (path_of i) (path_of i)) as [_|K]; [|congruence]. cbn [app]. unfold over, overlaid. destruct (c (path_of i)); reflexivity.
      + destruct (list_eq_dec (list_eq_dec ascii_dec) (path_of i) q) as [K|_]; [congruence|]. reflexivity.
  Qed.
End Cache.
