From Verif Require Import Base StorageModel StorageSpec StorageProofs StorageProofs2 StorageToolsModel StorageToolsSpec.
From Coq Require Import ZifyBool ZifyNat QArith Qfield.
Open Scope Z_scope.

Lemma Forall2_impl' {A B} (P Q : A -> B -> Prop) l l' :
  (forall a b, P a b -> Q a b) -> Forall2 P l l' -> Forall2 Q l l'.
Proof. intros H F. induction F; constructor; auto. Qed.

(** ** merge *)
Lemma p_write_ok path m d0 all s d ns :
  m <> MR -> winv path m d0 all s d -> wf_neutrons ns ->
  exists s' d', p_write s ns d = ([(d, path)], d', Ok s') /\ winv path m d0 (all ++ ns) s' d'.
Proof.
  intros Hm I W. destruct (wstep_inv path m d0 all s d (OWrite ns) Hm I W) as (s' & d' & E & I' & _).
  exists s', d'. unfold p_write, touching. cbn [st_step] in E.
  destruct (st_write s d ns) as [[s1 d1] r]. injection E as -> -> ->.
  split; [f_equal; f_equal; f_equal; f_equal; apply I|].
  cbn [written flat_map] in I'. rewrite app_nil_r in I'. exact I'.
Qed.

Lemma p_close_ok path m d0 all s d :
  m <> MR -> winv path m d0 all s d ->
  exists d', p_close s d = ([(d, path)], d', Ok tt) /\
    (exists c, d' path = Some (File c) /\ file_holds c all) /\ (forall q, q <> path -> d' q = d0 q).
Proof.
  intros Hm I. destruct (wclose_inv path m d0 all s d Hm I) as (s' & d' & E & Hh & (c & Hc) & _ & _ & Hfr).
  exists d'. unfold p_close, touching. cbn [st_step] in E.
  destruct (st_close s d) as [[s1 d1] r]. injection E as -> -> ->.
  split; [f_equal; f_equal; f_equal; f_equal; apply I|]. split; [|assumption].
  exists c. split; [assumption|]. unfold fs_bytes in Hh. rewrite Hc in Hh. exact Hh.
Qed.

Lemma readall_ok d p b ns : d p = Some (File b) -> wf_neutrons ns -> file_holds b ns ->
  exists s s', p_open_r p d = ([], d, Ok s) /\
    p_read s None false d = ([], d, Ok (s', match ns with [] => None | _ => Some ns end)).
Proof.
  intros Hd W H. set (s := mkStorage p MR false 10000 [] None 0 (Z.of_nat (List.length ns))).
  exists s, (fst (st_read s d None false true)).
  unfold p_open_r. rewrite (open_r d p 10000 None b ns Hd W H). split; [reflexivity|].
  unfold p_read. assert (Hns : ns = [] \/ ns <> []) by (destruct ns; [left|right]; congruence).
  destruct Hns as [En|En].
  - subst. reflexivity.
  - assert (L : (1 <= List.length ns)%nat) by (destruct ns; cbn; [congruence|lia]).
    replace (match ns with [] => None | _ => Some ns end) with (Some ns) by (destruct ns; congruence).
    assert (I : rinv ns s d).
    { constructor; cbn; auto. unfold fs_bytes. rewrite Hd. assumption. }
    assert (E : st_read s d None false true = st_read s d (Some (Z.of_nat (List.length ns))) false true).
    { unfold st_read. rewrite py_or_pos by lia. cbn [py_or s s_packetsize s_ntotal s_position].
      rewrite Z.sub_0_r. reflexivity. }
    rewrite E, (read_wrap_step ns s d 0 (List.length ns) false I eq_refl) by lia.
    unfold wrap_read. rewrite Nat.ltb_irrefl. cbn [Nat.add]. rewrite Nat.sub_0_r, Nat.sub_diag.
    rewrite Nat.div_0_l, Nat.mod_0_l by lia. cbn [repeat List.concat firstn skipn]. rewrite !app_nil_r.
    reflexivity.
Qed.

Lemma merge_loop_ok newpath d0 paths : forall nss all out d,
  winv newpath MW d0 all out d ->
  Forall2 (fun p ns => p <> newpath /\ wf_neutrons ns /\ exists b, d0 p = Some (File b) /\ file_holds b ns) paths nss ->
  exists ws d' out', merge_loop out paths d = (ws, d', Ok out') /\
    winv newpath MW d0 (all ++ List.concat nss) out' d' /\
    Forall (fun w => snd w = newpath /\ forall q, q <> newpath -> fst w q = d0 q) ws.
Proof.
  induction paths as [|p paths IH]; intros nss all out d I H; inversion H as [|? ns ? nss' (Hne & W & b & Hb & Hh) H']; subst.
  - exists [], d, out. cbn [merge_loop ret List.concat]. rewrite app_nil_r.
    split; [reflexivity|]. split; [assumption|constructor].
  - assert (Hdp : d p = Some (File b)) by (rewrite <- Hb; apply I; assumption).
    destruct (readall_ok d p b ns Hdp W Hh) as (s & s' & Eo & Er).
    cbn [merge_loop]. unfold pbind. rewrite Eo. rewrite Er.
    destruct ns as [|x xs].
    + destruct (IH nss' all out d I H') as (ws & d' & out' & E & I' & F).
      exists ws, d', out'. rewrite E. cbn [List.concat app]. split; [reflexivity|]. auto.
    + destruct (p_write_ok newpath MW d0 all out d (x :: xs) ltac:(discriminate) I W) as (s2 & d2 & E2 & I2).
      rewrite E2.
      destruct (IH nss' _ s2 d2 I2 H') as (ws & d' & out' & E & I' & F).
      rewrite E. do 3 eexists. split; [reflexivity|]. split.
      * cbn [List.concat]. rewrite app_assoc. assumption.
      * cbn [app]. constructor; [|assumption]. cbn. split; [reflexivity|]. apply I.
Qed.

Lemma merge_ok d paths nss newpath :
  paths <> [] -> d newpath = None ->
  Forall2 (fun p ns => p <> newpath /\ wf_neutrons ns /\ exists b, d p = Some (File b) /\ file_holds b ns) paths nss ->
  exists ws d', merge paths newpath d = (ws, d', Ok tt) /\
    (exists b, d' newpath = Some (File b) /\ file_holds b (List.concat nss)) /\
    (forall q, q <> newpath -> d' q = d q) /\
    Forall (fun w => snd w = newpath /\ forall q, q <> newpath -> fst w q = d q) ws.
Proof.
  intros Hp Hn H.
  destruct (open_w_inv d newpath 10000 None Hn) as (s & d1 & Eo & I).
  destruct (merge_loop_ok newpath d paths nss [] s d1 I H) as (ws & d2 & out' & E & I2 & F).
  destruct (p_close_ok newpath MW d _ out' d2 ltac:(discriminate) I2) as (d3 & E3 & Hb & Hfr).
  exists (((d, newpath) :: ws) ++ [(d2, newpath)]), d3.
  split.
  - destruct paths as [|p paths]; [congruence|]. unfold merge, pbind.
    unfold p_open_w, touching. rewrite Eo. rewrite E, E3. cbn [app]. reflexivity.
  - split; [exact Hb|]. split; [assumption|].
    apply Forall_app. split.
    + constructor; [cbn; auto|assumption].
    + constructor; [|constructor]. cbn. split; [reflexivity|apply I2].
Qed.

Lemma merge_guards d paths newpath :
  (paths = [] -> merge paths newpath d = ([], d, Err AssertionError)) /\
  (paths <> [] -> d newpath <> None ->
   exists ws e, merge paths newpath d = (ws, d, Err e) /\ (d newpath <> Some Dir -> e = RuntimeError)).
Proof.
  split.
  - intros ->. reflexivity.
  - intros Hp Hn. destruct paths as [|p paths]; [congruence|].
    unfold merge, pbind, p_open_w, touching, st_open, fs_exists.
    destruct (d newpath) as [e|]; [|congruence]. cbn. eauto.
Qed.

(** ** normalize *)
Lemma scale_last_reweighted scale n : wf_neutron n -> reweighted scale n (scale_last scale n).
Proof.
  intros [L _]. destruct (length10 n L) as (a&b&c&e&f&g&h&i&j&k&->).
  exists [a;b;c;e;f;g;h;i;j], k. repeat split.
Qed.

Lemma scale_last_wf scale n : (forall w, wf_word w -> wf_word (scale w)) -> wf_neutron n -> wf_neutron (scale_last scale n).
Proof.
  intros Hs [L F]. destruct (length10 n L) as (a&b&c&e&f&g&h&i&j&k&->).
  split; [reflexivity|]. unfold scale_last. cbn.
  repeat (match goal with H : Forall wf_word (_ :: _) |- _ => inversion H; subst; clear H end).
  repeat (apply Forall_cons; [solve [auto]|]). apply Forall_nil.
Qed.

Lemma map_scale_wf scale ns : (forall w, wf_word w -> wf_word (scale w)) -> wf_neutrons ns -> wf_neutrons (map (scale_last scale) ns).
Proof.
  intros Hs W. unfold wf_neutrons. apply Forall_map. eapply Forall_impl; [|exact W].
  intros n Hn. apply scale_last_wf; assumption.
Qed.

Lemma firstn_add {A} (j k : nat) (l : list A) : firstn (j + k) l = firstn j l ++ firstn k (skipn j l).
Proof.
  revert l; induction j as [|j IH]; intro l; [reflexivity|].
  destruct l as [|x l]; cbn; [rewrite firstn_nil; reflexivity|]. f_equal. apply IH.
Qed.

Lemma wrap_read_inside l p n : (p < List.length l)%nat -> (p + n <= List.length l)%nat ->
  wrap_read l p n = firstn n (skipn p l).
Proof.
  intros Hp H. unfold wrap_read. destruct (Nat.ltb_spec (p+n) (List.length l)) as [Hlt|Hge]; [reflexivity|].
  replace (n - (List.length l - p))%nat with 0%nat by lia.
  rewrite Nat.div_0_l, Nat.mod_0_l by lia. cbn [repeat List.concat firstn app]. rewrite app_nil_r.
  rewrite firstn_all2 by (rewrite skipn_length; lia). reflexivity.
Qed.

Lemma rinv_frame l s d d' : rinv l s d -> d' (s_path s) = d (s_path s) -> rinv l s d'.
Proof.
  intros [W H M O T] E. constructor; auto. unfold fs_bytes. rewrite E. exact H.
Qed.

Lemma normalize_loop_ok scale chunk tmp d0 l :
  (forall w, wf_word w -> wf_word (scale w)) -> 1 <= chunk ->
  forall fuel p all inp out d,
  rinv l inp d -> s_path inp <> tmp -> (p <= List.length l)%nat ->
  ((p < List.length l)%nat -> s_position inp = Z.of_nat p) ->
  (List.length l - p <= fuel)%nat ->
  winv tmp MW d0 all out d ->
  exists ws d' out',
    normalize_loop fuel scale chunk (Z.of_nat (List.length l - p)) inp out d = (ws, d', Ok out') /\
    winv tmp MW d0 (all ++ map (scale_last scale) (skipn p l)) out' d' /\
    Forall (fun w => snd w = tmp /\ forall q, q <> tmp -> fst w q = d0 q) ws.
Proof.
  intros Hs Hc. induction fuel as [|fuel IH]; intros p all inp out d R Hne Hp Hpos Hf I.
  - assert (E : (List.length l - p)%nat = 0%nat) by lia. rewrite E. cbn [normalize_loop Z.of_nat Z.eqb ret].
    exists [], d, out. rewrite skipn_all2 by lia. cbn [map]. rewrite app_nil_r.
    split; [reflexivity|]. split; [assumption|constructor].
  - cbn [normalize_loop]. destruct (Z.eqb_spec (Z.of_nat (List.length l - p)) 0) as [E|E].
    + exists [], d, out. rewrite skipn_all2 by lia. cbn [map]. rewrite app_nil_r.
      split; [reflexivity|]. split; [assumption|constructor].
    + assert (Hlt : (p < List.length l)%nat) by lia.
      specialize (Hpos Hlt).
      set (n := Z.to_nat (Z.min (Z.of_nat (List.length l - p)) chunk)).
      replace (Z.min (Z.of_nat (List.length l - p)) chunk) with (Z.of_nat n) by lia.
      assert (Hn : (1 <= n /\ p + n <= List.length l)%nat) by lia.
      unfold pbind. unfold p_read at 1.
      rewrite (read_wrap_step l inp d p n true R Hpos Hlt) by lia.
      rewrite (wrap_read_inside l p n) by lia.
      destruct (p_write_ok tmp MW d0 all out d (map (scale_last scale) (firstn n (skipn p l)))
                  ltac:(discriminate) I) as (s2 & d2 & E2 & I2).
      { apply map_scale_wf; [assumption|]. apply wf_firstn, wf_skipn. apply R. }
      rewrite E2.
      destruct (IH (p + n)%nat (all ++ map (scale_last scale) (firstn n (skipn p l)))
                  (set_position inp (Z.of_nat ((p + n) mod List.length l))) s2 d2) as (ws & d' & out' & E3 & I3 & F3).
      * apply rinv_frame with d; [apply rinv_set_position; assumption|]. cbn [s_path set_position].
        destruct I as [_ _ _ _ _ Fr1]. destruct I2 as [_ _ _ _ _ Fr2].
        rewrite Fr1, Fr2 by assumption. reflexivity.
      * exact Hne.
      * lia.
      * intro Hlt2. cbn [set_position s_position]. rewrite Nat.mod_small by lia. reflexivity.
      * lia.
      * exact I2.
      * replace (Z.of_nat (List.length l - p) - Z.of_nat n) with (Z.of_nat (List.length l - (p + n))) by lia.
        rewrite E3. do 3 eexists. split; [reflexivity|]. split.
        -- rewrite <- app_assoc, <- map_app in I3.
           assert (Ek : skipn p l = firstn n (skipn p l) ++ skipn (p + n) l)
             by (rewrite <- skipn_skipn'; symmetry; apply firstn_skipn).
           rewrite Ek. exact I3.
        -- cbn [app]. constructor; [|assumption]. cbn. split; [reflexivity|apply I].
Qed.

Lemma normalize_ok scale chunk tmp path d b l :
  (forall w, wf_word w -> wf_word (scale w)) -> 1 <= chunk ->
  d tmp = None -> tmp <> path -> d path = Some (File b) -> wf_neutrons l -> file_holds b l ->
  exists ws d', normalize_chunked chunk scale tmp path d = (ws, d', Ok tt) /\
    (exists b', d' path = Some (File b') /\ file_holds b' (map (scale_last scale) l)) /\
    (forall q, q <> path -> d' q = d q) /\
    Forall (fun w => snd w = tmp /\ forall q, q <> tmp -> fst w q = d q) ws.
Proof.
  intros Hs Hc Ht Hne Hd W H.
  unfold normalize_chunked.
  set (d1 := fs_set d tmp (Some (File []))).
  set (d2 := fs_set d1 tmp None).
  assert (Hd1 : forall q, q <> tmp -> d1 q = d q)
    by (intros q Hq; unfold d1, fs_set; destruct (String.eqb_spec tmp q); congruence).
  assert (Hd2 : forall q, d2 q = d q).
  { intro q. unfold d2, fs_set. destruct (String.eqb_spec tmp q) as [<-|N]; [congruence|].
    apply Hd1. congruence. }
  unfold pbind at 1. unfold touching at 1. fold d1.
  unfold pbind at 1. unfold p_remove, touching.
  assert (E1 : d1 tmp = Some (File [])) by (unfold d1, fs_set; rewrite String.eqb_refl; reflexivity).
  rewrite E1. fold d2. unfold pbind at 1.
  (* _normalize *)
  assert (Ht2 : d2 tmp = None) by (rewrite Hd2; assumption).
  assert (Hp2 : d2 path = Some (File b)) by (rewrite Hd2; assumption).
  destruct (open_w_inv d2 tmp 10000 None Ht2) as (out & d3 & Eo & I3).
  assert (Hp3 : d3 path = Some (File b)) by (rewrite (wi_frame _ _ _ _ _ _ I3) by congruence; assumption).
  assert (N : exists ws d', normalize_into chunk scale path tmp d2 = (ws, d', Ok tt) /\
     (exists c, d' tmp = Some (File c) /\ file_holds c (map (scale_last scale) l)) /\
     (forall q, q <> tmp -> d' q = d2 q) /\
     Forall (fun w => snd w = tmp /\ forall q, q <> tmp -> fst w q = d2 q) ws).
  { unfold normalize_into. destruct (String.eqb_spec path tmp); [congruence|].
    unfold pbind, p_exists, fs_exists. rewrite Ht2. unfold p_count. rewrite Hp2.
    rewrite (holds_count b l W H). unfold p_open_w, touching. rewrite Eo.
    unfold p_open_r. rewrite (open_r d3 path 10000 None b l Hp3 W H).
    set (inp := mkStorage path MR false 10000 [] None 0 (Z.of_nat (List.length l))).
    assert (R : rinv l inp d3).
    { constructor; cbn; auto. unfold fs_bytes. rewrite Hp3. assumption. }
    destruct (normalize_loop_ok scale chunk tmp d2 l Hs Hc (List.length l) 0 [] inp out d3 R)
      as (ws & d4 & out' & E4 & I4 & F4); auto; try lia.
    rewrite Nat2Z.id. rewrite Nat.sub_0_r in E4. rewrite E4.
    destruct (p_close_ok tmp MW d2 _ out' d4 ltac:(discriminate) I4) as (d5 & E5 & Hb5 & Fr5).
    rewrite E5. do 2 eexists. split; [reflexivity|]. split; [exact Hb5|]. split; [exact Fr5|].
    cbn [app]. constructor; [cbn; auto|].
    apply Forall_app. split; [assumption|]. constructor; [|constructor]. cbn. split; [reflexivity|apply I4]. }
  destruct N as (ws & d5 & E5 & (c & Hc5 & Hh5) & Fr5 & F5). rewrite E5.
  unfold p_rename. rewrite Hc5. do 2 eexists. split; [reflexivity|].
  split; [|split].
  - exists c. split; [|assumption]. unfold fs_set. rewrite String.eqb_refl. reflexivity.
  - intros q Hq. unfold fs_set. destruct (String.eqb_spec path q); [congruence|].
    destruct (String.eqb_spec tmp q) as [<-|N]; [congruence|]. rewrite Fr5 by congruence. apply Hd2.
  - cbn [app]. constructor; [cbn; auto|]. constructor; [cbn; auto|].
    rewrite app_nil_r. eapply Forall_impl; [|exact F5].
    intros w [Hw1 Hw2]. split; [assumption|]. intros q Hq. rewrite Hw2 by assumption. apply Hd2.
Qed.

Lemma map_reweighted scale l : wf_neutrons l -> Forall2 (reweighted scale) l (map (scale_last scale) l).
Proof.
  intro W. induction l as [|n l IH]; [constructor|]. inversion W; subst.
  apply Forall2_cons; [apply scale_last_reweighted|apply IH]; assumption.
Qed.

Lemma normalize_atomic scale chunk tmp path d b l ws d' :
  (forall w, wf_word w -> wf_word (scale w)) -> 1 <= chunk ->
  d tmp = None -> tmp <> path -> d path = Some (File b) -> wf_neutrons l -> file_holds b l ->
  normalize_chunked chunk scale tmp path d = (ws, d', Ok tt) ->
  forall dc, crash_state ws d' dc ->
  (dc path = Some (File b) \/ exists b', dc path = Some (File b') /\ file_holds b' (map (scale_last scale) l)) /\
  (forall q, q <> path -> q <> tmp -> dc q = d q).
Proof.
  intros Hs Hc Ht Hne Hd W H E dc C.
  destruct (normalize_ok scale chunk tmp path d b l Hs Hc Ht Hne Hd W H) as (ws' & d'' & E' & Hb & Fr & F).
  rewrite E in E'. injection E' as <- <-.
  destruct C as [C|(d0 & p & Hin & C)].
  - split; [right|].
    + destruct Hb as (b' & Hb & Hh). exists b'. rewrite C. auto.
    + intros q Hq _. rewrite C. apply Fr. assumption.
  - rewrite Forall_forall in F. destruct (F _ Hin) as [Ep Ed]. cbn in Ep, Ed. subst p.
    split.
    + left. rewrite C by congruence. rewrite Ed by congruence. exact Hd.
    + intros q Hq Hqt. rewrite C by assumption. apply Ed. assumption.
Qed.

(** ** merge_and_normalize *)

Lemma total_weight_cons val n l : total_weight val (n :: l) = (weight_of val n + total_weight val l)%Q.
Proof. reflexivity. Qed.

(* the weights are divided by c: the total weight is divided by c *)
Lemma total_weight_div val f c l : wf_neutrons l ->
  (forall n, In n l -> val (f (nth 9 n 0%Z)) == val (nth 9 n 0%Z) / c)%Q ->
  (total_weight val (map (scale_last f) l) == total_weight val l / c)%Q.
Proof.
  induction 1 as [|n l [L _] W IH]; intro H.
  - unfold total_weight. cbn. unfold Qdiv. rewrite Qmult_0_l. reflexivity.
  - cbn [map]. rewrite !total_weight_cons. rewrite IH by (intros; apply H; right; assumption).
    specialize (H n (or_introl eq_refl)).
    destruct (length10 n L) as (a&b&c0&e&f0&g&h&i&j&k&->). cbn in H.
    unfold weight_of, scale_last. cbn [firstn skipn map app]. rewrite H. unfold Qdiv. ring.
Qed.

Lemma fs_set_frame d p e q : q <> p -> fs_set d p e q = d q.
Proof. intro H. unfold fs_set. destruct (String.eqb_spec p q); congruence. Qed.

Lemma man_merge d paths nss mcs tmp out overwrite :
  merge_inputs d paths nss mcs tmp out overwrite ->
  exists ws d1, (do! ex := p_exists out in
                 do! _ := (if overwrite && ex then p_remove out else ret tt) in
                 merge paths out) d = (ws, d1, Ok tt) /\
    (exists b, d1 out = Some (File b) /\ file_holds b (List.concat nss)) /\
    (forall q, q <> out -> d1 q = d q) /\ wf_neutrons (List.concat nss).
Proof.
  intros (Hp & Hl & Hf & Ht & Hto & Ho).
  assert (W : wf_neutrons (List.concat nss)).
  { clear -Hf. induction Hf as [|p ns ps nss (_ & W & _) _ IH]; cbn; [constructor|].
    apply Forall_app. split; assumption. }
  assert (M : forall d', d' out = None -> (forall q, q <> out -> d' q = d q) ->
     exists ws d1, merge paths out d' = (ws, d1, Ok tt) /\
      (exists b, d1 out = Some (File b) /\ file_holds b (List.concat nss)) /\
      (forall q, q <> out -> d1 q = d q)).
  { intros d' Hn Hfr. destruct (merge_ok d' paths nss out Hp Hn) as (ws & d1 & E & Hb & Fr & _).
    - eapply Forall2_impl'; [|exact Hf]. intros p ns (Hne & W' & b & Hb & Hh).
      split; [assumption|]. split; [assumption|]. exists b. rewrite Hfr by assumption. auto.
    - exists ws, d1. split; [assumption|]. split; [assumption|]. intros q Hq. rewrite Fr by assumption. auto. }
  unfold pbind, p_exists, fs_exists.
  destruct overwrite.
  - destruct (d out) as [e|] eqn:Eo; cbn [andb].
    + destruct e as [|b]; [exfalso; eapply Ho; reflexivity|].
      unfold p_remove, touching. rewrite Eo.
      destruct (M (fs_set d out None)) as (ws & d1 & E & Hb & Fr).
      * unfold fs_set. rewrite String.eqb_refl. reflexivity.
      * intros q Hq. apply fs_set_frame. congruence.
      * rewrite E. eauto 10.
    + cbn [ret]. destruct (M d Eo) as (ws & d1 & E & Hb & Fr); [auto|]. rewrite E. eauto 10.
  - cbn [andb ret]. destruct (M d Ho) as (ws & d1 & E & Hb & Fr); [auto|]. rewrite E. eauto 10.
Qed.

Lemma man_split {A B C D} (m1 : prog A) (m2 : A -> prog B) (m3 : prog C) (k : C -> prog D) d ws d1 c :
  (do! x := m1 in do! y := m2 x in m3) d = (ws, d1, Ok c) ->
  (do! x := m1 in do! y := m2 x in do! z := m3 in k z) d
  = (ws ++ fst (fst (k c d1)), snd (fst (k c d1)), snd (k c d1)).
Proof.
  unfold pbind. destruct (m1 d) as [[w1 e1] [a|e]]; [|discriminate].
  destruct (m2 a e1) as [[w2 e2] [b|e]]; [|discriminate].
  destruct (m3 e2) as [[w3 e3] [c'|e]]; [|discriminate].
  intro H. injection H as <- <- <-. destruct (k c' e3) as [[w4 e4] r]. cbn. rewrite <- !app_assoc. reflexivity.
Qed.

Section MAN.
Variable dbl_div : Q -> Z -> Z.
Hypothesis dbl_wf : forall c w, wf_word w -> wf_word (dbl_div c w).

Lemma man_tail d paths nss mcs tmp out overwrite (zero : prog unit) :
  merge_inputs d paths nss mcs tmp out overwrite ->
  List.concat nss <> [] ->
  exists ws d',
    (do! ex := p_exists out in
     do! _ := (if overwrite && ex then p_remove out else ret tt) in
     do! _ := merge paths out in
     do! nevts := p_count out in
     if nevts =? 0 then zero
     else normalize (dbl_div (mcs_sum mcs / inject_Z nevts)%Q) tmp out) d = (ws, d', Ok tt) /\
    (exists b, d' out = Some (File b) /\ file_holds b (map (scale_last (dbl_div (nfactor mcs nss))) (List.concat nss))) /\
    (forall q, q <> out -> d' q = d q).
Proof.
  intros P Hne. destruct (man_merge _ _ _ _ _ _ _ P) as (ws & d1 & E & (b & Hb & Hh) & Fr & W).
  destruct P as (Hp & Hl & Hf & Ht & Hto & Ho).
  rewrite (man_split _ _ _ _ _ _ _ _ E).
  unfold pbind at 1 2 3, p_count. rewrite Hb. rewrite (holds_count _ _ W Hh).
  destruct (Z.eqb_spec (Z.of_nat (List.length (List.concat nss))) 0) as [E0|E0].
  { destruct (List.concat nss); [congruence|cbn in E0; lia]. }
  destruct (normalize_ok (dbl_div (nfactor mcs nss)) chunk_size tmp out d1 b (List.concat nss))
    as (ws2 & d2 & E2 & Hb2 & Fr2 & _); auto.
  { unfold chunk_size. lia. }
  { rewrite Fr by assumption. assumption. }
  unfold normalize. change (mcs_sum mcs / inject_Z (Z.of_nat (List.length (List.concat nss))))%Q with (nfactor mcs nss).
  rewrite E2. cbn [fst snd]. do 2 eexists. split; [reflexivity|]. split; [assumption|].
  intros q Hq. rewrite Fr2, Fr by assumption. reflexivity.
Qed.

Lemma man_zero d paths nss mcs tmp out overwrite (zero : prog unit) (other : Z -> prog unit) :
  merge_inputs d paths nss mcs tmp out overwrite ->
  List.concat nss = [] ->
  exists ws d1, (forall q, q <> out -> d1 q = d q) /\ (exists b, d1 out = Some (File b) /\ file_holds b []) /\
    (do! ex := p_exists out in
     do! _ := (if overwrite && ex then p_remove out else ret tt) in
     do! _ := merge paths out in
     do! nevts := p_count out in
     if nevts =? 0 then zero else other nevts) d
    = (ws ++ fst (fst (zero d1)), snd (fst (zero d1)), snd (zero d1)).
Proof.
  intros P Hne. destruct (man_merge _ _ _ _ _ _ _ P) as (ws & d1 & E & (b & Hb & Hh) & Fr & W).
  exists ws, d1. split; [assumption|]. rewrite Hne in *. split; [eauto|].
  rewrite (man_split _ _ _ _ _ _ _ _ E).
  unfold pbind, p_count. rewrite Hb. rewrite (holds_count _ _ W Hh). cbn [List.length Z.of_nat Z.eqb].
  destruct (zero d1) as [[w e] r]. reflexivity.
Qed.

Lemma man_serial_ok d paths nss mcs tmp out overwrite :
  merge_inputs d paths nss mcs tmp out overwrite -> List.concat nss <> [] ->
  exists ws d',
    merge_and_normalize_serial dbl_div paths mcs tmp out overwrite d = (ws, d', Ok tt) /\
    (exists b, d' out = Some (File b) /\ file_holds b (map (scale_last (dbl_div (nfactor mcs nss))) (List.concat nss))) /\
    (forall q, q <> out -> d' q = d q).
Proof.
  intros P Hne. unfold merge_and_normalize_serial. pose proof P as (Hp & Hl & _). rewrite Hl, Nat.eqb_refl. cbn [negb].
  destruct paths as [|p ps]; [congruence|]. apply man_tail; auto.
Qed.
Lemma man_module_ok d paths nss mcs tmp out overwrite :
  merge_inputs d paths nss mcs tmp out overwrite -> List.concat nss <> [] ->
  exists ws d',
    merge_and_normalize dbl_div paths mcs tmp out overwrite d = (ws, d', Ok tt) /\
    (exists b, d' out = Some (File b) /\ file_holds b (map (scale_last (dbl_div (nfactor mcs nss))) (List.concat nss))) /\
    (forall q, q <> out -> d' q = d q).
Proof.
  intros P Hne. unfold merge_and_normalize. pose proof P as (Hp & Hl & _). rewrite Hl, Nat.eqb_refl. cbn [negb].
  destruct paths as [|p ps]; [congruence|]. apply man_tail; auto.
Qed.
Lemma man_serial_zero d paths nss mcs tmp out overwrite :
  merge_inputs d paths nss mcs tmp out overwrite -> List.concat nss = [] ->
  exists ws d',
    merge_and_normalize_serial dbl_div paths mcs tmp out overwrite d = (ws, d', Ok tt) /\
    (exists b, d' out = Some (File b) /\ file_holds b []) /\ (forall q, q <> out -> d' q = d q).
Proof.
  intros P Hne. unfold merge_and_normalize_serial. pose proof P as (Hp & Hl & _). rewrite Hl, Nat.eqb_refl. cbn [negb].
  destruct paths as [|p ps]; [congruence|].
  destruct (man_zero d (p :: ps) nss mcs tmp out overwrite (ret tt)
     (fun nevts => normalize (dbl_div (mcs_sum mcs / inject_Z nevts)%Q) tmp out) P Hne) as (ws & d1 & Fr & Hb & E).
  rewrite E. cbn [ret fst snd]. eauto 10.
Qed.
Lemma man_module_zero d paths nss mcs tmp out overwrite :
  merge_inputs d paths nss mcs tmp out overwrite -> List.concat nss = [] ->
  exists ws d', merge_and_normalize dbl_div paths mcs tmp out overwrite d = (ws, d', Err ZeroDivisionError).
Proof.
  intros P Hne. unfold merge_and_normalize. pose proof P as (Hp & Hl & _). rewrite Hl, Nat.eqb_refl. cbn [negb].
  destruct paths as [|p ps]; [congruence|].
  destruct (man_zero d (p :: ps) nss mcs tmp out overwrite (fail ZeroDivisionError)
     (fun nevts => normalize (dbl_div (mcs_sum mcs / inject_Z nevts)%Q) tmp out) P Hne) as (ws & d1 & Fr & Hb & E).
  rewrite E. cbn [fail fst snd]. eauto 10.
Qed.
End MAN.

Lemma mean_weight dbl_div val mcs nss :
  wf_neutrons (List.concat nss) -> List.concat nss <> [] -> ~ (total_samples mcs == 0)%Q ->
  (forall n, In n (List.concat nss) ->
     val (dbl_div (nfactor mcs nss) (nth 9 n 0%Z)) == val (nth 9 n 0%Z) / nfactor mcs nss)%Q ->
  (total_weight val (map (scale_last (dbl_div (nfactor mcs nss))) (List.concat nss))
     / inject_Z (Z.of_nat (List.length (List.concat nss)))
   == total_weight val (List.concat nss) / total_samples mcs)%Q.
Proof.
  intros W Hne Hs H. rewrite (total_weight_div val (dbl_div (nfactor mcs nss)) (nfactor mcs nss)) by assumption.
  unfold nfactor. set (L := Z.of_nat (List.length (List.concat nss))).
  assert (HL : ~ (inject_Z L == 0)%Q).
  { unfold L. destruct (List.concat nss); [congruence|]. cbn [List.length]. unfold Qeq, inject_Z. cbn [Qnum Qden]. lia. }
  field. split; assumption.
Qed.

Lemma total_weight_app val a b : (total_weight val (a ++ b) == total_weight val a + total_weight val b)%Q.
Proof. induction a as [|x a IH]; cbn [app]; [unfold total_weight; cbn; ring|]. rewrite !total_weight_cons, IH. ring. Qed.
