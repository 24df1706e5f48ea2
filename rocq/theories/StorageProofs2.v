From Verif Require Import Base StorageModel StorageSpec StorageProofs.
From Coq Require Import ZifyBool ZifyNat.
Ltac Zify.zify_post_hook ::= Z.div_mod_to_equations.
Open Scope Z_scope.

(** ** Codec (C05) *)
Lemma neutron_file_holds c ns b : (List.length c <= 1024)%nat -> neutron_file c ns b -> file_holds b ns.
Proof.
  intros Hc (nf & Hn & ->).
  exists (spec_pad 64 [78; 101; 117; 116; 114; 111; 110] ++ [1; 0; 0; 0] ++ spec_pad 1024 c ++ nf).
  split.
  - rewrite !app_length. unfold spec_pad at 2. rewrite app_length, repeat_length, Hn.
    change (List.length (spec_pad 64 _)) with 64%nat. cbn [List.length]. lia.
  - rewrite <- !app_assoc. reflexivity.
Qed.

Lemma pack_s_pad k s : (List.length s <= k)%nat -> pack_s k s = spec_pad k s.
Proof. intro H. unfold pack_s, spec_pad. rewrite firstn_all2 by assumption. reflexivity. Qed.

Lemma ascii_ok c : Forall (fun x => 0 <= x < 128) c -> forallb (fun c => (0 <=? c) && (c <? 128)) c = true.
Proof. intro H. apply forallb_forall. intros x Hx. rewrite Forall_forall in H. specialize (H x Hx). lia. Qed.

Lemma idf_write_file c ns : wf_comment c -> wf_neutrons ns ->
  exists b, idf_write (Z.of_nat (List.length ns)) (List.concat ns) c = Ok b /\ neutron_file c ns b.
Proof.
  intros (Hl & Ha & _ & _) W. unfold idf_write, encode_ascii. rewrite (ascii_ok c Ha). cbn [bind].
  eexists. split; [reflexivity|]. unfold pack_header. rewrite (pack_s_pad commentsize c) by assumption.
  exists (le_bytes 8 (Z.of_nat (List.length ns))). split; [apply le_bytes_length|].
  change (words_tostring (List.concat ns)) with (words_tostring (neutrons_as_npyarr ns)).
  rewrite words_tostring_spec, <- !app_assoc. reflexivity.
Qed.

Lemma strip_front_repeat k s : strip_front (repeat 0 k ++ s) = strip_front s.
Proof. induction k as [|k IH]; [reflexivity|]. cbn. exact IH. Qed.

Lemma strip_front_id s : (forall x t, s = x :: t -> x <> 0) -> strip_front s = s.
Proof.
  destruct s as [|x t]; intro H; [reflexivity|]. cbn.
  specialize (H x t eq_refl). replace (x =? 0) with false by lia. reflexivity.
Qed.

Lemma rev_repeat {A} (x : A) k : rev (repeat x k) = repeat x k.
Proof.
  induction k as [|k IH]; [reflexivity|]. cbn [repeat rev]. rewrite IH.
  clear. induction k as [|k IH]; [reflexivity|]. cbn. rewrite IH. reflexivity.
Qed.

Lemma strip0_pad k c :
  (forall x t, c = x :: t -> x <> 0) -> (forall x t, c = t ++ [x] -> x <> 0) ->
  strip0 (spec_pad k c) = c.
Proof.
  intros H1 H2. unfold strip0, spec_pad.
  destruct c as [|x c'].
  - cbn [app]. rewrite <- (app_nil_r (repeat 0 _)), strip_front_repeat. reflexivity.
  - rewrite (strip_front_id (_ ++ _)).
    + rewrite rev_app_distr, rev_repeat, strip_front_repeat.
      rewrite strip_front_id; [apply rev_involutive|].
      intros y t E. apply (f_equal (@rev Z)) in E. rewrite rev_involutive in E. cbn in E.
      apply (H2 y (rev t)). exact E.
    + intros y t E. cbn in E. injection E as <- _. apply (H1 x c'). reflexivity.
Qed.

(* the header of a neutron file as seen by unpack *)
Lemma header_parts c nf r : (List.length c <= 1024)%nat -> List.length nf = 8%nat ->
  let b := spec_pad 64 [78; 101; 117; 116; 114; 111; 110] ++ [1; 0; 0; 0] ++ spec_pad 1024 c ++ nf ++ r in
  let h := firstn (Z.to_nat headersize) b in
  List.length h = 1100%nat /\
  firstn titlesize h = spec_pad 64 [78; 101; 117; 116; 114; 111; 110] /\
  firstn 4 (skipn titlesize h) = [1;0;0;0] /\
  firstn commentsize (skipn (titlesize + 4) h) = spec_pad 1024 c /\
  skipn (Z.to_nat headersize) b = r.
Proof.
  intros Hc Hn b h.
  assert (Lp : List.length (spec_pad 1024 c) = 1024%nat)
    by (unfold spec_pad; rewrite app_length, repeat_length; lia).
  set (T := spec_pad 64 [78; 101; 117; 116; 114; 111; 110]) in *.
  assert (LT : List.length T = 64%nat) by reflexivity.
  set (P := spec_pad 1024 c) in *. set (V := [1;0;0;0]) in *.
  assert (LV : List.length V = 4%nat) by reflexivity.
  assert (Eb : b = (T ++ V ++ P ++ nf) ++ r) by (unfold b; rewrite <- !app_assoc; reflexivity).
  assert (Lh : List.length (T ++ V ++ P ++ nf) = 1100%nat)
    by (rewrite !app_length, LT, LV, Lp, Hn; reflexivity).
  assert (Eh : h = T ++ V ++ P ++ nf).
  { unfold h. rewrite Eb. change (Z.to_nat headersize) with 1100%nat.
    rewrite firstn_app, Lh, Nat.sub_diag, <- Lh, firstn_all. cbn [firstn]. apply app_nil_r. }
  clearbody T V P. split; [rewrite Eh; exact Lh|]. rewrite Eh.
  split; [|split; [|split]].
  - rewrite firstn_app, LT. change (titlesize - 64)%nat with 0%nat. cbn [firstn].
    rewrite app_nil_r. apply firstn_all2. rewrite LT. unfold titlesize. lia.
  - rewrite skipn_app, skipn_all2, LT by (rewrite LT; unfold titlesize; lia).
    change (titlesize - 64)%nat with 0%nat. cbn [app]. change (skipn 0 (V ++ P ++ nf)) with (V ++ P ++ nf).
    rewrite firstn_app, LV, Nat.sub_diag, firstn_O, app_nil_r.
    apply firstn_all2. rewrite LV. lia.
  - rewrite app_assoc, skipn_app, skipn_all2, app_length, LT, LV by (rewrite app_length, LT, LV; unfold titlesize; lia).
    change (titlesize + 4 - (64 + 4))%nat with 0%nat. cbn [app]. change (skipn 0 (P ++ nf)) with (P ++ nf).
    rewrite firstn_app, Lp. change (commentsize - 1024)%nat with 0%nat. cbn [firstn]. rewrite app_nil_r.
    apply firstn_all2. rewrite Lp. unfold commentsize. lia.
  - rewrite Eb. change (Z.to_nat headersize) with 1100%nat.
    rewrite skipn_app, Lh, Nat.sub_diag, skipn_all2 by (rewrite Lh; lia). reflexivity.
Qed.

Lemma readall_gen c nf r : wf_comment c -> List.length nf = 8%nat ->
  idf_readall (spec_pad 64 [78; 101; 117; 116; 114; 111; 110] ++ [1; 0; 0; 0] ++ spec_pad 1024 c ++ nf ++ r)
  = bind (bind (fromstring r) reshape10) (fun rows => Ok (mkIdf idf_filetype 1 c rows)).
Proof.
  intros (Hl & Ha & H1 & H2) Hn.
  destruct (header_parts c nf r Hl Hn) as (E1 & E2 & E3 & E4 & E5).
  unfold idf_readall.
  rewrite E1, E2, E3, E4, E5.
  change (Z.of_nat 1100 =? headersize) with true. cbv iota.
  destruct (fromstring r) as [ws|e]; cbn [bind]; [|reflexivity].
  destruct (reshape10 ws) as [rows|e]; cbn [bind]; [|reflexivity].
  change (strip0 (spec_pad 64 [78; 101; 117; 116; 114; 111; 110])) with idf_filetype.
  change (decode_bytes idf_filetype) with (@Ok (list Z) idf_filetype). cbn [bind].
  rewrite (strip0_pad 1024 c H1 H2). unfold decode_bytes. rewrite (ascii_ok c Ha). reflexivity.
Qed.

Lemma readall_file c ns b : wf_comment c -> wf_neutrons ns -> neutron_file c ns b ->
  idf_readall b = Ok (mkIdf idf_filetype 1 c ns).
Proof.
  intros Hc W (nf & Hn & ->). rewrite readall_gen by assumption.
  rewrite (decode_neutrons ns W). reflexivity.
Qed.

Lemma zlist_eqb_refl l : zlist_eqb l l = true.
Proof. unfold zlist_eqb. destruct (list_eq_dec _ l l); congruence. Qed.

Lemma load_file c ns b : wf_comment c -> wf_neutrons ns -> neutron_file c ns b -> idf_load b = Ok ns.
Proof.
  intros Hc W H. unfold idf_load. rewrite (readall_file c ns b Hc W H). reflexivity.
Qed.

Lemma neutron_file_append c ns ms b : neutron_file c ns b ->
  neutron_file c (ns ++ ms) (b ++ words_tostring (neutrons_as_npyarr ms)).
Proof.
  intros (nf & Hn & ->). exists nf. split; [assumption|].
  rewrite words_tostring_spec, flat_map_app, <- !app_assoc. reflexivity.
Qed.

(* truncation *)
Lemma firstn_app_ge {A} (n : nat) (h t : list A) : (List.length h <= n)%nat ->
  firstn n (h ++ t) = h ++ firstn (n - List.length h) t.
Proof. intro H. rewrite firstn_app, firstn_all2 by assumption. reflexivity. Qed.

Lemma truncated_count b ns k : wf_neutrons ns -> file_holds b ns -> (1100 <= k <= List.length b)%nat ->
  idf_count (firstn k b) = Z.of_nat ((k - 1100) / 80).
Proof.
  intros W H Hk. unfold idf_count. rewrite firstn_length, Nat.min_l by lia.
  unfold headersize, neutronsize, ndblsperneutron, nbytesperdbl.
  rewrite Nat2Z.inj_div, Nat2Z.inj_sub by lia. reflexivity.
Qed.

Lemma truncated_read b ns k : wf_neutrons ns -> file_holds b ns -> (1100 <= k <= List.length b)%nat ->
  idf_read (firstn k b) None None
  = Ok (match firstn ((k - 1100) / 80) ns with [] => None | l => Some l end).
Proof.
  intros W H Hk. pose proof (truncated_count b ns k W H Hk) as C.
  pose proof (holds_length b ns W H) as L.
  set (q := ((k - 1100) / 80)%nat) in *.
  assert (Hq : (80 * q <= k - 1100 < 80 * q + 80)%nat) by (unfold q; lia).
  assert (E : idf_read (firstn k b) None None = idf_read (firstn k b) (Some 0) (Some (idf_count (firstn k b)))) by reflexivity.
  rewrite E, C. clearbody q. clear E C.
  destruct q as [|q]; [reflexivity|].
  assert (Hns : (0 < List.length ns)%nat) by lia.
  unfold idf_read. replace (Z.of_nat (S q) =? 0) with false by lia.
  replace ((0 <=? 0) && (0 <? Z.of_nat (S q))) with true by lia.
  destruct H as (h & Hh & ->).
  rewrite firstn_app_ge by lia. rewrite Hh.
  unfold seek_read. rewrite skipn_Z_app by (unfold neutronsize, ndblsperneutron, nbytesperdbl; lia).
  change (Z.to_nat (neutronsize * 0)) with 0%nat.
  change (skipn 0 ?x) with x.
  rewrite firstn_firstn.
  replace (Nat.min (Z.to_nat (Z.of_nat (S q) * neutronsize)) (k - 1100)) with (80 * S q)%nat
    by (unfold neutronsize, ndblsperneutron, nbytesperdbl; lia).
  rewrite firstn_neutrons by assumption.
  pose proof (decode_neutrons _ (wf_firstn (S q) ns W)) as D.
  destruct (fromstring _) as [ws|e]; cbn [bind] in *; [|discriminate D].
  rewrite D. cbn [bind].
  destruct ns as [|n ns]; [cbn in Hns; lia|]. reflexivity.
Qed.

Lemma words_of_length n bs : List.length bs = (8 * n)%nat -> List.length (words_of bs) = n.
Proof.
  revert bs; induction n as [|n IH]; intros bs H.
  - destruct bs; [reflexivity|discriminate H].
  - do 8 (destruct bs as [|? bs]; [cbn in H; lia|]).
    cbn [words_of List.length]. f_equal. apply IH. cbn in H. lia.
Qed.

Lemma truncated_load c b ns k : wf_comment c -> wf_neutrons ns -> neutron_file c ns b ->
  (1100 <= k <= List.length b)%nat ->
  idf_load (firstn k b) =
    (if ((k - 1100) mod 80 =? 0)%nat then Ok (firstn ((k - 1100) / 80) ns) else Err ValueError).
Proof.
  intros Hc W H Hk.
  assert (Hcl : (List.length c <= 1024)%nat) by apply Hc.
  pose proof (holds_length b ns W (neutron_file_holds c ns b Hcl H)) as L.
  destruct H as (nf & Hn & ->).
  set (T := spec_pad 64 _) in *. set (P := spec_pad 1024 c) in *.
  assert (LT : List.length T = 64%nat) by reflexivity.
  assert (LP : List.length P = 1024%nat)
    by (unfold P, spec_pad; rewrite app_length, repeat_length; lia).
  set (D := flat_map spec_neutron_bytes ns) in *.
  assert (LD : List.length D = (80 * List.length ns)%nat) by (apply neutrons_bytes_length; assumption).
  assert (E : firstn k (T ++ [1;0;0;0] ++ P ++ nf ++ D) = T ++ [1;0;0;0] ++ P ++ nf ++ firstn (k - 1100) D).
  { rewrite (app_assoc P), (app_assoc [1;0;0;0]), (app_assoc T).
    rewrite firstn_app_ge by (rewrite !app_length, LT, LP, Hn; cbn [List.length]; lia).
    rewrite !app_length, LT, LP, Hn. rewrite <- !app_assoc. reflexivity. }
  unfold idf_load. rewrite E. unfold T, P. rewrite readall_gen by assumption.
  destruct (Nat.eqb_spec ((k - 1100) mod 80) 0) as [Hz|Hz].
  - replace (k - 1100)%nat with (80 * ((k - 1100) / 80))%nat at 1 by lia.
    unfold D. rewrite firstn_neutrons by assumption.
    rewrite decode_neutrons by (apply wf_firstn; assumption). reflexivity.
  - assert (LF : List.length (firstn (k - 1100) D) = (k - 1100)%nat).
    { rewrite firstn_length, Nat.min_l; [reflexivity|]. rewrite LD. lia. }
    unfold fromstring. rewrite LF.
    destruct (Z.eqb_spec (Z.of_nat (k - 1100) mod 8) 0) as [H8|H8]; [|reflexivity].
    cbn [bind]. unfold reshape10.
    rewrite (words_of_length ((k - 1100) / 8)) by (rewrite LF; lia).
    replace (Z.of_nat ((k - 1100) / 8) mod 10 =? 0) with false; [reflexivity|].
    symmetry. apply Z.eqb_neq. lia.
Qed.

(** ** Opening (C06) *)
Lemma readonly_step s d o : s_mode s = MR ->
  let '(s', d', _) := st_step s d o in s_mode s' = MR /\ d' = d /\ s_path s' = s_path s.
Proof.
  intro M. destruct o as [ns| | |off w wr|n a w|]; cbn [st_step].
  - unfold st_write, is_readonly. rewrite M. cbn. auto.
  - unfold st_flush, st_write_neutrons, is_readonly. rewrite M. destruct (s_closed s); cbn; auto.
  - unfold st_close, is_readonly. destruct (s_closed s); cbn; auto. rewrite M. cbn. auto.
  - unfold st_seek, is_readonly. rewrite M. cbn [mode_eqb negb].
    destruct w; cbn; auto;
    (destruct wr; [destruct (py_mod _ _); cbn; auto|destruct (_ || _); cbn; auto]).
  - unfold st_read, is_readonly. rewrite M. cbn [mode_eqb negb].
    set (nn := match py_or n (s_packetsize s) with Some z => z | None => _ end).
    destruct (nn =? 0); cbn; auto.
    destruct (_ <? _).
    + destruct (st_idf_read _ _ _ _); cbn; auto.
    + destruct (st_idf_read _ _ _ _) as [arr|e]; cbn; auto.
      destruct w; cbn; auto.
      match goal with |- context [match ?X with Ok _ => _ | Err _ => _ end] => destruct X as [[arr1 n2]|e] end; cbn; auto.
      match goal with |- context [match ?X with Ok _ => _ | Err _ => _ end] => destruct X as [arr2|e] end; cbn; auto.
  - auto.
Qed.

Lemma readonly_run s d ops : s_mode s = MR ->
  let '(s', d', _) := st_run s d ops in s_mode s' = MR /\ d' = d.
Proof.
  revert s; induction ops as [|o ops IH]; intros s M; [cbn; auto|].
  cbn [st_run]. pose proof (readonly_step s d o M) as S.
  destruct (st_step s d o) as [[s1 d1] r1]. destruct S as (M1 & -> & _).
  specialize (IH s1 M1). destruct (st_run s1 d ops) as [[s2 d2] rs]. exact IH.
Qed.

(** ** Writing after close *)
Lemma write_after_close s d ns : s_closed s = true -> s_mode s <> MR ->
  st_write s d ns =
   (if s_buffersize s <=? Z.of_nat (List.length (s_buffer s)) + Z.of_nat (List.length ns)
    then (s, d, Err ValueError)
    else (set_buffer s (s_buffer s ++ ns), d, Ok tt)).
Proof.
  intros C M. unfold st_write, is_readonly.
  replace (mode_eqb (s_mode s) MR) with false by (destruct (s_mode s); [congruence|reflexivity|reflexivity]).
  unfold st_dump, st_write_neutrons. rewrite C.
  destruct (s_buffersize s <=? _); reflexivity.
Qed.

Lemma closed_step_fs s d o : s_closed s = true ->
  let '(s', d', _) := st_step s d o in s_closed s' = true /\ d' = d.
Proof.
  intro C. destruct o as [ns| | |off w wr|n a w|]; cbn [st_step].
  - unfold st_write, st_dump, st_write_neutrons. rewrite C.
    destruct (is_readonly s); cbn; auto. destruct (s_buffersize s <=? _); cbn; auto.
  - unfold st_flush, st_write_neutrons. rewrite C. cbn. auto.
  - unfold st_close. rewrite C. auto.
  - unfold st_seek. destruct (negb _); cbn; auto.
    destruct w; cbn; auto;
    (destruct wr; [destruct (py_mod _ _); cbn; auto|destruct (_ || _); cbn; auto]).
  - unfold st_read. destruct (negb _); cbn; auto.
    set (nn := match py_or n (s_packetsize s) with Some z => z | None => _ end).
    destruct (nn =? 0); cbn; auto.
    destruct (_ <? _).
    + destruct (st_idf_read _ _ _ _); cbn; auto.
    + destruct (st_idf_read _ _ _ _) as [arr|e]; cbn; auto.
      destruct w; cbn; auto.
      match goal with |- context [match ?X with Ok _ => _ | Err _ => _ end] => destruct X as [[arr1 n2]|e] end; cbn; auto.
      match goal with |- context [match ?X with Ok _ => _ | Err _ => _ end] => destruct X as [arr2|e] end; cbn; auto.
  - auto.
Qed.

Lemma closed_run_fs s d ops : s_closed s = true ->
  let '(s', d', _) := st_run s d ops in d' = d.
Proof.
  revert s; induction ops as [|o ops IH]; intros s C; [cbn; auto|].
  cbn [st_run]. pose proof (closed_step_fs s d o C) as S.
  destruct (st_step s d o) as [[s1 d1] r1]. destruct S as (C1 & ->).
  specialize (IH s1 C1). destruct (st_run s1 d ops) as [[s2 d2] rs]. exact IH.
Qed.

(** ** Full-cycle statement of C01 *)
Lemma st_run_app s d a b :
  st_run s d (a ++ b) =
  let '(s1, d1, r1) := st_run s d a in
  let '(s2, d2, r2) := st_run s1 d1 b in (s2, d2, r1 ++ r2).
Proof.
  revert s d; induction a as [|o a IH]; intros s d.
  - cbn. destruct (st_run s d b) as [[? ?] ?]. reflexivity.
  - cbn [app st_run]. destruct (st_step s d o) as [[s1 d1] r1]. rewrite IH.
    destruct (st_run s1 d1 a) as [[s2 d2] r2]. destruct (st_run s2 d2 b) as [[s3 d3] r3]. reflexivity.
Qed.

Lemma wf_written ops : Forall wop_ok ops -> wf_neutrons (written ops).
Proof.
  induction 1 as [|o ops Ho H IH]; [constructor|].
  unfold written. cbn [flat_map]. apply Forall_app. split; [|exact IH].
  destruct o; cbn in *; try contradiction; auto; constructor.
Qed.

Lemma open_session d p m pk bs b old :
  (m = MW /\ d p = None /\ old = []) \/ (m = MA /\ d p = Some (File b) /\ file_holds b old) ->
  exists s d1, st_open d p m pk bs = (d1, Ok s) /\ winv p m d old s d1 /\ m <> MR.
Proof.
  intros [(-> & H & ->)|(-> & H & Hh)].
  - destruct (open_w_inv d p bs pk H) as (s & d1 & E & I). exists s, d1. repeat split; auto; try apply I. discriminate.
  - destruct (open_a_inv d p bs pk b old H Hh) as (s & E & I). exists s, d. repeat split; auto; try apply I. discriminate.
Qed.

Lemma session_lemma d p m pk bs b old ops :
  (m = MW /\ d p = None /\ old = []) \/ (m = MA /\ d p = Some (File b) /\ file_holds b old) ->
  Forall wop_ok ops ->
  exists s d1 s2 d2 outs,
    st_open d p m pk bs = (d1, Ok s) /\
    st_run s d1 (ops ++ [OClose]) = (s2, d2, outs) /\
    Forall (fun o => o = OutUnit (Ok tt)) outs /\
    (exists b2, d2 p = Some (File b2) /\ file_holds b2 (old ++ written ops)) /\
    (forall q, q <> p -> d2 q = d q).
Proof.
  intros Ho Hops. destruct (open_session d p m pk bs b old Ho) as (s & d1 & E & I & Hm).
  destruct (wrun_inv p m d old s d1 ops Hm I Hops) as (s' & d' & outs & Er & Fo & I').
  destruct (wclose_inv p m d _ s' d' Hm I') as (s2 & d2 & Ec & Hh & (c2 & Hc2) & _ & _ & Hfr).
  exists s, d1, s2, d2, (outs ++ [OutUnit (Ok tt)]).
  split; [assumption|]. split.
  - rewrite st_run_app, Er. cbn [st_run]. rewrite Ec. reflexivity.
  - split; [apply Forall_app; split; [assumption|repeat constructor]|].
    split; [|assumption]. exists c2. split; [assumption|].
    unfold fs_bytes in Hh. rewrite Hc2 in Hh. assumption.
Qed.

Lemma session_prefix_lemma d p m pk bs b old ops :
  (m = MW /\ d p = None /\ old = []) \/ (m = MA /\ d p = Some (File b) /\ file_holds b old) ->
  Forall wop_ok ops ->
  exists s d1 s2 d2 outs pre post,
    st_open d p m pk bs = (d1, Ok s) /\
    st_run s d1 ops = (s2, d2, outs) /\
    (exists b2, d2 p = Some (File b2) /\ file_holds b2 pre) /\
    old ++ written ops = pre ++ post /\
    (forall ops', ops = ops' ++ [OFlush] -> post = []) /\
    (forall q, q <> p -> d2 q = d q).
Proof.
  intros Ho Hops. destruct (open_session d p m pk bs b old Ho) as (s & d1 & E & I & Hm).
  destruct (wrun_inv p m d old s d1 ops Hm I Hops) as (s' & d' & outs & Er & Fo & I').
  pose proof I' as [Hp' Hm' Hc' (c & Hc) (disk & Hh & Hall) Hfr].
  exists s, d1, s', d', outs, disk, (s_buffer s').
  split; [assumption|]. split; [assumption|]. split.
  { exists c. split; [assumption|]. unfold fs_bytes in Hh. rewrite Hc in Hh. assumption. }
  split; [assumption|]. split; [|assumption].
  intros ops' ->. rewrite st_run_app in Er. apply Forall_app in Hops as [Hops' _].
  destruct (wrun_inv p m d old s d1 ops' Hm I Hops') as (s3 & d3 & o3 & E3 & _ & I3).
  rewrite E3 in Er. destruct (wstep_inv p m d _ s3 d3 OFlush Hm I3 Logic.I) as (s4 & d4 & E4 & _ & Hb).
  cbn [st_run] in Er. rewrite E4 in Er. injection Er as <- _ _. apply Hb. reflexivity.
Qed.
