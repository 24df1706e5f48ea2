From Verif Require Import Base StorageModel StorageSpec.
From Coq Require Import ZifyBool ZifyNat.
Open Scope Z_scope.

(** ** Little endian *)
Lemma le_bytes_length k z : List.length (le_bytes k z) = k.
Proof. revert z; induction k as [|k IH]; intro z; simpl; [reflexivity|]. rewrite IH; reflexivity. Qed.

Lemma le_value_bytes k z : le_value (le_bytes k z) = z mod 256 ^ Z.of_nat k.
Proof.
  revert z; induction k as [|k IH]; intro z.
  - simpl. rewrite Z.mod_1_r; reflexivity.
  - cbn [le_bytes]. unfold le_value. cbn [fold_right]. fold (le_value (le_bytes k (z/256))).
    rewrite IH. rewrite Nat2Z.inj_succ, Z.pow_succ_r by lia.
    rewrite Z.rem_mul_r by lia. lia.
Qed.

Lemma le_value_word w : wf_word w -> le_value (le_bytes 8 w) = w.
Proof.
  intro H. rewrite le_value_bytes. change (256 ^ Z.of_nat 8) with (2 ^ 64).
  apply Z.mod_small. exact H.
Qed.

Lemma le_bytes_spec w : le_bytes 8 w = spec_word_bytes w.
Proof.
  unfold spec_word_bytes. cbn [map le_bytes].
  assert (H : forall i, 0 <= i -> Z.land (Z.shiftr w (8*i)) 255 = (w / 256 ^ i) mod 256).
  { intros i Hi. change 255 with (Z.ones 8). rewrite Z.land_ones by lia.
    rewrite Z.shiftr_div_pow2 by lia. change (2^8) with 256.
    rewrite Z.pow_mul_r by lia. reflexivity. }
  rewrite !H by lia.
  rewrite !Z.div_div by lia.
  change (256 ^ 0) with 1. rewrite Z.div_1_r. reflexivity.
Qed.

Lemma words_tostring_spec ns :
  words_tostring (neutrons_as_npyarr ns) = flat_map spec_neutron_bytes ns.
Proof.
  unfold words_tostring, neutrons_as_npyarr, spec_neutron_bytes.
  induction ns as [|n ns IH]; [reflexivity|].
  cbn [List.concat flat_map]. rewrite flat_map_app, IH. f_equal.
  clear. induction n as [|w n IH]; [reflexivity|]. cbn [flat_map]. rewrite le_bytes_spec, IH; reflexivity.
Qed.

Lemma spec_word_bytes_length w : List.length (spec_word_bytes w) = 8%nat.
Proof. reflexivity. Qed.

Lemma flat_map_word_length n : List.length (flat_map spec_word_bytes n) = (8 * List.length n)%nat.
Proof.
  induction n as [|w n IH]; [reflexivity|].
  cbn [flat_map]. rewrite app_length, IH, spec_word_bytes_length. cbn [List.length]. lia.
Qed.

Lemma neutron_bytes_length n : wf_neutron n -> List.length (spec_neutron_bytes n) = 80%nat.
Proof. intros [H _]. unfold spec_neutron_bytes. rewrite flat_map_word_length, H. reflexivity. Qed.

Lemma neutrons_bytes_length ns : wf_neutrons ns ->
  List.length (flat_map spec_neutron_bytes ns) = (80 * List.length ns)%nat.
Proof.
  induction 1 as [|n ns Hn _ IH]; [reflexivity|].
  cbn [flat_map]. rewrite app_length, IH, (neutron_bytes_length n Hn). cbn [List.length]. lia.
Qed.

(** skipping/taking whole neutrons in the byte image *)
Lemma skipn_neutrons k ns : wf_neutrons ns ->
  skipn (80 * k) (flat_map spec_neutron_bytes ns) = flat_map spec_neutron_bytes (skipn k ns).
Proof.
  intro H; revert k; induction H as [|n ns Hn H IH]; intro k.
  - rewrite !skipn_nil. reflexivity.
  - destruct k as [|k]; [reflexivity|].
    cbn [flat_map skipn]. rewrite skipn_app, (neutron_bytes_length n Hn).
    rewrite skipn_all2 by (rewrite (neutron_bytes_length n Hn); lia).
    replace (80 * S k - 80)%nat with (80 * k)%nat by lia. apply IH.
Qed.

Lemma firstn_neutrons k ns : wf_neutrons ns ->
  firstn (80 * k) (flat_map spec_neutron_bytes ns) = flat_map spec_neutron_bytes (firstn k ns).
Proof.
  intro H; revert k; induction H as [|n ns Hn H IH]; intro k.
  - rewrite !firstn_nil. reflexivity.
  - destruct k as [|k]; [reflexivity|].
    cbn [flat_map firstn]. rewrite firstn_app, (neutron_bytes_length n Hn).
    rewrite firstn_all2 by (rewrite (neutron_bytes_length n Hn); lia).
    replace (80 * S k - 80)%nat with (80 * k)%nat by lia. rewrite IH. reflexivity.
Qed.

(** fromstring / reshape invert the byte image *)
Lemma words_of_word w t : wf_word w -> words_of (spec_word_bytes w ++ t) = w :: words_of t.
Proof.
  intro H. rewrite <- le_bytes_spec. rewrite <- (le_value_word w H) at 2.
  reflexivity.
Qed.

Lemma words_of_words ws t : Forall wf_word ws ->
  words_of (flat_map spec_word_bytes ws ++ t) = ws ++ words_of t.
Proof.
  induction 1 as [|w ws Hw _ IH]; [reflexivity|].
  cbn [flat_map]. rewrite <- app_assoc, words_of_word by assumption. rewrite IH. reflexivity.
Qed.

Lemma words_of_neutrons ns : wf_neutrons ns ->
  words_of (flat_map spec_neutron_bytes ns) = List.concat ns.
Proof.
  induction 1 as [|n ns [_ Hn] _ IH]; [reflexivity|].
  cbn [flat_map List.concat]. unfold spec_neutron_bytes at 1.
  rewrite words_of_words by assumption. rewrite IH. reflexivity.
Qed.

Lemma length10 {A} (n : list A) : List.length n = 10%nat ->
  exists a b c d e f g h i j, n = [a;b;c;d;e;f;g;h;i;j].
Proof.
  intro H. do 10 (destruct n as [|? n]; [discriminate H|]). destruct n; [|discriminate H].
  repeat eexists.
Qed.

Lemma rows_of_concat ns : wf_neutrons ns -> rows_of (List.concat ns) = ns.
Proof.
  induction 1 as [|n ns [Hn _] _ IH]; [reflexivity|].
  cbn [List.concat]. destruct (length10 n Hn) as (a&b&c&d&e&f&g&h&i&j&->).
  cbn [app rows_of]. rewrite IH. reflexivity.
Qed.

Lemma concat_length10 ns : wf_neutrons ns -> List.length (List.concat ns) = (10 * List.length ns)%nat.
Proof.
  induction 1 as [|n ns [Hn _] _ IH]; [reflexivity|].
  cbn [List.concat List.length]. rewrite app_length, IH, Hn. lia.
Qed.

Lemma decode_neutrons ns : wf_neutrons ns ->
  bind (fromstring (flat_map spec_neutron_bytes ns)) reshape10 = Ok ns.
Proof.
  intro H. unfold fromstring. rewrite (neutrons_bytes_length ns H).
  replace (Z.of_nat (80 * List.length ns) mod 8) with 0 by lia.
  cbn [Z.eqb bind]. rewrite (words_of_neutrons ns H).
  unfold reshape10. rewrite (concat_length10 ns H).
  replace (Z.of_nat (10 * List.length ns) mod 10) with 0 by lia.
  cbn [Z.eqb]. rewrite (rows_of_concat ns H). reflexivity.
Qed.

Lemma wf_firstn k ns : wf_neutrons ns -> wf_neutrons (firstn k ns).
Proof.
  intro H; revert k; induction H as [|n ns Hn H IH]; intros [|k]; cbn; constructor; auto; apply IH.
Qed.
Lemma wf_skipn k ns : wf_neutrons ns -> wf_neutrons (skipn k ns).
Proof.
  intro H; revert k; induction H as [|n ns Hn H IH]; intros [|k]; cbn; try constructor; auto; apply IH.
Qed.

(** ** file_holds *)
Lemma holds_length b ns : wf_neutrons ns -> file_holds b ns ->
  List.length b = (1100 + 80 * List.length ns)%nat.
Proof.
  intros W (h & Hh & ->). rewrite app_length, Hh, neutrons_bytes_length by assumption. reflexivity.
Qed.

Lemma holds_count b ns : wf_neutrons ns -> file_holds b ns ->
  idf_count b = Z.of_nat (List.length ns).
Proof.
  intros W H. unfold idf_count. rewrite (holds_length b ns W H).
  unfold headersize, neutronsize, ndblsperneutron, nbytesperdbl.
  replace (Z.of_nat (1100 + 80 * List.length ns) - 1100) with (Z.of_nat (List.length ns) * (10 * 8)) by lia.
  apply Z.div_mul. lia.
Qed.

Lemma holds_app b ns ms : file_holds b ns -> file_holds (b ++ flat_map spec_neutron_bytes ms) (ns ++ ms).
Proof.
  intros (h & Hh & ->). exists h. split; [assumption|].
  rewrite flat_map_app, app_assoc. reflexivity.
Qed.

Lemma skipn_Z_app {A} (h t : list A) p : Z.of_nat (List.length h) = 1100 -> 0 <= p ->
  skipn (Z.to_nat (headersize + p)) (h ++ t) = skipn (Z.to_nat p) t.
Proof.
  intros Hh Hp. unfold headersize. rewrite skipn_app.
  rewrite skipn_all2 by lia. cbn [app]. f_equal. lia.
Qed.

Lemma holds_read b ns start n : wf_neutrons ns -> file_holds b ns -> 0 <= start -> 0 < n ->
  idf_read b (Some start) (Some n)
  = Ok (Some (firstn (Z.to_nat n) (skipn (Z.to_nat start) ns))).
Proof.
  intros W (h & Hh & ->) Hs Hn. unfold idf_read.
  replace (n =? 0) with false by lia.
  replace ((0 <=? start) && (0 <? n)) with true by lia.
  unfold seek_read. rewrite skipn_Z_app by (unfold neutronsize, ndblsperneutron, nbytesperdbl; lia).
  replace (Z.to_nat (neutronsize * start)) with (80 * Z.to_nat start)%nat
    by (unfold neutronsize, ndblsperneutron, nbytesperdbl; lia).
  replace (Z.to_nat (n * neutronsize)) with (80 * Z.to_nat n)%nat
    by (unfold neutronsize, ndblsperneutron, nbytesperdbl; lia).
  rewrite skipn_neutrons, firstn_neutrons by auto using wf_skipn.
  assert (W' : wf_neutrons (firstn (Z.to_nat n) (skipn (Z.to_nat start) ns)))
    by auto using wf_firstn, wf_skipn.
  pose proof (decode_neutrons _ W') as D.
  destruct (fromstring _) as [ws|e]; cbn [bind] in *; [|discriminate D].
  rewrite D. reflexivity.
Qed.

Lemma holds_read_all b ns : wf_neutrons ns -> file_holds b ns ->
  idf_read b None None = Ok (match ns with [] => None | _ => Some ns end).
Proof.
  intros W H. pose proof (holds_count b ns W H) as C.
  destruct ns as [|n ns].
  - unfold idf_read. rewrite C. reflexivity.
  - assert (E : idf_read b None None = idf_read b (Some 0) (Some (idf_count b))) by reflexivity.
    rewrite E, C, (holds_read b (n::ns)) by (try assumption; cbn [List.length]; lia).
    rewrite Nat2Z.id. cbn [Z.to_nat skipn]. rewrite firstn_all. reflexivity.
Qed.

(** ** Writing histories (C01) *)
Lemma fs_append_same d p b : fs_bytes (fs_append d p b) p = fs_bytes d p ++ b.
Proof. unfold fs_bytes at 1, fs_append, fs_set. rewrite String.eqb_refl. reflexivity. Qed.
Lemma fs_append_file d p b : exists c, fs_append d p b p = Some (File c).
Proof. unfold fs_append, fs_set. rewrite String.eqb_refl. eexists; reflexivity. Qed.
Lemma fs_append_other d p b q : q <> p -> fs_append d p b q = d q.
Proof.
  intro H. unfold fs_append, fs_set.
  destruct (String.eqb_spec p q); [congruence|reflexivity].
Qed.

Record winv (p : string) (m : mode) (d0 : fs) (all : list neutron) (s : storage) (d : fs) : Prop := {
  wi_path : s_path s = p;
  wi_mode : s_mode s = m;
  wi_open : s_closed s = false;
  wi_file : exists c, d p = Some (File c);
  wi_holds : exists disk, file_holds (fs_bytes d p) disk /\ all = disk ++ s_buffer s;
  wi_frame : forall q, q <> p -> d q = d0 q
}.

Lemma write_neutrons_inv p m d0 disk s d ns :
  m <> MR -> s_path s = p -> s_mode s = m -> s_closed s = false ->
  file_holds (fs_bytes d p) disk -> (forall q, q <> p -> d q = d0 q) ->
  exists d', st_write_neutrons s d ns = (d', Ok tt) /\
    file_holds (fs_bytes d' p) (disk ++ ns) /\ (exists c, d' p = Some (File c)) /\
    (forall q, q <> p -> d' q = d0 q).
Proof.
  intros Hm Hp Hs Hc Hh Hf. unfold st_write_neutrons. rewrite Hc.
  unfold is_readonly. rewrite Hs. destruct m; try congruence; cbn [mode_eqb];
  (eexists; split; [reflexivity|]; rewrite Hp, words_tostring_spec; split; [|split];
   [ rewrite fs_append_same; apply holds_app; assumption
   | apply fs_append_file
   | intros q Hq; rewrite fs_append_other by assumption; auto ]).
Qed.

Lemma wstep_inv p m d0 all s d o :
  m <> MR -> winv p m d0 all s d -> wop_ok o ->
  exists s' d', st_step s d o = (s', d', OutUnit (Ok tt)) /\
    winv p m d0 (all ++ written [o]) s' d' /\
    (o = OFlush -> s_buffer s' = []).
Proof.
  intros Hm [Hp Hmode Hcl Hf (disk & Hh & Hall) Hfr] Ho.
  destruct o as [ns| | | | |]; cbn in Ho; try contradiction.
  - cbn [st_step]. unfold st_write, is_readonly. rewrite Hmode.
    replace (mode_eqb m MR) with false by (destruct m; [congruence|reflexivity|reflexivity]).
    unfold st_dump.
    destruct (s_buffersize s <=? _) eqn:Hb.
    + destruct (write_neutrons_inv p m d0 disk s d (s_buffer s) Hm Hp Hmode Hcl Hh Hfr)
        as (d1 & E1 & Hh1 & Hf1 & Hfr1).
      destruct (write_neutrons_inv p m d0 _ s d1 ns Hm Hp Hmode Hcl Hh1 Hfr1)
        as (d2 & E2 & Hh2 & Hf2 & Hfr2).
      rewrite E1, E2. do 2 eexists. split; [reflexivity|]. split; [|discriminate].
      constructor; cbn; auto.
      exists ((disk ++ s_buffer s) ++ ns). split; [assumption|].
      rewrite Hall, !app_nil_r. reflexivity.
    + do 2 eexists. split; [reflexivity|]. split; [|discriminate].
      constructor; cbn; auto.
      exists disk. split; [assumption|]. rewrite Hall, app_nil_r, app_assoc. reflexivity.
  - cbn [st_step]. unfold st_flush.
    destruct (write_neutrons_inv p m d0 disk s d (s_buffer s) Hm Hp Hmode Hcl Hh Hfr)
      as (d1 & E1 & Hh1 & Hf1 & Hfr1).
    rewrite E1. do 2 eexists. split; [reflexivity|]. split; [|reflexivity].
    constructor; cbn; auto.
    exists (disk ++ s_buffer s). split; [assumption|]. rewrite Hall, !app_nil_r. reflexivity.
Qed.

Lemma wrun_inv p m d0 all s d ops :
  m <> MR -> winv p m d0 all s d -> Forall wop_ok ops ->
  exists s' d' outs, st_run s d ops = (s', d', outs) /\
    Forall (fun o => o = OutUnit (Ok tt)) outs /\
    winv p m d0 (all ++ written ops) s' d'.
Proof.
  intros Hm I H; revert all s d I; induction H as [|o ops Ho H IH]; intros all s d I.
  - exists s, d, []. split; [reflexivity|]. split; [constructor|]. cbn [written flat_map]; rewrite app_nil_r; assumption.
  - destruct (wstep_inv p m d0 all s d o Hm I Ho) as (s1 & d1 & E1 & I1 & _).
    destruct (IH _ _ _ I1) as (s2 & d2 & outs & E2 & Fo & I2).
    exists s2, d2, (OutUnit (Ok tt) :: outs). cbn [st_run]. rewrite E1, E2.
    split; [reflexivity|]. split; [constructor; auto|].
    replace (written (o :: ops)) with (written [o] ++ written ops)
      by (unfold written; cbn [flat_map]; rewrite app_nil_r; reflexivity).
    rewrite app_assoc. assumption.
Qed.

Lemma wclose_inv p m d0 all s d :
  m <> MR -> winv p m d0 all s d ->
  exists s' d', st_step s d OClose = (s', d', OutUnit (Ok tt)) /\
    file_holds (fs_bytes d' p) all /\ (exists c, d' p = Some (File c)) /\
    s_closed s' = true /\ s_buffer s' = [] /\ (forall q, q <> p -> d' q = d0 q).
Proof.
  intros Hm I.
  destruct (wstep_inv p m d0 all s d OFlush Hm I Logic.I) as (s1 & d1 & E1 & I1 & Hb).
  specialize (Hb eq_refl).
  cbn [st_step] in *. unfold st_close. destruct I as [Hp Hmode Hcl Hf _ Hfr]. rewrite Hcl.
  unfold is_readonly; rewrite Hmode.
  replace (mode_eqb m MR) with false by (destruct m; [congruence|reflexivity|reflexivity]).
  destruct (st_flush s d) as [[s1' d1'] [u|e]]; [|discriminate E1]. injection E1 as -> -> ->.
  do 2 eexists. split; [reflexivity|]. destruct I1 as [_ _ _ Hf1 (disk & Hh1 & Hall1) Hfr1].
  rewrite Hb in Hall1. cbn [written flat_map] in Hall1. rewrite !app_nil_r in Hall1. subst disk.
  repeat split; auto.
Qed.

Lemma open_w_inv d p bs pk : d p = None ->
  exists s d', st_open d p MW pk bs = (d', Ok s) /\ winv p MW d [] s d'.
Proof.
  intro Hn. unfold st_open, fs_exists, fs_isdir. rewrite Hn. cbn [mode_eqb andb orb negb].
  do 2 eexists. split; [reflexivity|]. constructor; cbn; auto.
  - apply fs_append_file.
  - exists []. split; [|reflexivity]. exists empty_header. split; [reflexivity|].
    rewrite fs_append_same. unfold fs_bytes, fs_set. rewrite String.eqb_refl.
    cbn [app flat_map]. rewrite app_nil_r. reflexivity.
  - intros q Hq. rewrite fs_append_other by assumption. unfold fs_set.
    destruct (String.eqb_spec p q); [congruence|reflexivity].
Qed.

Lemma open_a_inv d p bs pk b old : d p = Some (File b) -> file_holds b old ->
  exists s, st_open d p MA pk bs = (d, Ok s) /\ winv p MA d old s d.
Proof.
  intros Hn Hh. unfold st_open, fs_exists, fs_isdir. rewrite Hn. cbn [mode_eqb andb orb negb].
  eexists. split; [reflexivity|]. constructor; cbn; auto.
  - eauto.
  - exists old. split; [|rewrite app_nil_r; reflexivity]. unfold fs_bytes. rewrite Hn. assumption.
Qed.

Lemma open_r d p bs pk b old : d p = Some (File b) -> wf_neutrons old -> file_holds b old ->
  st_open d p MR pk bs =
  (d, Ok (mkStorage p MR false bs [] pk 0 (Z.of_nat (List.length old)))).
Proof.
  intros Hn W Hh. unfold st_open, fs_exists, fs_isdir. rewrite Hn. cbn [mode_eqb andb orb negb].
  unfold fs_bytes. rewrite Hn. rewrite (holds_count b old W Hh). reflexivity.
Qed.

(** ** Reading (C02, C03) *)
(* a storage open for reading on a file holding l *)
Record rinv (l : list neutron) (s : storage) (d : fs) : Prop := {
  ri_wf : wf_neutrons l;
  ri_holds : file_holds (fs_bytes d (s_path s)) l;
  ri_mode : s_mode s = MR;
  ri_open : s_closed s = false;
  ri_total : s_ntotal s = Z.of_nat (List.length l)
}.

Lemma rinv_set_position l s d p : rinv l s d -> rinv l (set_position s p) d.
Proof. intros [? ? ? ? ?]. constructor; auto. Qed.

Lemma idf_read_rinv l s d start n : rinv l s d -> 0 <= start -> 0 < n ->
  st_idf_read s d (Some start) (Some n)
  = Ok (Some (firstn (Z.to_nat n) (skipn (Z.to_nat start) l))).
Proof.
  intros [W H M O T] Hs Hn. unfold st_idf_read. rewrite O. apply holds_read; auto.
Qed.

Lemma concat_times_some k a b :
  concat_times k (Some a) (Some b) = Ok (Some (a ++ List.concat (repeat b k))).
Proof.
  revert a; induction k as [|k IH]; intro a; cbn.
  - rewrite app_nil_r; reflexivity.
  - rewrite IH, <- app_assoc. reflexivity.
Qed.

Lemma py_or_pos n pk : n <> 0 -> py_or (Some n) pk = Some n.
Proof. intro H. unfold py_or. replace (n =? 0) with false by lia. reflexivity. Qed.

Lemma skipn_nonempty {A} (l : list A) p : (p < List.length l)%nat -> skipn p l <> [].
Proof. intros H E. apply (f_equal (@List.length A)) in E. rewrite skipn_length in E. cbn in E. lia. Qed.

(* what a wrapping read returns, as a plain list expression *)
Definition wrap_read (l : list neutron) (p n : nat) : list neutron :=
  if (p + n <? List.length l)%nat then firstn n (skipn p l)
  else
    let n2 := (n - (List.length l - p))%nat in
    skipn p l ++ List.concat (repeat l (n2 / List.length l)) ++ firstn (n2 mod List.length l) l.

Lemma read_wrap_step l s d p n a :
  rinv l s d -> s_position s = Z.of_nat p -> (p < List.length l)%nat -> (1 <= n)%nat ->
  st_read s d (Some (Z.of_nat n)) a true
  = (set_position s (Z.of_nat ((p + n) mod List.length l)), Ok (Some (wrap_read l p n))).
Proof.
  intros I Hp Hlt Hn. pose proof I as I0. destruct I as [W H M O T].
  unfold st_read, is_readonly. rewrite M. cbn [mode_eqb negb].
  rewrite py_or_pos by lia.
  replace (Z.of_nat n =? 0) with false by lia.
  rewrite Hp, T. unfold wrap_read.
  destruct (Nat.ltb_spec (p + n) (List.length l)) as [Hin|Hout].
  - replace (Z.of_nat p + Z.of_nat n <? Z.of_nat (List.length l)) with true by lia.
    rewrite (idf_read_rinv l) by (auto; lia). rewrite !Nat2Z.id.
    rewrite Nat.mod_small by lia. rewrite Nat2Z.inj_add.
    unfold st_read_return. destruct a; reflexivity.
  - replace (Z.of_nat p + Z.of_nat n <? Z.of_nat (List.length l)) with false by lia.
    rewrite (idf_read_rinv l) by (auto; lia).
    replace (Z.to_nat (Z.of_nat (List.length l) - Z.of_nat p)) with (List.length l - p)%nat by lia.
    rewrite Nat2Z.id. rewrite (firstn_all2 (skipn p l)) by (rewrite skipn_length; lia).
    set (n2 := (n - (List.length l - p))%nat).
    replace (Z.of_nat n - (Z.of_nat (List.length l) - Z.of_nat p)) with (Z.of_nat n2) by lia.
    assert (Hmod : ((p + n) mod List.length l = n2 mod List.length l)%nat).
    { replace (p + n)%nat with (n2 + 1 * List.length l)%nat by lia. apply Nat.mod_add. lia. }
    destruct (Z.leb_spec (Z.of_nat (List.length l)) (Z.of_nat n2)) as [Hbig|Hsmall].
    + unfold py_div. replace (Z.of_nat (List.length l) =? 0) with false by lia. cbn [bind].
      unfold st_idf_read. rewrite O.
      assert (Hra : idf_read (fs_bytes d (s_path s)) None None = Ok (Some l)).
      { rewrite (holds_read_all _ l) by auto. destruct l; [cbn in Hlt; lia|reflexivity]. }
      rewrite Hra. cbn [bind]. rewrite concat_times_some. cbn [bind].
      rewrite <- Nat2Z.inj_div, Nat2Z.id.
      assert (Hm2 : Z.of_nat n2 - Z.of_nat (n2 / List.length l) * Z.of_nat (List.length l)
                    = Z.of_nat (n2 mod List.length l)).
      { rewrite Nat2Z.inj_mod, Nat2Z.inj_div, Z.mod_eq by lia. lia. }
      rewrite Hm2.
      assert (Hlt2 : (n2 mod List.length l < List.length l)%nat) by (apply Nat.mod_upper_bound; lia).
      replace (Z.of_nat (n2 mod List.length l) <? Z.of_nat (List.length l)) with true by lia.
      rewrite Hmod. cbv zeta.
      destruct (Z.ltb_spec 0 (Z.of_nat (n2 mod List.length l))) as [Hpos|Hz].
      * rewrite (holds_read _ l) by (auto; lia). rewrite Nat2Z.id. cbn [bind np_concatenate skipn Z.to_nat].
        rewrite <- app_assoc.
        destruct a; reflexivity.
      * replace (n2 mod List.length l)%nat with 0%nat by lia. cbn [firstn]. rewrite app_nil_r.
        destruct a; reflexivity.
    + rewrite (Nat.div_small n2) by lia. cbn [repeat List.concat app]. cbv zeta.
      rewrite Hmod, (Nat.mod_small n2) by lia.
      destruct (Z.ltb_spec 0 (Z.of_nat n2)) as [Hpos|Hz].
      * unfold st_idf_read. rewrite O, (holds_read _ l) by (auto; lia). rewrite Nat2Z.id. cbn [bind np_concatenate skipn Z.to_nat].
        destruct a; reflexivity.
      * replace n2 with 0%nat by lia. cbn [firstn]. rewrite app_nil_r. destruct a; reflexivity.
Qed.

(** wrap_read is the cyclic stream *)
Lemma cyclic_length {A} (l : list A) p k : List.length (cyclic l p k) = k.
Proof. unfold cyclic. rewrite map_length, seq_length. reflexivity. Qed.

Lemma cyclic_app {A} (l : list A) p j k : l <> [] ->
  cyclic l p (j + k) = cyclic l p j ++ cyclic l ((p + j) mod List.length l) k.
Proof.
  intro Hl. unfold cyclic. rewrite seq_app, map_app. f_equal.
  cbn [Nat.add].
  assert (E : seq j k = map (fun i => (j + i)%nat) (seq 0 k)).
  { clear. revert j. induction k as [|k IH]; intro j; [reflexivity|].
    cbn [seq map]. f_equal; [lia|]. rewrite IH. rewrite <- seq_shift, map_map.
    apply map_ext. intro; lia. }
  rewrite E, map_map. apply map_ext. intro i. f_equal.
  assert (List.length l <> 0)%nat by (destruct l; cbn; congruence).
  rewrite Nat.add_mod_idemp_l by assumption. f_equal. lia.
Qed.

Lemma cyclic_inside {A} (l : list A) p k : (p + k <= List.length l)%nat ->
  cyclic l p k = map Some (firstn k (skipn p l)).
Proof.
  revert p; induction k as [|k IH]; intros p H; [reflexivity|].
  replace (S k) with (1 + k)%nat by lia.
  destruct l as [|x l0] eqn:El; [cbn in H; lia|]. rewrite <- El in *.
  assert (Hl : l <> []) by (subst; discriminate).
  rewrite cyclic_app by assumption.
  assert (E1 : cyclic l p 1 = [nth_error l p]).
  { unfold cyclic. cbn [seq map]. rewrite Nat.add_0_r, Nat.mod_small by lia. reflexivity. }
  rewrite E1.
  destruct (nth_error l p) as [y|] eqn:Ey; [|apply nth_error_None in Ey; lia].
  destruct (skipn p l) as [|z t] eqn:Es.
  { exfalso. apply (skipn_nonempty l p); [lia|assumption]. }
  assert (Hz : z = y /\ t = skipn (S p) l).
  { clear - Ey Es. revert p Ey Es. induction l as [|w l IH]; intros p Ey Es; [destruct p; discriminate|].
    destruct p; cbn in *; [split; congruence|]. apply IH; assumption. }
  destruct Hz as [-> ->]. cbn [firstn map app]. f_equal.
  destruct (Nat.eq_dec (p + 1) (List.length l)) as [E|E].
  - replace k with 0%nat by lia. reflexivity.
  - rewrite Nat.mod_small by lia. replace (p+1)%nat with (S p) by lia. rewrite IH by lia. reflexivity.
Qed.

Lemma cyclic_rounds {A} (l : list A) k : l <> [] ->
  cyclic l 0 (k * List.length l) = map Some (List.concat (repeat l k)).
Proof.
  intro Hl. assert (List.length l <> 0)%nat by (destruct l; cbn; congruence).
  induction k as [|k IH]; [reflexivity|].
  cbn [Nat.mul repeat List.concat]. rewrite cyclic_app by assumption.
  cbn [Nat.add]. rewrite Nat.mod_same by assumption. rewrite IH, map_app. f_equal.
  rewrite cyclic_inside by lia. rewrite firstn_all2 by (rewrite skipn_length; lia). reflexivity.
Qed.

Lemma wrap_read_cyclic l p n : (p < List.length l)%nat ->
  map Some (wrap_read l p n) = cyclic l p n.
Proof.
  intro Hp. assert (Hl : l <> []) by (destruct l; cbn in *; [lia|discriminate]).
  unfold wrap_read. destruct (Nat.ltb_spec (p+n) (List.length l)) as [H|H].
  - rewrite cyclic_inside by lia. reflexivity.
  - set (L := List.length l) in *. set (n2 := (n - (L - p))%nat).
    replace n with ((L - p) + ((n2 / L) * L + n2 mod L))%nat
      by (rewrite (Nat.mul_comm (n2/L)), <- Nat.div_mod by lia; lia).
    rewrite cyclic_app by assumption.
    replace (p + (L - p))%nat with L by lia. fold L. rewrite Nat.mod_same by lia.
    rewrite cyclic_app by assumption. fold L. cbn [Nat.add].
    rewrite Nat.mod_mul by lia.
    rewrite !map_app. pose proof (cyclic_rounds l (n2 / L) Hl) as R; fold L in R; rewrite R.
    rewrite (cyclic_inside l p) by lia. rewrite (firstn_all2 (skipn p l)) by (rewrite skipn_length; lia).
    rewrite (cyclic_inside l 0) by (pose proof (Nat.mod_upper_bound n2 L); lia).
    reflexivity.
Qed.

Lemma read_wrap_run l s d p ns a :
  rinv l s d -> s_position s = Z.of_nat p -> (p < List.length l)%nat -> Forall (fun n => 1 <= n)%nat ns ->
  exists outs,
    st_run s d (map (fun n => ORead (Some (Z.of_nat n)) a true) ns)
    = (set_position s (Z.of_nat ((p + list_sum ns) mod List.length l)), d,
       map (fun x => OutRead (Ok (Some x))) outs) /\
    map Some (List.concat outs) = cyclic l p (list_sum ns) /\
    map (@List.length neutron) outs = ns.
Proof.
  intros I Hp Hlt H. revert s p I Hp Hlt. induction H as [|n ns Hn H IH]; intros s p I Hp Hlt.
  - exists []. cbn [map list_sum fold_right st_run]. rewrite Nat.add_0_r, Nat.mod_small by assumption.
    split; [|split]; try reflexivity.
    rewrite <- Hp. destruct s; reflexivity.
  - cbn [map st_run st_step]. rewrite (read_wrap_step l s d p n a I Hp Hlt Hn).
    assert (Hm : ((p + n) mod List.length l < List.length l)%nat) by (apply Nat.mod_upper_bound; lia).
    destruct (IH (set_position s (Z.of_nat ((p + n) mod List.length l))) ((p+n) mod List.length l)%nat)
      as (outs & E & Ec & El).
    + apply rinv_set_position; assumption.
    + reflexivity.
    + assumption.
    + rewrite E. exists (wrap_read l p n :: outs). cbn [map List.concat].
      assert (Hl : l <> []) by (destruct l; cbn in *; [lia|discriminate]).
      change (list_sum (n :: ns)) with (n + list_sum ns)%nat.
      split; [|split].
      * f_equal. f_equal. unfold set_position; cbn. f_equal. f_equal.
        rewrite Nat.add_mod_idemp_l by lia. f_equal. lia.
      * rewrite map_app, (wrap_read_cyclic l p n Hlt), Ec.
        rewrite <- cyclic_app by assumption. reflexivity.
      * f_equal; [|assumption]. rewrite <- (map_length Some), (wrap_read_cyclic l p n Hlt).
        apply cyclic_length.
Qed.

Lemma skipn_skipn' {A} (n p : nat) (l : list A) : skipn n (skipn p l) = skipn (p + n) l.
Proof.
  revert l; induction p as [|p IH]; intro l; [reflexivity|].
  destruct l as [|x l]; cbn; [apply skipn_nil|apply IH].
Qed.

(* non wrapping *)
Lemma read_nowrap_step l s d p n a :
  rinv l s d -> s_position s = Z.of_nat p -> (p < List.length l)%nat -> (1 <= n)%nat ->
  st_read s d (Some (Z.of_nat n)) a false
  = (set_position s (Z.of_nat (Nat.min (p + n) (List.length l))), Ok (Some (firstn n (skipn p l)))).
Proof.
  intros I Hp Hlt Hn. pose proof I as I0. destruct I as [W H M O T].
  unfold st_read, is_readonly. rewrite M. cbn [mode_eqb negb].
  rewrite py_or_pos by lia.
  replace (Z.of_nat n =? 0) with false by lia.
  rewrite Hp, T.
  destruct (Z.ltb_spec (Z.of_nat p + Z.of_nat n) (Z.of_nat (List.length l))) as [Hin|Hout].
  - rewrite (idf_read_rinv l) by (auto; lia). rewrite !Nat2Z.id.
    rewrite Nat.min_l by lia. rewrite Nat2Z.inj_add. destruct a; reflexivity.
  - rewrite (idf_read_rinv l) by (auto; lia).
    replace (Z.to_nat (Z.of_nat (List.length l) - Z.of_nat p)) with (List.length l - p)%nat by lia.
    rewrite Nat2Z.id. rewrite (firstn_all2 (skipn p l)) by (rewrite skipn_length; lia).
    rewrite Nat.min_r by lia. rewrite firstn_all2 by (rewrite skipn_length; lia).
    destruct a; reflexivity.
Qed.

Lemma read_nowrap_end l s d n a :
  rinv l s d -> s_position s = Z.of_nat (List.length l) -> (1 <= n)%nat ->
  st_read s d (Some (Z.of_nat n)) a false
  = (set_position s (Z.of_nat (List.length l)), if a then Ok None else Err AttributeError).
Proof.
  intros I Hp Hn. destruct I as [W H M O T].
  unfold st_read, is_readonly. rewrite M. cbn [mode_eqb negb].
  rewrite py_or_pos by lia.
  replace (Z.of_nat n =? 0) with false by lia.
  rewrite Hp, T.
  replace (_ <? _) with false by lia.
  unfold st_idf_read. rewrite O. unfold idf_read.
  replace (Z.of_nat (List.length l) - Z.of_nat (List.length l)) with 0 by lia. cbn [Z.eqb].
  destruct a; reflexivity.
Qed.

Lemma read_nowrap_run l s d p ns a :
  rinv l s d -> s_position s = Z.of_nat p -> (p <= List.length l)%nat -> Forall (fun n => 1 <= n)%nat ns ->
  exists outs,
    st_run s d (map (fun n => ORead (Some (Z.of_nat n)) a false) ns)
    = (set_position s (Z.of_nat (Nat.min (p + list_sum ns) (List.length l))), d, outs) /\
    List.concat (map delivered outs) = firstn (list_sum ns) (skipn p l).
Proof.
  intros I Hp Hlt H. revert s p I Hp Hlt. induction H as [|n ns Hn H IH]; intros s p I Hp Hlt.
  - exists []. cbn [map list_sum fold_right st_run]. rewrite Nat.add_0_r, Nat.min_l by assumption.
    split; [|reflexivity]. rewrite <- Hp. destruct s; reflexivity.
  - cbn [map st_run st_step]. change (list_sum (n :: ns)) with (n + list_sum ns)%nat.
    destruct (Nat.eq_dec p (List.length l)) as [E|E].
    + subst p. rewrite (read_nowrap_end l s d n a I Hp Hn).
      destruct (IH (set_position s (Z.of_nat (List.length l))) (List.length l)) as (outs & Er & Ec);
        [apply rinv_set_position; assumption|reflexivity|lia|].
      rewrite Er. eexists. split.
      * f_equal. f_equal. unfold set_position; cbn. f_equal. f_equal. lia.
      * cbn [map List.concat]. rewrite Ec, skipn_all, !firstn_nil. destruct a; reflexivity.
    + rewrite (read_nowrap_step l s d p n a I Hp) by lia.
      destruct (IH (set_position s (Z.of_nat (Nat.min (p + n) (List.length l)))) (Nat.min (p + n) (List.length l)))
        as (outs & Er & Ec);
        [apply rinv_set_position; assumption|reflexivity|lia|].
      rewrite Er. eexists. split.
      * f_equal. f_equal. unfold set_position; cbn. f_equal. f_equal. lia.
      * cbn [map List.concat delivered]. rewrite Ec.
        assert (Esk : skipn (Nat.min (p+n) (List.length l)) l = skipn n (skipn p l)).
        { rewrite skipn_skipn'. destruct (Nat.le_ge_cases (p+n) (List.length l)).
          - f_equal. lia.
          - rewrite !skipn_all2 by lia. reflexivity. }
        rewrite Esk. generalize (skipn p l) as x. intro x. clear.
        revert x. generalize (list_sum ns) as k. induction n as [|n IH]; intros k x; [reflexivity|].
        destruct x as [|y x]; cbn; [rewrite !firstn_nil; reflexivity|]. f_equal. apply IH.
Qed.
