From Verif Require Import Base PyStr RunModel RunSpec.
From Coq Require Import ZifyBool ZifyNat Permutation Ascii.
Open Scope Z_scope.

(** ** partitions *)
Definition qr_shares (q : Z) (r m : nat) : list Z :=
  repeat (q + 1) r ++ (if q =? 0 then [] else repeat q (m - r)).

Lemma ceil_qr q r n : 0 < n -> 0 <= r < n -> ceil_div (q * n + r) n = if r =? 0 then q else q + 1.
Proof.
  intros Hn Hr. unfold ceil_div. destruct (Z.eqb_spec r 0) as [->|Hr0].
  - rewrite Z.add_0_r. replace (- (q * n)) with ((- q) * n) by ring.
    rewrite Z.div_mul by lia. lia.
  - replace (- (q * n + r)) with ((n - r) + (- q - 1) * n) by ring.
    rewrite Z.div_add by lia. rewrite Z.div_small by lia. lia.
Qed.

Lemma partition_qr m : forall q r, (1 <= m)%nat -> 0 <= q -> (r < m)%nat ->
  partition_loop m (q * Z.of_nat m + Z.of_nat r) (Z.of_nat m) = Ok (qr_shares q r m).
Proof.
  induction m as [|m IH]; intros q r Hm Hq Hr; [lia|].
  cbn [partition_loop].
  destruct (Z.eqb_spec (q * Z.of_nat (S m) + Z.of_nat r) 0) as [E|E].
  { assert (q = 0 /\ r = 0%nat) as [-> ->] by nia. reflexivity. }
  destruct (Z.ltb_spec 1 (Z.of_nat (S m))) as [H1|H1].
  - rewrite ceil_qr by lia. destruct (Z.eqb_spec (Z.of_nat r) 0) as [Er|Er].
    + replace r with 0%nat in * by lia.
      replace (q * Z.of_nat (S m) + Z.of_nat 0 - q) with (q * Z.of_nat m + Z.of_nat 0) by nia.
      replace (Z.of_nat (S m) - 1) with (Z.of_nat m) by lia.
      rewrite IH by lia. cbn [bind]. unfold qr_shares. cbn [repeat app].
      destruct (Z.eqb_spec q 0) as [->|]; [lia|]. rewrite !Nat.sub_0_r. reflexivity.
    + destruct r as [|r]; [lia|].
      replace (q * Z.of_nat (S m) + Z.of_nat (S r) - (q + 1)) with (q * Z.of_nat m + Z.of_nat r) by nia.
      replace (Z.of_nat (S m) - 1) with (Z.of_nat m) by lia.
      rewrite IH by lia. reflexivity.
  - assert (m = 0%nat /\ r = 0%nat) as [-> ->] by lia.
    replace (q * Z.of_nat 1 + Z.of_nat 0) with q in * by lia.
    rewrite Z.sub_diag. cbn. unfold qr_shares. destruct (Z.eqb_spec q 0); [lia|]. reflexivity.
Qed.

Lemma getPartitions_qr N n : 0 <= N -> 1 <= n ->
  getPartitions N n = Ok (qr_shares (N / n) (Z.to_nat (N mod n)) (Z.to_nat n)).
Proof.
  intros HN Hn. unfold getPartitions. rewrite Z.max_l by lia.
  assert (Hm := Z.mod_pos_bound N n ltac:(lia)). assert (Hq : 0 <= N / n) by (apply Z.div_pos; lia).
  rewrite <- (partition_qr (Z.to_nat n) (N / n) (Z.to_nat (N mod n))) by lia.
  rewrite !Z2Nat.id by lia. f_equal. rewrite Z.mul_comm. apply Z.div_mod. lia.
Qed.

Lemma zsum_app a b : zsum (a ++ b) = zsum a + zsum b.
Proof. induction a as [|x a IH]; cbn; [reflexivity|]. unfold zsum in *. lia. Qed.
Lemma zsum_repeat x k : zsum (repeat x k) = x * Z.of_nat k.
Proof.
  induction k as [|k IH]; [cbn; lia|]. cbn [repeat]. change (zsum (x :: repeat x k)) with (x + zsum (repeat x k)).
  rewrite IH. nia.
Qed.

Lemma In_repeat {A} (x y : A) k : In y (repeat x k) -> y = x.
Proof. apply repeat_spec. Qed.

Lemma qr_fair q r m : 0 <= q -> (r < m)%nat -> fair (q * Z.of_nat m + Z.of_nat r) (qr_shares q r m).
Proof.
  intros Hq Hr. unfold qr_shares. split; [|split].
  - rewrite zsum_app, zsum_repeat. destruct (Z.eqb_spec q 0) as [->|].
    + change (zsum []) with 0. nia.
    + rewrite zsum_repeat. nia.
  - apply Forall_app. split.
    + apply Forall_forall. intros x Hx. apply In_repeat in Hx. lia.
    + destruct (Z.eqb_spec q 0); [constructor|]. apply Forall_forall. intros x Hx. apply In_repeat in Hx. lia.
  - assert (H : forall x, In x (repeat (q + 1) r ++ (if q =? 0 then [] else repeat q (m - r))) -> x = q \/ x = q + 1).
    { intros x Hx. apply in_app_or in Hx as [Hx|Hx].
      - apply In_repeat in Hx. auto.
      - destruct (q =? 0); [destruct Hx|]. apply In_repeat in Hx. auto. }
    intros x y Hx Hy. apply H in Hx, Hy. lia.
Qed.

Lemma partitions_ok N n : 0 <= N -> 1 <= n ->
  exists l, getPartitions N n = Ok l /\ fair N l /\ Z.of_nat (List.length l) = Z.min N n.
Proof.
  intros HN Hn. exists (qr_shares (N / n) (Z.to_nat (N mod n)) (Z.to_nat n)).
  rewrite getPartitions_qr by assumption. split; [reflexivity|].
  assert (Hm := Z.mod_pos_bound N n ltac:(lia)). assert (Hq : 0 <= N / n) by (apply Z.div_pos; lia).
  assert (EN : N = N / n * n + N mod n) by (rewrite Z.mul_comm; apply Z.div_mod; lia).
  split.
  - rewrite EN at 1. rewrite <- (Z2Nat.id n) at 2 by lia. rewrite <- (Z2Nat.id (N mod n)) at 1 by lia.
    apply qr_fair; lia.
  - unfold qr_shares. rewrite app_length, repeat_length.
    destruct (Z.eqb_spec (N / n) 0) as [E|E].
    + cbn [List.length]. apply Z.div_small_iff in E; [|lia]. rewrite Z.mod_small by lia. lia.
    + rewrite repeat_length. assert (n <= N) by nia. lia.
Qed.

Lemma rank_share_ok N n rank : 0 <= N -> 1 <= n -> 0 <= rank ->
  (rank < Z.min N n -> exists s, rank_share N n rank = Ok s /\ 1 <= s) /\
  (Z.min N n <= rank -> rank_share N n rank = Err IndexError).
Proof.
  intros HN Hn Hr. destruct (partitions_ok N n HN Hn) as (l & E & (_ & Fp & _) & L).
  unfold rank_share. rewrite E. cbn [bind]. split; intro H.
  - destruct (nth_error l (Z.to_nat rank)) as [x|] eqn:Ex.
    + exists x. split; [reflexivity|]. rewrite Forall_forall in Fp. apply Fp. eapply nth_error_In; eassumption.
    + apply nth_error_None in Ex. lia.
  - destruct (nth_error l (Z.to_nat rank)) as [x|] eqn:Ex; [|reflexivity].
    assert (H0 : nth_error l (Z.to_nat rank) <> None) by congruence. apply nth_error_Some in H0. lia.
Qed.

(* all shares together *)
Lemma shares_total N n l : getPartitions N n = Ok l ->
  map (fun r => rank_share N n (Z.of_nat r)) (seq 0 (List.length l)) = map Ok l.
Proof.
  intro E. unfold rank_share. rewrite E. cbn [bind].
  transitivity (map (fun r => match nth_error l r with Some x => Ok x | None => Err IndexError end) (seq 0 (List.length l))).
  { apply map_ext. intro r. rewrite Nat2Z.id. reflexivity. }
  clear E. induction l as [|x l IH]; [reflexivity|].
  cbn [List.length seq map nth_error]. f_equal. rewrite <- IH, <- seq_shift, map_map. reflexivity.
Qed.

(** ** batches *)
Lemma seq_map_succ i k : map (fun j => Z.of_nat j + 1 + i) (seq 0 k) = map (fun j => Z.of_nat j + i) (seq 1 k).
Proof.
  rewrite <- seq_shift, map_map. apply map_ext. intro a. lia.
Qed.

Definition good_from (i cap total : Z) (bs : list (Z * Z)) : Prop :=
  map fst bs = map (fun j => Z.of_nat j + i) (seq 0 (List.length bs)) /\
  Forall (fun b => 1 <= snd b <= cap) bs /\
  (forall pre b post, bs = pre ++ b :: post -> post <> [] -> snd b = cap) /\
  batch_total bs = total.

Lemma good_from_0 cap total bs : good_from 0 cap total bs -> good_batches cap total bs.
Proof.
  intros (A & B & C & D). unfold good_batches. rewrite A.
  split; [|auto]. apply map_ext. intro. lia.
Qed.

Lemma run1_loop_ok k : forall i remained cap, 1 <= cap -> 0 <= remained ->
  Z.of_nat k = (if remained =? 0 then 0 else (remained - 1) / cap + 1) ->
  exists bs, run1_loop k i remained cap = (bs, 0) /\ good_from i cap remained bs /\ List.length bs = k.
Proof.
  induction k as [|k IH]; intros i remained cap Hc Hr Hk.
  - assert (remained = 0).
    { destruct (Z.eqb_spec remained 0); [assumption|]. assert (0 <= (remained - 1) / cap) by (apply Z.div_pos; lia). lia. }
    subst. exists []. split; [reflexivity|]. split; [|reflexivity].
    split; [reflexivity|]. split; [constructor|]. split; [|reflexivity].
    intros pre b post E. destruct pre; discriminate.
  - destruct (Z.eqb_spec remained 0) as [->|Hr0]; [lia|].
    cbn [run1_loop].
    destruct (IH (i + 1) (remained - Z.min remained cap) cap Hc ltac:(lia)) as (bs & E & (A & B & C & D) & L).
    { destruct (Z.leb_spec remained cap) as [Hle|Hgt].
      - rewrite Z.min_l by lia. rewrite Z.sub_diag. cbn [Z.eqb].
        rewrite Z.div_small in Hk by lia. lia.
      - rewrite Z.min_r by lia. destruct (Z.eqb_spec (remained - cap) 0); [lia|].
        replace (remained - 1) with ((remained - cap - 1) + 1 * cap) in Hk by ring.
        rewrite Z.div_add in Hk by lia. lia. }
    rewrite E. exists ((i, Z.min remained cap) :: bs). split; [reflexivity|]. split; [|cbn; lia].
    split; [|split; [|split]].
    + cbn [map List.length seq fst]. f_equal. rewrite A. rewrite <- seq_map_succ. apply map_ext. intro; lia.
    + constructor; [cbn; lia|assumption].
    + intros pre b post Eb Hp. destruct pre as [|p pre].
      * injection Eb as <- <-. cbn. destruct bs as [|b2 bs']; [congruence|].
        assert (0 < remained - Z.min remained cap); [|lia].
        rewrite <- D. inversion B as [|? ? Hb2 HB]; subst. unfold batch_total. cbn [map].
        assert (Hs : 0 <= zsum (map snd bs')).
        { clear -HB. induction HB as [|x l Hx _ IHl]; cbn; [lia|]. unfold zsum in *. cbn. lia. }
        unfold zsum in *. cbn [fold_right]. lia.
      * injection Eb as <- Eb. eapply C; eassumption.
    + unfold batch_total in *. cbn [map snd]. unfold zsum in *. cbn [fold_right]. lia.
Qed.

Lemma run1_ok ncount cap : 0 <= ncount -> 1 <= cap ->
  exists bs, run1 ncount cap = (bs, Ok tt) /\ good_batches cap ncount bs /\
             Z.of_nat (List.length bs) = ceil_div ncount cap.
Proof.
  intros Hn Hc. unfold run1, py_div. destruct (Z.eqb_spec cap 0); [lia|].
  destruct (run1_loop_ok (Z.to_nat ((ncount - 1) / cap + 1)) 0 ncount cap Hc Hn) as (bs & E & G & L).
  - destruct (Z.eqb_spec ncount 0) as [->|H0].
    + replace ((0 - 1) / cap) with (-1); [reflexivity|].
      apply Z.div_unique with (cap - 1); lia.
    + assert (0 <= (ncount - 1) / cap) by (apply Z.div_pos; lia). lia.
  - rewrite E. exists bs. split; [reflexivity|]. split; [apply good_from_0; assumption|].
    rewrite L. unfold ceil_div.
    assert (Eq : (- ncount) / cap = - ((ncount - 1) / cap) - 1).
    { symmetry. apply Z.div_unique with (cap - 1 - (ncount - 1) mod cap).
      - assert (Hm := Z.mod_pos_bound (ncount - 1) cap ltac:(lia)). lia.
      - assert (Hd := Z.div_mod (ncount - 1) cap ltac:(lia)). nia. }
    assert (-1 <= (ncount - 1) / cap) by (apply Z.div_le_lower_bound; lia). lia.
Qed.

Lemma run1_negative ncount cap : ncount < 0 -> 1 <= cap -> run1 ncount cap = ([], Err AssertionError).
Proof.
  intros Hn Hc. unfold run1, py_div. destruct (Z.eqb_spec cap 0); [lia|].
  assert ((ncount - 1) / cap < 0) by (apply Z.div_lt_upper_bound; lia).
  replace (Z.to_nat ((ncount - 1) / cap + 1)) with 0%nat by lia. cbn [run1_loop].
  destruct (Z.eqb_spec ncount 0); [lia|reflexivity].
Qed.

(** ** directories *)
Lemma step_dir_inj m r1 r2 i1 i2 : (m <> 0 -> 0 <= r1) -> (m <> 0 -> 0 <= r2) ->
  step_dir m r1 i1 = step_dir m r2 i2 -> i1 = i2 /\ (m <> 0 -> r1 = r2).
Proof.
  intros H1 H2. unfold step_dir. destruct (Z.eqb_spec m 0) as [Hm|Hm]; intro E.
  - apply append_inj_l in E. apply str_of_Z_inj in E. split; [assumption|congruence].
  - apply append_inj_l in E.
    apply (app_sep_inj "-"%char) in E.
    + destruct E as [Er Es]. change ("step" ++ str_of_Z i1 = "step" ++ str_of_Z i2)%string in Es.
      apply append_inj_l in Es. apply str_of_Z_inj in Er, Es. auto.
    + apply digits_no_char; [reflexivity|]. apply nonneg_digits. auto.
    + apply digits_no_char; [reflexivity|]. apply nonneg_digits. auto.
Qed.

Lemma record_all_other l : forall d q, ~ In q (map fst l) -> record_all d l q = d q.
Proof.
  induction l as [|[p n] l IH]; intros d q H; [reflexivity|].
  cbn [record_all fold_left] in *. unfold record_all in IH. cbn [map fst] in H. rewrite IH by (intro; apply H; right; assumption).
  unfold record_samples. cbn. destruct (String.eqb_spec p q); [|reflexivity]. exfalso. apply H. left. assumption.
Qed.

Lemma record_all_in l : forall d p n, NoDup (map fst l) -> In (p, n) l -> record_all d l p = Some n.
Proof.
  induction l as [|[p0 n0] l IH]; intros d p n ND Hin; [destruct Hin|].
  inversion ND as [|? ? Hni ND']; subst. destruct Hin as [E|Hin].
  - injection E as -> ->. change (record_all (record_samples d p n) l p = Some n).
    rewrite record_all_other by assumption. unfold record_samples. rewrite String.eqb_refl. reflexivity.
  - change (record_all (record_samples d p0 n0) l p = Some n). apply IH; assumption.
Qed.

Lemma good_nodup cap total bs : good_batches cap total bs -> NoDup (map fst bs).
Proof.
  intros (A & _). rewrite A. apply FinFun.Injective_map_NoDup; [|apply seq_NoDup].
  intros x y E. lia.
Qed.

Lemma rank_records_nodup m rank cap total bs : 0 <= rank -> good_batches cap total bs ->
  NoDup (map fst (rank_records m rank bs)).
Proof.
  intros Hr G. apply good_nodup in G. unfold rank_records. rewrite map_map. cbn [fst].
  induction bs as [|b bs IH]; [constructor|]. inversion G as [|? ? Hni ND]; subst. cbn [map].
  constructor; [|auto]. intro Hin. apply in_map_iff in Hin as (b' & E & Hb').
  apply step_dir_inj in E as [E _]; auto. apply Hni. rewrite <- E. apply in_map. assumption.
Qed.

Lemma NoDup_app' {A} (a b : list A) : NoDup a -> NoDup b -> (forall x, In x a -> ~ In x b) -> NoDup (a ++ b).
Proof.
  induction a as [|x a IH]; intros Ha Hb Hd; [assumption|]. inversion Ha; subst. cbn. constructor.
  - intro Hin. apply in_app_or in Hin as [?|?]; [contradiction|]. eapply Hd; [left; reflexivity|assumption].
  - apply IH; auto. intros y Hy. apply Hd. right; assumption.
Qed.

(* several ranks *)
Lemma ranks_nodup m (runs : list (list (Z * Z))) cap : m <> 0 ->
  forall r0, Forall (fun bs => exists total, good_batches cap total bs) runs ->
  NoDup (map fst (List.concat (map (fun rb => rank_records m (Z.of_nat (fst rb)) (snd rb)) (combine (seq r0 (List.length runs)) runs)))).
Proof.
  intros Hm. induction runs as [|bs runs IH]; intros r0 F; [constructor|].
  inversion F as [|? ? [t G] F']; subst. cbn [List.length seq combine map fst snd List.concat]. rewrite map_app.
  apply NoDup_app'.
  - eapply rank_records_nodup; [lia|eassumption].
  - apply IH; assumption.
  - intros x Hx Hy. unfold rank_records in Hx. rewrite map_map in Hx. cbn [fst] in Hx.
    apply in_map_iff in Hx as (b & <- & Hb).
    rewrite concat_map, map_map in Hy. apply in_concat in Hy as (l & Hl & Hy).
    apply in_map_iff in Hl as ([r bs'] & <- & Hin). cbn [fst snd] in Hy.
    unfold rank_records in Hy. rewrite map_map in Hy. apply in_map_iff in Hy as (b' & E & Hb').
    cbn [fst] in E. apply step_dir_inj in E as [_ E]; [|lia|lia]. specialize (E Hm).
    apply in_combine_l in Hin. apply in_seq in Hin. lia.
Qed.

Lemma rank_records_total m r bs : zsum (map snd (rank_records m r bs)) = batch_total bs.
Proof. unfold rank_records. rewrite map_map. reflexivity. Qed.

Lemma zsum_perm a b : Permutation a b -> zsum a = zsum b.
Proof. unfold zsum. induction 1; cbn; lia. Qed.

(** ** pyre *)
Lemma zsum_app_batches a b : batch_total (a ++ b) = batch_total a + batch_total b.
Proof. unfold batch_total. rewrite map_app. apply zsum_app. Qed.

Lemma pyre_main_ok ncount buf : 1 <= ncount -> 1 <= buf ->
  exists bs, pyre_main ncount buf = (bs, Ok tt) /\ good_batches (Z.min ncount buf) ncount bs.
Proof.
  intros Hn Hb. unfold pyre_main.
  replace (if ncount <? buf then ncount else buf) with (Z.min ncount buf) by (destruct (Z.ltb_spec ncount buf); lia).
  set (b := Z.min ncount buf). assert (Hb1 : 1 <= b <= ncount) by lia.
  destruct (Z.eqb_spec b 0) as [Hb0|_]; [lia|].
  rewrite Z.quot_div_nonneg by lia.
  set (n := ncount / b). set (rem := ncount mod b).
  assert (En : ncount = b * n + rem) by (apply Z.div_mod; lia).
  assert (Hrem := Z.mod_pos_bound ncount b ltac:(lia)). fold rem in Hrem.
  assert (Hn1 : 1 <= n) by (unfold n; apply Z.div_le_lower_bound; lia).
  set (full := map (fun i => (Z.of_nat i, b)) (seq 0 (Z.to_nat n))).
  assert (Lf : List.length full = Z.to_nat n) by (unfold full; rewrite map_length, seq_length; reflexivity).
  assert (Tf : batch_total full = b * n).
  { unfold batch_total, full. rewrite map_map. cbn [snd].
    assert (E : map (fun _ : nat => b) (seq 0 (Z.to_nat n)) = repeat b (Z.to_nat n)).
    { rewrite <- (seq_length (Z.to_nat n) 0) at 2. generalize (seq 0 (Z.to_nat n)). intro l.
      induction l; cbn; congruence. }
    rewrite E, zsum_repeat. lia. }
  assert (Ff : Forall (fun x => 1 <= snd x <= b) full).
  { apply Forall_forall. intros x Hx. apply in_map_iff in Hx as (i & <- & _). cbn. lia. }
  assert (Fb : forall x, In x full -> snd x = b).
  { intros x Hx. apply in_map_iff in Hx as (i & <- & _). reflexivity. }
  assert (Mf : map fst full = map Z.of_nat (seq 0 (Z.to_nat n))) by (unfold full; rewrite map_map; reflexivity).
  destruct (Z.eqb_spec rem 0) as [E0|E0].
  - exists full. split; [reflexivity|]. split; [rewrite Lf; assumption|]. split; [assumption|]. split; [|lia].
    intros pre x post E _. apply Fb. rewrite E. apply in_or_app. right; left; reflexivity.
  - destruct (Z.ltb_spec rem 0); [lia|].
    exists (full ++ [(n, rem)]). split; [reflexivity|]. split; [|split; [|split]].
    + rewrite map_app, app_length, Lf, Mf. cbn [map fst List.length]. rewrite Nat.add_1_r, seq_S, map_app. cbn.
      rewrite Z2Nat.id by lia. reflexivity.
    + apply Forall_app. split; [assumption|]. constructor; [cbn; lia|constructor].
    + intros pre x post E Hp. destruct post as [|y post] using rev_ind; [congruence|]. clear IHpost.
      assert (E' : full ++ [(n, rem)] = (pre ++ x :: post) ++ [y]) by (rewrite E, <- app_assoc; reflexivity).
      apply app_inj_tail in E' as [E' _]. apply Fb. rewrite E'. apply in_or_app. right; left; reflexivity.
    + rewrite zsum_app_batches, Tf. unfold batch_total. cbn. lia.
Qed.

Lemma getBufferSize_pos usersize ncount m maxsize : 0 <= usersize -> 1 <= ncount -> 1 <= maxsize -> 1 <= m ->
  1 <= getBufferSize usersize ncount m maxsize <= maxsize.
Proof.
  intros Hu Hn Hm Hs. unfold getBufferSize, computeBufferSize.
  destruct (Z.eqb_spec usersize 0).
  - destruct (Z.eqb_spec m 0); [lia|]. cbv zeta. destruct (Z.ltb_spec (Z.quot (Z.quot ncount 5) m) 1).
    + destruct (Z.ltb_spec (Z.quot ncount m) 1); lia.
    + lia.
  - destruct (Z.ltb_spec maxsize usersize); lia.
Qed.

Lemma maximumBufferSize_pos mem nodes envmax x : 1 <= envmax -> maximumBufferSize mem nodes envmax = Ok x -> 1 <= x <= envmax.
Proof.
  intros He. unfold maximumBufferSize. set (n := mem / _ / 10 / 8 / 100 * 100). cbv zeta.
  destruct (Z.ltb_spec n 100); [discriminate|]. intro E. injection E as <-. lia.
Qed.

Lemma pyre_negative ncount buf : 1 <= ncount -> buf < 0 ->
  pyre_main ncount buf = ([], if ncount mod buf =? 0 then Ok tt else Err ValueError).
Proof.
  intros Hn Hb. unfold pyre_main. replace (ncount <? buf) with false by lia.
  destruct (Z.eqb_spec buf 0); [lia|].
  assert (Hq : Z.quot ncount buf <= 0).
  { replace buf with (- (- buf)) by lia. rewrite Z.quot_opp_r by lia.
    assert (0 <= Z.quot ncount (- buf)) by (apply Z.quot_pos; lia). lia. }
  replace (Z.to_nat (Z.quot ncount buf)) with 0%nat by lia. cbn [seq map].
  destruct (Z.eqb_spec (ncount mod buf) 0); [reflexivity|].
  assert (Hm := Z.mod_neg_bound ncount buf ltac:(lia)).
  destruct (Z.ltb_spec (ncount mod buf) 0); [reflexivity|lia].
Qed.

(** ** the plan of run_mpi *)
Lemma plan_ok ncount nodes bs : 1 <= ncount -> 1 <= nodes -> 1 <= bs ->
  exists nodes' buf, run_mpi_plan ncount nodes bs = Ok (nodes', buf) /\
    1 <= nodes' <= nodes /\ 1 <= buf /\
    (ncount < 100 -> nodes' = 1 /\ buf = ncount) /\
    (100 <= ncount -> nodes' = nodes /\ 20 <= buf <= Z.max 20 bs /\
                      (20 < buf -> 5 * buf * nodes <= ncount)).
Proof.
  intros Hn Hs Hb. unfold run_mpi_plan. replace (negb (0 <? bs)) with false by lia.
  destruct (Z.ltb_spec ncount 100) as [Hl|Hl].
  - exists 1, ncount. split; [reflexivity|]. lia.
  - unfold py_div. destruct (Z.eqb_spec nodes 0); [lia|]. cbn [bind Z.eqb].
    do 2 eexists. split; [reflexivity|]. split; [lia|]. split; [lia|]. split; [lia|]. intros _.
    split; [reflexivity|]. split; [lia|]. intro H20.
    assert (H : Z.max 20 (Z.min (ncount / nodes / 5) bs) <= ncount / nodes / 5) by lia.
    rewrite Z.div_div in H by lia.
    set (x := Z.max 20 (Z.min (ncount / nodes / 5) bs)) in *.
    assert (H2 : nodes * 5 * (ncount / (nodes * 5)) <= ncount) by (apply Z.mul_div_le; lia).
    nia.
Qed.
