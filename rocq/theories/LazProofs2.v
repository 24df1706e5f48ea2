(** Proofs for C63 and C64: the comments as a dictionary, the columns. *)
From Coq Require Import Ascii Reals.
From Verif Require Import Base PyStr RotModel PeakModel LazModel LazSpec LazProofs.
Open Scope Z_scope.

(** ** Names of comments *)
Lemma prefix_iff : forall a b, String.prefix a b = true <-> exists r, b = (a ++ r)%string.
Proof.
  induction a as [|c a IH]; intros b; [cbn; split; [now exists b|destruct b; reflexivity]|]. destruct b as [|d b]; cbn [prefix append].
  - split; [discriminate|intros [r E]; discriminate E].
  - destruct (ascii_dec c d) as [->|N]; [rewrite IH|split; [discriminate|intros [r E]; congruence]].
    split; intros [r E]; exists r; congruence.
Qed.
Lemma lower_is : forall c d, In d ["a"; "t"; "o"; "m"]%char -> lower_char c = d -> c = d \/ c = ascii_of_nat (nat_of_ascii d - 32).
Proof.
  intros c d D E. destruct c as [b0 b1 b2 b3 b4 b5 b6 b7].
  destruct b0, b1, b2, b3, b4, b5, b6, b7; vm_compute in E; cbn in D; destruct D as [<-|[<-|[<-|[<-|[]]]]]; try discriminate E; (left; reflexivity) || (right; reflexivity).
Qed.
Lemma atom_prefix : forall w, String.prefix "atom" (lower w) = true <-> atom_word w.
Proof.
  intros w. rewrite prefix_iff. split.
  - intros [r E]. destruct w as [|a [|t [|o [|m w]]]]; cbn [lower append] in E; try discriminate E. exists a, t, o, m, w. injection E as A T O M _. split; [reflexivity|].
    split; [|split; [|split]]; match goal with H : lower_char ?c = ?d |- ?c = _ \/ _ => destruct (lower_is c d ltac:(cbn; tauto) H) as [->| ->]; [now left|right; reflexivity] end.
  - intros (a & t & o & m & r & -> & A & T & O & M). exists (lower r). destruct A as [-> | ->], T as [-> | ->], O as [-> | ->], M as [-> | ->]; reflexivity.
Qed.
Definition key_of (ws : list string) : option string :=
  match ws with
  | _ :: k :: rest => if String.prefix "atom" (lower k) then match rest with [] => None | x :: _ => Some (k ++ "_" ++ x)%string end else Some k
  | _ => None
  end.
Lemma named_key : forall ws k, named ws k <-> key_of ws = Some k.
Proof.
  intros ws k. split.
  - intros [w k0 l NA|w k0 x l A]; cbn [key_of].
    + destruct (String.prefix "atom" (lower k0)) eqn:E; [|reflexivity]. apply atom_prefix in E. contradiction.
    + rewrite (proj2 (atom_prefix k0) A). reflexivity.
  - destruct ws as [|w [|k0 l]]; try discriminate. cbn [key_of]. destruct (String.prefix "atom" (lower k0)) eqn:E.
    + apply atom_prefix in E. destruct l as [|x l]; [discriminate|]. intros H. injection H as <-. now constructor.
    + intros H. injection H as <-. constructor. intros A. apply atom_prefix in A. congruence.
Qed.
Lemma strip_word : forall w, w <> EmptyString -> all_chars (fun c => is_space c = false) w -> strip w = w.
Proof.
  intros w N H. unfold strip. destruct w as [|c w]; [congruence|]. cbn [lstrip]. rewrite (proj1 H). clear N. induction w as [|d w IH] in c, H |- *.
  - cbn. rewrite (proj1 H). reflexivity.
  - change (rstrip (String c (String d w))) with (let r := rstrip (String d w) in if (is_space c && is_empty r)%bool then EmptyString else String c r). cbv zeta. rewrite (IH d (proj2 H)), (proj1 H). reflexivity.
Qed.
Lemma layout_words : forall l ws, layout l ws -> Forall word ws.
Proof. induction 1; constructor; assumption. Qed.
Lemma key_layout : forall l ws, layout l ws -> (List.length ws <= 1)%nat \/ (exists k, named ws k) -> comment_key l = Ok (key_of ws).
Proof.
  intros l ws H N. unfold comment_key. rewrite (words_layout l ws H). destruct ws as [|w [|k rest]]; try reflexivity.
  pose proof (layout_words _ _ H) as F. apply Forall_inv_tail, Forall_inv in F. destruct (word_nospace k F) as [K1 K2]. rewrite (strip_word k K1 K2). cbn [key_of].
  destruct (String.prefix "atom" (lower k)) eqn:E; [|reflexivity]. destruct rest as [|x rest]; [|reflexivity]. exfalso. destruct N as [N|(k0 & N)]; [cbn in N; lia|].
  apply named_key in N. cbn [key_of] in N. rewrite E in N. discriminate N.
Qed.

(** ** The dictionary *)
Definition keyed (f : list line) : dict :=
  flat_map (fun l => if hashed l then match key_of (snd l) with Some k => [(k, fst l)] | None => [] end else []) f.
Lemma keyed_in : forall f k s, In (k, s) (keyed f) <-> exists l, In l f /\ comment_line l /\ named (snd l) k /\ fst l = s.
Proof.
  intros f k s. unfold keyed. rewrite in_flat_map. split.
  - intros (l & I & H). exists l. destruct (hashed l) eqn:E; [|destruct H]. destruct (key_of (snd l)) eqn:Q; [|destruct H]. destruct H as [H|[]]. injection H as -> <-.
    split; [exact I|]. split; [now apply hashed_comment|]. split; [now apply named_key|reflexivity].
  - intros (l & I & C & N & <-). exists l. split; [exact I|]. rewrite (proj2 (hashed_comment l) C), (proj1 (named_key _ _) N). now left.
Qed.
Lemma has_key : forall (d : dict) ky, existsb (fun kv => String.eqb (fst kv) ky) d = true <-> In ky (map fst d).
Proof.
  intros d ky. rewrite existsb_exists, in_map_iff. split; intros (x & A & B); exists x; [split; [now apply String.eqb_eq|exact A]|split; [exact B|now apply String.eqb_eq]].
Qed.
Lemma remarks_in : forall f ws, In ws (remarks f) <-> exists l, In l f /\ comment_line l /\ snd l = ws.
Proof.
  intros f ws. unfold remarks. rewrite in_map_iff. split.
  - intros (l & E & I). apply filter_In in I. exists l. split; [tauto|]. split; [apply hashed_comment; exact (proj2 I)|exact E].
  - intros (l & I & C & E). exists l. split; [exact E|]. apply filter_In. split; [exact I|]. exact (proj2 (hashed_comment l) C).
Qed.
Lemma nameable_tail : forall l f, nameable (l :: f) -> nameable f.
Proof. intros l f H ws I. apply H. apply remarks_in in I. destruct I as (x & A & B & C). apply remarks_in. exists x. split; [now right|now split]. Qed.
Lemma read_ok : forall f d, well_formed f -> nameable f -> NoDup (map fst (d ++ keyed f)) -> read_comments d (map fst f) = Ok (d ++ keyed f).
Proof.
  induction f as [|l f IH]; intros d W N ND; cbn [map read_comments]; [unfold keyed; cbn; now rewrite app_nil_r|].
  rewrite is_comment_hashed. unfold keyed in *. cbn [flat_map] in *. fold (keyed f) in *. pose proof (nameable_tail _ _ N) as N'. pose proof (Forall_inv_tail W) as W'.
  destruct (hashed l) eqn:C; [|now apply IH].
  rewrite (key_layout (fst l) (snd l) (proj1 (Forall_inv W))).
  2:{ apply N. apply remarks_in. exists l. split; [now left|]. split; [now apply hashed_comment|reflexivity]. }
  cbn [bind]. destruct (key_of (snd l)) as [k|]; [|now apply IH]. cbn [app] in *.
  destruct (existsb _ d) eqn:E.
  - exfalso. apply has_key in E. rewrite map_app in ND. cbn [map fst] in ND. apply NoDup_remove_2 in ND. apply ND. apply in_or_app. now left.
  - rewrite (IH (d ++ [(k, fst l)])); [now rewrite <- app_assoc|exact W'|exact N'|]. now rewrite <- app_assoc.
Qed.
Lemma read_dup : forall f d, well_formed f -> nameable f -> NoDup (map fst d) -> ~ NoDup (map fst (d ++ keyed f)) -> read_comments d (map fst f) = Err RuntimeError.
Proof.
  induction f as [|l f IH]; intros d W N D ND; cbn [map read_comments].
  { exfalso. apply ND. unfold keyed. cbn. now rewrite app_nil_r. }
  rewrite is_comment_hashed. unfold keyed in *. cbn [flat_map] in *. fold (keyed f) in *. pose proof (nameable_tail _ _ N) as N'. pose proof (Forall_inv_tail W) as W'.
  destruct (hashed l) eqn:C; [|now apply IH].
  rewrite (key_layout (fst l) (snd l) (proj1 (Forall_inv W))).
  2:{ apply N. apply remarks_in. exists l. split; [now left|]. split; [now apply hashed_comment|reflexivity]. }
  cbn [bind]. destruct (key_of (snd l)) as [k|]; [|now apply IH]. cbn [app] in *.
  destruct (existsb _ d) eqn:E; [reflexivity|]. apply IH; [exact W'|exact N'| |now rewrite <- app_assoc].
  rewrite map_app. cbn [map fst]. apply NoDup_Add with (a := k) (l := map fst d). { pose proof (Add_app k (map fst d) []) as A. rewrite app_nil_r in A. exact A. }
  split; [exact D|]. intros I. apply has_key in I. congruence.
Qed.
Lemma keyed_app : forall a b, keyed (a ++ b) = keyed a ++ keyed b.
Proof. intros. apply flat_map_app. Qed.
Lemma keyed_one : forall l k, comment_line l -> named (snd l) k -> keyed [l] = [(k, fst l)].
Proof. intros l k C N. unfold keyed. cbn [flat_map]. rewrite (proj2 (hashed_comment l) C), (proj1 (named_key _ _) N). reflexivity. Qed.
Lemma distinct_keys : forall f, distinct_names f -> NoDup (map fst (keyed f)).
Proof.
  induction f as [|l f IH]; intros D; [constructor|]. change (keyed (l :: f)) with (keyed ([l] ++ f)). rewrite keyed_app, map_app.
  assert (D' : distinct_names f) by (intros f1 l1 f2 l2 f3 k E; apply (D (l :: f1) l1 f2 l2 f3 k); cbn; now rewrite E).
  specialize (IH D'). destruct (hashed l) eqn:C.
  2:{ unfold keyed at 1. cbn [flat_map]. rewrite C. exact IH. }
  destruct (key_of (snd l)) as [k|] eqn:K.
  2:{ unfold keyed at 1. cbn [flat_map]. rewrite C, K. exact IH. }
  apply named_key in K. apply hashed_comment in C. rewrite (keyed_one l k C K). cbn [map fst app]. constructor; [|exact IH].
  intros I. apply in_map_iff in I. destruct I as ((k' & s) & E & I). cbn in E. subst k'. apply keyed_in in I. destruct I as (l2 & I & C2 & N2 & _).
  apply in_split in I. destruct I as (f2 & f3 & ->). exact (D [] l f2 l2 f3 k eq_refl C C2 K N2).
Qed.
Lemma same_keys : forall f, same_names f -> ~ NoDup (map fst (keyed f)).
Proof.
  intros f (f1 & l1 & f2 & l2 & f3 & k & -> & C1 & C2 & N1 & N2) ND.
  change (f1 ++ l1 :: f2 ++ l2 :: f3) with (f1 ++ [l1] ++ f2 ++ [l2] ++ f3) in ND. rewrite !keyed_app, !map_app, (keyed_one l1 k C1 N1), (keyed_one l2 k C2 N2) in ND. cbn [map fst app] in ND.
  apply NoDup_remove_2 in ND. apply ND. apply in_or_app. right. apply in_or_app. right. now left.
Qed.
Lemma drop_read : forall f d, Forall (fun l => hashed l = true -> fst l <> EmptyString) f -> read_comments d (drop_last_empty (map fst f)) = read_comments d (map fst f).
Proof.
  induction f as [|l f IH]; intros d H; [reflexivity|]. destruct f as [|l2 f].
  - cbn [map drop_last_empty]. destruct (fst l) as [|c s] eqn:E; [|reflexivity]. cbn. reflexivity.
  - change (drop_last_empty (map fst (l :: l2 :: f))) with (fst l :: drop_last_empty (map fst (l2 :: f))). cbn [map]. specialize (IH d (Forall_inv_tail H)) as IH0.
    cbn [read_comments]. destruct (is_comment (fst l)); [|exact IH0]. destruct (comment_key (fst l)) as [[ky|]|]; cbn [bind]; [|exact IH0|reflexivity].
    destruct (existsb _ d); [reflexivity|]. exact (IH _ (Forall_inv_tail H)).
Qed.
Lemma read_text : forall f d, well_formed f -> f <> [] -> read_comments d (splitlines (text_of f)) = read_comments d (map fst f).
Proof.
  intros f d W N. rewrite (splitlines_text f W N). apply drop_read. apply Forall_forall. intros l _ H E. unfold hashed in H. rewrite E in H. discriminate H.
Qed.

(** ** Lookups *)
Lemma lookup_in : forall A (d : list (string * A)) k v, NoDup (map fst d) -> In (k, v) d -> lookup d k = Ok v.
Proof.
  induction d as [|(k' & v') d IH]; intros k v ND I; [destruct I|]. cbn [map fst] in ND. apply NoDup_cons_iff in ND. destruct ND as [N ND]. cbn [lookup]. destruct I as [E|I].
  - injection E as -> ->. now rewrite String.eqb_refl.
  - destruct (String.eqb k' k) eqn:E; [|now apply IH]. apply String.eqb_eq in E. subst k'. exfalso. apply N. apply in_map_iff. now exists (k, v).
Qed.
Lemma not_atom : forall w, (match w with String "c" _ | String "C" _ | String "s" _ | String "n" _ => true | _ => false end) = true -> ~ atom_word w.
Proof. intros w H (a & t & o & m & r & -> & A & _). destruct A as [-> | ->]; discriminate H. Qed.
Lemma keyed_remark : forall f w k ws, well_formed f -> ~ atom_word k -> In (w :: k :: ws) (remarks f) -> exists s, In (k, s) (keyed f) /\ layout s (w :: k :: ws) /\ exists t, s = String "#" t.
Proof.
  intros f w k ws W NA I. apply remarks_in in I. destruct I as (l & I & C & E). exists (fst l). split; [|split].
  - apply keyed_in. exists l. split; [exact I|]. split; [exact C|]. split; [rewrite E; now constructor|reflexivity].
  - pose proof (proj1 (Forall_forall _ _) W l I) as [H _]. now rewrite E in H.
  - exact C.
Qed.
Lemma keyed_plain : forall f k s, well_formed f -> ~ (exists a b, k = (a ++ "_" ++ b)%string /\ atom_word a) -> In (k, s) (keyed f) -> exists w ws, In (w :: k :: ws) (remarks f) /\ layout s (w :: k :: ws).
Proof.
  intros f k s W NA I. apply keyed_in in I. destruct I as (l & I & C & N & <-). pose proof (proj1 (Forall_forall _ _) W l I) as [H _].
  assert (R : In (snd l) (remarks f)) by (apply remarks_in; now exists l).
  destruct N as [w k0 ws NA0|w k0 x ws A]; [now exists w, ws|]. exfalso. apply NA. now exists k0, x.
Qed.

(** ** Columns *)
Lemma at_third : forall (w k x : string) ws, at_index (w :: k :: x :: ws) 2 = Ok x.
Proof.
  intros. unfold at_index. change (2 <? 0) with false. cbv iota. change (2 <? 0) with false. cbn [List.length orb].
  rewrite (proj2 (Z.leb_gt _ 2)) by lia. reflexivity.
Qed.
Lemma col_idx_ok : forall (d : dict), (forall k s, In (k, s) d -> String.prefix "column" k = true -> exists w k' n ws, words s = w :: k' :: str_of_Z n :: ws) -> NoDup (map fst d) ->
  exists cols, col_idx d = Ok cols /\ (forall k, In k (map fst cols) -> In k (map fst d)) /\
    forall k s w k' n ws, In (k, s) d -> String.prefix "column" k = true -> words s = w :: k' :: str_of_Z n :: ws -> lookup cols k = Ok (n - 1).
Proof.
  induction d as [|(k & s) d IH]; intros H ND. { exists []. split; [reflexivity|]. split; [intros k []|intros k s w k' n ws []]. }
  cbn [map fst] in ND. apply NoDup_cons_iff in ND. destruct ND as [N ND]. destruct (IH (fun k s I => H k s (or_intror I)) ND) as (cols & E & K & L). cbn [col_idx].
  destruct (String.prefix "column" k) eqn:P.
  - destruct (H k s (or_introl eq_refl) P) as (w & k' & n & ws & Q). rewrite Q, at_third. cbn [bind]. rewrite py_int_str. cbn [number bind]. rewrite E. cbn [bind].
    exists ((k, n - 1) :: cols). split; [reflexivity|]. split.
    + cbn [map fst]. intros x [<-|I]; [now left|right; now apply K].
    + intros x s1 w1 k1 n1 ws1 [EQ|I] PX Q1; cbn [lookup].
      * injection EQ as <- <-. rewrite String.eqb_refl. rewrite Q in Q1. injection Q1 as _ _ QN _. apply str_of_Z_inj in QN. now subst.
      * destruct (String.eqb k x) eqn:EX; [|eapply L; eassumption]. apply String.eqb_eq in EX. subst x. exfalso. apply N. apply in_map_iff. now exists (k, s1).
  - exists cols. split; [exact E|]. split; [intros x I; right; now apply K|]. intros x s1 w1 k1 n1 ws1 [EQ|I] PX Q1; [|eapply L; eassumption]. injection EQ as <- <-. congruence.
Qed.
Lemma column_not_atom : forall r, ~ (exists a b, ("column" ++ r)%string = (a ++ "_" ++ b)%string /\ atom_word a).
Proof. intros r (a & b & E & (c & t & o & m & r' & -> & A & _)). cbn in E. injection E as E _. destruct A as [-> | ->]; discriminate E. Qed.
Lemma columns : forall f, well_formed f -> distinct_names f -> columns_ok f ->
  exists cols, col_idx (keyed f) = Ok cols /\ forall r n, column f ("column" ++ r) n -> lookup cols ("column" ++ r)%string = Ok (n - 1) /\ 1 <= n.
Proof.
  intros f W D CO. destruct (col_idx_ok (keyed f)) as (cols & E & _ & L).
  - intros k s I P. apply prefix_iff in P. destruct P as [r ->]. destruct (keyed_plain f _ s W (column_not_atom r) I) as (w & ws & R & LY).
    destruct (CO w r ws R) as (n & ws' & ->). exists w, ("column" ++ r)%string, n, ws'. now apply words_layout.
  - now apply distinct_keys.
  - exists cols. split; [exact E|]. intros r n (w & ws & I & P). split; [|exact P].
    destruct (keyed_remark f w ("column" ++ r) (str_of_Z n :: ws) W (not_atom ("column" ++ r)%string eq_refl) I) as (s & I2 & LY & _).
    eapply L; [exact I2|apply prefix_iff; now exists r|]. apply words_layout. exact LY.
Qed.
Lemma cell_entry : forall cols row name n w, lookup cols name = Ok (n - 1) -> entry row n w -> cell cols row name = Ok w.
Proof.
  intros cols row name n w L [P E]. unfold cell. rewrite L. cbn [bind]. unfold at_index. rewrite (proj2 (Z.ltb_ge (n - 1) 0)) by lia. cbv iota.
  rewrite (proj2 (Z.ltb_ge (n - 1) 0)) by lia. assert (Q : (Z.to_nat (n - 1) < List.length row)%nat) by (apply nth_error_Some; congruence).
  rewrite (proj2 (Z.leb_gt _ (n - 1))) by lia. cbn [orb]. now rewrite E.
Qed.
