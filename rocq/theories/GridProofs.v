(** Proofs for C41. *)
From Coq Require Import Reals Lra Psatz.
From Verif Require Import Base RotModel DetModel ChanModel ShapeModel GridModel GridSpec ChanProofs.
Open Scope R_scope.

Lemma Reqb_t a b : Reqb a b = true <-> a = b.
Proof. unfold Reqb. destruct (Req_EM_T a b); split; intros; try discriminate; auto; contradiction. Qed.
Lemma Reqb_f a b : Reqb a b = false <-> a <> b.
Proof. unfold Reqb. destruct (Req_EM_T a b); split; intros; try discriminate; auto; contradiction. Qed.

Lemma split_spec i r : INR i <= r < INR i + 1 -> split_at r = (i, r - INR i).
Proof.
  intros H. unfold split_at. rewrite (floor_unique r (Z.of_nat i)) by (rewrite <- INR_IZR_INZ; exact H).
  rewrite Nat2Z.id. reflexivity.
Qed.
Lemma split_zero : split_at 0 = (0%nat, 0).
Proof. rewrite (split_spec 0) by (cbn; lra). f_equal. cbn. lra. Qed.
Lemma floor_nat r : 0 <= r -> exists i, INR i <= r < INR i + 1.
Proof.
  intros H. exists (Z.to_nat (floorZ r)). rewrite INR_IZR_INZ, Z2Nat.id by (apply floor_nonneg; exact H). apply floor_bounds.
Qed.
Lemma INR_lt_of i n r : INR i <= r -> r < INR n -> (i < n)%nat.
Proof. intros A B. apply INR_lt. lra. Qed.

Lemma ratio_ok a x : a_step a <> 0 -> ratio a x = Ok ((x - a_start a) / a_step a).
Proof. intros H. unfold ratio. rewrite (proj2 (Reqb_f _ _) H). reflexivity. Qed.
Lemma ratio_at a i t : a_step a <> 0 -> ratio a (tick (a_start a) (a_step a) i + t * a_step a) = Ok (INR i + t).
Proof. intros H. rewrite ratio_ok by exact H. f_equal. unfold tick. field. exact H. Qed.
Lemma off_in a r : 0 <= r < INR (a_n a) -> off_axis a r = false.
Proof. intros [A B]. unfold off_axis. rewrite (proj2 (Rltb_f _ _) A), (proj2 (Rleb_false _ _) B). reflexivity. Qed.
Lemma off_out a r : ~ (0 <= r < INR (a_n a)) -> off_axis a r = true.
Proof.
  intros H. unfold off_axis. destruct (Rltb r 0) eqn:A; [reflexivity|]. destruct (Rleb (INR (a_n a)) r) eqn:B; [reflexivity|].
  apply Rltb_f in A. apply Rleb_false in B. lra.
Qed.

Lemma index1_at a i t : a_step a <> 0 -> (i < a_n a)%nat -> 0 <= t < 1 ->
  index_1D a (tick (a_start a) (a_step a) i + t * a_step a) = Ok (i, t).
Proof.
  intros S I T. unfold index_1D. rewrite ratio_at by exact S. cbn [bind].
  assert (INR i + 1 <= INR (a_n a)) by (rewrite <- S_INR; apply le_INR; lia).
  pose proof (pos_INR i). rewrite off_in by lra. rewrite (split_spec i) by lra. do 2 f_equal. lra.
Qed.
Lemma index3_at a i t : a_step a <> 0 -> (i < a_n a)%nat -> 0 <= t < 1 ->
  index_3D a (tick (a_start a) (a_step a) i + t * a_step a) = Ok (i, t).
Proof.
  intros S I T. unfold index_3D. rewrite ratio_at by exact S. cbn [bind].
  assert (INR i + 1 <= INR (a_n a)) by (rewrite <- S_INR; apply le_INR; lia).
  pose proof (pos_INR i). rewrite off_in by lra. rewrite (split_spec i) by lra. do 2 f_equal. lra.
Qed.
(* every accepted position is of the form used above *)
Lemma placed a x : a_step a <> 0 -> 0 <= (x - a_start a) / a_step a < INR (a_n a) ->
  exists i t, (i < a_n a)%nat /\ 0 <= t < 1 /\ x = tick (a_start a) (a_step a) i + t * a_step a
    /\ (x - a_start a) / a_step a = INR i + t.
Proof.
  intros S H. destruct (floor_nat _ (proj1 H)) as [i Hi]. exists i, ((x - a_start a) / a_step a - INR i).
  split; [eapply INR_lt_of; [apply Hi|apply H]|]. split; [lra|]. split; [|lra]. unfold tick. field. exact S.
Qed.

Lemma mix_interp t a b : interp1D_01 a b t = mix t a b.
Proof. unfold interp1D_01, mix. ring. Qed.
Lemma vget_nth l i : (i < List.length l)%nat -> vget l i = Ok (nth i l 0).
Proof. intros H. unfold vget. rewrite (nth_error_nth' l 0 H). reflexivity. Qed.

Theorem line_interpolates : forall a data i t,
  a_step a <> 0 -> (a_n a < List.length data)%nat -> (i < a_n a)%nat -> 0 <= t < 1 ->
  grid1 a data (tick (a_start a) (a_step a) i + t * a_step a) = Ok (mix t (nth i data 0) (nth (S i) data 0)).
Proof.
  intros a data i t S L I T. unfold grid1. rewrite index1_at by assumption. cbn [bind].
  rewrite vget_nth by lia. cbn [bind]. rewrite vget_nth by lia. cbn [bind]. rewrite mix_interp. reflexivity.
Qed.
Theorem line_domain : forall a data x,
  a_step a <> 0 -> (a_n a < List.length data)%nat ->
  (0 <= (x - a_start a) / a_step a < INR (a_n a) -> exists y, grid1 a data x = Ok y)
  /\ (~ (0 <= (x - a_start a) / a_step a < INR (a_n a)) -> grid1 a data x = Err CppException).
Proof.
  intros a data x S L. split; intros H.
  - destruct (placed a x S H) as (i & t & I & T & X & _). rewrite X. rewrite line_interpolates by assumption. eauto.
  - unfold grid1, index_1D. rewrite ratio_ok by exact S. cbn [bind]. rewrite off_out by exact H. reflexivity.
Qed.
Theorem step_zero : forall start n data x, exists e, grid1 (mkAxis start 0 n) data x = Err e.
Proof.
  intros. unfold grid1, index_1D, ratio. cbn [a_step a_start]. rewrite (proj2 (Reqb_t 0 0) eq_refl).
  destruct (Reqb x start); eexists; reflexivity.
Qed.

(** ** piecewise linear functions of the position in steps *)
Definition pw (d : nat -> R) (r : R) : R := let i := fst (split_at r) in mix (snd (split_at r)) (d i) (d (S i)).
Lemma pw_at d i t : 0 <= t < 1 -> pw d (INR i + t) = mix t (d i) (d (S i)).
Proof. intros T. unfold pw. rewrite (split_spec i) by lra. cbn [fst snd]. f_equal. lra. Qed.
Lemma mix_range lo hi t a b : 0 <= t <= 1 -> lo <= a <= hi -> lo <= b <= hi -> lo <= mix t a b <= hi.
Proof. intros T A B. unfold mix. split; nra. Qed.
Lemma abs_le x M : Rabs x <= M -> - M <= x <= M.
Proof. intros H. unfold Rabs in H. destruct (Rcase_abs x); lra. Qed.
Lemma mix_abs M t a b : 0 <= t <= 1 -> Rabs a <= M -> Rabs b <= M -> Rabs (mix t a b) <= M.
Proof. intros T A B. apply Rabs_le. apply abs_le in A. apply abs_le in B. apply mix_range; lra. Qed.
Lemma steps d M n i j : (forall k, (k < n)%nat -> Rabs (d (S k) - d k) <= M) -> (i + j <= n)%nat ->
  Rabs (d (i + j)%nat - d i) <= M * INR j.
Proof.
  intros H. induction j as [|j IH]; intros L.
  - rewrite Nat.add_0_r. replace (d i - d i) with 0 by ring. rewrite Rabs_R0. cbn. lra.
  - rewrite <- plus_n_Sm, S_INR. replace (d (S (i + j)) - d i) with ((d (S (i + j)) - d (i + j)%nat) + (d (i + j)%nat - d i)) by ring.
    eapply Rle_trans; [apply Rabs_triang|]. specialize (H (i + j)%nat ltac:(lia)). specialize (IH ltac:(lia)). lra.
Qed.
Lemma pw_lip_le d M n r s : (forall k, (k < n)%nat -> Rabs (d (S k) - d k) <= M) -> 0 <= r -> r <= s -> s < INR n ->
  Rabs (pw d s - pw d r) <= M * (s - r).
Proof.
  intros H R0 RS SN. destruct (floor_nat r R0) as [i I]. destruct (floor_nat s) as [j J]; [lra|].
  assert (Ln : (j < n)%nat) by (eapply INR_lt_of; [apply J|exact SN]).
  assert (Hj := H j Ln). assert (Hi : (i <= j)%nat) by (apply INR_le; assert (INR i < INR (S j)) by (rewrite S_INR; lra); apply INR_lt in H0; apply le_INR; lia).
  replace r with (INR i + (r - INR i)) at 1 by ring. replace s with (INR j + (s - INR j)) at 1 by ring.
  rewrite !pw_at by lra. set (t := r - INR i) in *. set (u := s - INR j) in *.
  destruct (Nat.eq_dec i j) as [->|N].
  - replace (mix u (d j) (d (S j)) - mix t (d j) (d (S j))) with ((u - t) * (d (S j) - d j)) by (unfold mix; ring).
    rewrite Rabs_mult. replace (s - r) with (u - t) by (unfold u, t; ring). rewrite (Rabs_pos_eq (u - t)) by (unfold u, t; lra).
    rewrite Rmult_comm. apply Rmult_le_compat_r; [unfold u, t; lra|exact Hj].
  - replace (mix u (d j) (d (S j)) - mix t (d i) (d (S i)))
      with (u * (d (S j) - d j) + (d j - d (S i)) + (1 - t) * (d (S i) - d i)) by (unfold mix; ring).
    assert (A : Rabs (d j - d (S i)) <= M * INR (j - S i)).
    { replace j with (S i + (j - S i))%nat at 1 by lia. apply (steps d M n); [exact H|lia]. }
    assert (B := H i ltac:(lia)). rewrite minus_INR, S_INR in A by lia.
    eapply Rle_trans; [apply Rabs_triang|]. eapply Rle_trans; [apply Rplus_le_compat_r, Rabs_triang|].
    rewrite !Rabs_mult. rewrite (Rabs_pos_eq u), (Rabs_pos_eq (1 - t)) by (unfold u, t; lra).
    assert (u * Rabs (d (S j) - d j) <= u * M) by (apply Rmult_le_compat_l; [unfold u; lra|exact Hj]).
    assert ((1 - t) * Rabs (d (S i) - d i) <= (1 - t) * M) by (apply Rmult_le_compat_l; [unfold t; lra|exact B]).
    unfold u, t in *. nra.
Qed.
Lemma pw_lip d M n r s : (forall k, (k < n)%nat -> Rabs (d (S k) - d k) <= M) -> 0 <= r < INR n -> 0 <= s < INR n ->
  Rabs (pw d s - pw d r) <= M * Rabs (s - r).
Proof.
  intros H R S. destruct (Rle_dec r s) as [L|L].
  - rewrite (Rabs_pos_eq (s - r)) by lra. apply (pw_lip_le d M n); lra || exact H.
  - rewrite (Rabs_minus_sym (pw d s)), (Rabs_minus_sym s), (Rabs_pos_eq (r - s)) by lra. apply (pw_lip_le d M n); lra || exact H.
Qed.
Lemma pw_bound d M n r : (forall k, (k <= n)%nat -> Rabs (d k) <= M) -> 0 <= r < INR n -> Rabs (pw d r) <= M.
Proof.
  intros H [A B]. destruct (floor_nat r A) as [i I]. replace r with (INR i + (r - INR i)) by ring. rewrite pw_at by lra.
  assert (i < n)%nat by (eapply INR_lt_of; [apply I|exact B]). apply mix_abs; [lra|apply H; lia|apply H; lia].
Qed.
Lemma pw_minus d d' r : pw (fun i => d i - d' i) r = pw d r - pw d' r.
Proof. unfold pw, mix. ring. Qed.

Theorem line_steep : forall a data M x x' y y',
  a_step a <> 0 -> (a_n a < List.length data)%nat ->
  (forall i, (i < a_n a)%nat -> Rabs (nth (S i) data 0 - nth i data 0) <= M) ->
  grid1 a data x = Ok y -> grid1 a data x' = Ok y' ->
  Rabs (y - y') <= M * (Rabs (x - x') / Rabs (a_step a)).
Proof.
  assert (E : forall a data x y, a_step a <> 0 -> (a_n a < List.length data)%nat -> grid1 a data x = Ok y ->
    let r := (x - a_start a) / a_step a in 0 <= r < INR (a_n a) /\ y = pw (fun i => nth i data 0) r).
  { intros a data x y S L G r.
    destruct (Rle_dec 0 r) as [A|A]; [destruct (Rlt_dec r (INR (a_n a))) as [B|B]|].
    2,3: rewrite (proj2 (line_domain a data x S L)) in G by (fold r; lra); discriminate.
    split; [lra|]. destruct (placed a x S (conj A B)) as (i & t & I & T & X & Rr).
    rewrite X, line_interpolates in G by assumption. injection G as <-. fold r in Rr. rewrite Rr, pw_at by exact T. reflexivity. }
  intros a data M x x' y y' S L H G G'. destruct (E _ _ _ _ S L G) as [A ->]. destruct (E _ _ _ _ S L G') as [A' ->].
  eapply Rle_trans; [apply (pw_lip _ M (a_n a)); [exact H|exact A'|exact A]|].
  replace ((x - a_start a) / a_step a - (x' - a_start a) / a_step a) with ((x - x') / a_step a) by (field; exact S).
  unfold Rdiv at 1. rewrite Rabs_mult, Rabs_inv. apply Rle_refl.
Qed.
Theorem line_between : forall a data x y,
  a_step a <> 0 -> (a_n a < List.length data)%nat -> grid1 a data x = Ok y ->
  exists i, (i < a_n a)%nat
    /\ Rmin (tick (a_start a) (a_step a) i) (tick (a_start a) (a_step a) (S i)) <= x <= Rmax (tick (a_start a) (a_step a) i) (tick (a_start a) (a_step a) (S i))
    /\ Rmin (nth i data 0) (nth (S i) data 0) <= y <= Rmax (nth i data 0) (nth (S i) data 0).
Proof.
  intros a data x y S L G.
  destruct (Rle_dec 0 ((x - a_start a) / a_step a)) as [A|A]; [destruct (Rlt_dec ((x - a_start a) / a_step a) (INR (a_n a))) as [B|B]|].
  2,3: rewrite (proj2 (line_domain a data x S L)) in G by lra; discriminate.
  destruct (placed a x S (conj A B)) as (i & t & I & T & X & _). rewrite X, line_interpolates in G by assumption. injection G as <-.
  exists i. split; [exact I|]. split.
  - replace x with (mix t (tick (a_start a) (a_step a) i) (tick (a_start a) (a_step a) (1 + i)))
      by (rewrite X; unfold mix, tick; rewrite S_INR; ring).
    apply mix_range; [lra| |]; split; auto using Rmin_l, Rmin_r, Rmax_l, Rmax_r.
  - apply mix_range; [lra| |]; split; auto using Rmin_l, Rmin_r, Rmax_l, Rmax_r.
Qed.
Theorem line_affine : forall a data p q x y,
  a_step a <> 0 -> (a_n a < List.length data)%nat ->
  (forall i, (i <= a_n a)%nat -> nth i data 0 = p + q * tick (a_start a) (a_step a) i) ->
  grid1 a data x = Ok y -> y = p + q * x.
Proof.
  intros a data p q x y S L H G.
  destruct (Rle_dec 0 ((x - a_start a) / a_step a)) as [A|A]; [destruct (Rlt_dec ((x - a_start a) / a_step a) (INR (a_n a))) as [B|B]|].
  2,3: rewrite (proj2 (line_domain a data x S L)) in G by lra; discriminate.
  destruct (placed a x S (conj A B)) as (i & t & I & T & X & _). rewrite X, line_interpolates in G by assumption. injection G as <-.
  rewrite !H by lia. rewrite X. unfold mix, tick. rewrite S_INR. ring.
Qed.

(** ** three dimensions *)
Lemma getitem_in d x y z : (x < s0 d)%nat -> (y < s1 d)%nat -> (z < s2 d)%nat -> getitem d x y z = Ok (cell3 d x y z).
Proof.
  intros X Y Z. unfold getitem. rewrite (proj2 (Nat.ltb_lt _ _) X), (proj2 (Nat.ltb_lt _ _) Y), (proj2 (Nat.ltb_lt _ _) Z). reflexivity.
Qed.
Lemma getitem_out d x y z : ~ ((x < s0 d)%nat /\ (y < s1 d)%nat /\ (z < s2 d)%nat) -> getitem d x y z = Err CppException.
Proof.
  intros H. unfold getitem. destruct (Nat.ltb x (s0 d) && Nat.ltb y (s1 d) && Nat.ltb z (s2 d))%bool eqn:E; [|reflexivity].
  apply andb_prop in E. destruct E as [E C]. apply andb_prop in E. destruct E as [A B].
  apply Nat.ltb_lt in A, B, C. tauto.
Qed.
Lemma new_grid_iff x y z d g : new_grid3 x y z d = Ok g <->
  g = mkG3 x y z d /\ (a_n x < s0 d)%nat /\ (a_n y < s1 d)%nat /\ (a_n z < s2 d)%nat.
Proof.
  unfold new_grid3. split.
  - intros H. unfold getitem in H. destruct (Nat.ltb (a_n x) (s0 d) && Nat.ltb (a_n y) (s1 d) && Nat.ltb (a_n z) (s2 d))%bool eqn:E; [|discriminate].
    apply andb_prop in E. destruct E as [E C]. apply andb_prop in E. destruct E as [A B].
    apply Nat.ltb_lt in A, B, C. injection H as <-. auto.
  - intros (-> & A & B & C). rewrite getitem_in by assumption. reflexivity.
Qed.
Lemma mix3_interp u i j k t v w :
  interp3D_01 (u i j k) (u (S i) j k) (u i (S j) k) (u i j (S k)) (u i (S j) (S k)) (u (S i) j (S k)) (u (S i) (S j) k) (u (S i) (S j) (S k)) t v w
  = mix3 u i j k t v w.
Proof. unfold interp3D_01, mix3, mix. ring. Qed.

(* what an axis makes of a position: index below n, fraction in [0,1) *)
Lemma index3_range a x i t : a_step a <> 0 -> (0 < a_n a)%nat -> index_3D a x = Ok (i, t) -> (i < a_n a)%nat /\ 0 <= t < 1.
Proof.
  intros S N. unfold index_3D. rewrite ratio_ok by exact S. cbn [bind]. set (r := (x - a_start a) / a_step a).
  destruct (off_axis a r) eqn:O.
  - destruct (tiny r); [|destruct (tiny (r - INR (a_n a))); [|discriminate]]; rewrite split_zero; intros [= <- <-]; split; [lia|lra|lia|lra].
  - unfold off_axis in O. apply orb_false_elim in O. destruct O as [A B]. apply Rltb_f in A. apply Rleb_false in B.
    destruct (floor_nat r A) as [k K]. rewrite (split_spec k) by exact K. intros [= <- <-]. split; [eapply INR_lt_of; [apply K|exact B]|lra].
Qed.
Lemma linear3_at g x y z i j k t v w :
  new_grid3 (g_x g) (g_y g) (g_z g) (g_data g) = Ok g -> (i < a_n (g_x g))%nat -> (j < a_n (g_y g))%nat -> (k < a_n (g_z g))%nat ->
  index_3D (g_x g) x = Ok (i, t) -> index_3D (g_y g) y = Ok (j, v) -> index_3D (g_z g) z = Ok (k, w) ->
  linear3 g x y z = Ok (mix3 (cell3 (g_data g)) i j k t v w).
Proof.
  intros G I J K X Y Z. apply new_grid_iff in G. destruct G as (_ & A & B & C).
  unfold linear3. rewrite X, Y, Z. cbn [bind]. repeat (rewrite getitem_in by lia; cbn [bind]). rewrite mix3_interp. reflexivity.
Qed.
