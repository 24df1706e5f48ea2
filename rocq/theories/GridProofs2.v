(** Proofs for C41: three dimensions. *)
From Coq Require Import Reals Lra Psatz.
From Verif Require Import Base RotModel DetModel ChanModel ShapeModel GridModel GridSpec ChanProofs GridProofs.
Open Scope R_scope.

Lemma good_new g : good g -> new_grid3 (g_x g) (g_y g) (g_z g) (g_data g) = Ok g.
Proof. intros (H & _). apply new_grid_iff. destruct g; cbn in *. tauto. Qed.
Lemma eps_pos : 0 < / 10 ^ 7.
Proof. apply Rinv_0_lt_compat, pow_lt. lra. Qed.
Lemma eps_half : / 10 ^ 7 < / 2.
Proof. apply Rinv_lt_contravar; lra. Qed.
Lemma tiny_t x : tiny x = true <-> Rabs x < / 10 ^ 7.
Proof. apply Rltb_t. Qed.
Lemma tiny_f x : tiny x = false <-> / 10 ^ 7 <= Rabs x.
Proof. apply Rltb_f. Qed.

Theorem cell_interpolates : forall g i j k t v w,
  good g -> (i < a_n (g_x g))%nat -> (j < a_n (g_y g))%nat -> (k < a_n (g_z g))%nat ->
  0 <= t < 1 -> 0 <= v < 1 -> 0 <= w < 1 ->
  linear3 g (place (g_x g) i t) (place (g_y g) j v) (place (g_z g) k w) = Ok (mix3 (cell3 (g_data g)) i j k t v w).
Proof.
  intros g i j k t v w G0; pose proof (good_new _ G0) as G; destruct G0 as (_ & (Sx & Sy & Sz) & _); intros I J K T V W. unfold place.
  apply linear3_at; try assumption; apply index3_at; assumption.
Qed.
Lemma placed' a x : a_step a <> 0 -> on_axis a x ->
  exists i t, (i < a_n a)%nat /\ 0 <= t < 1 /\ x = place a i t /\ steps_of a x = INR i + t.
Proof. intros S H. exact (placed a x S H). Qed.

(** where a position is accepted *)
Lemma index3_cases a x : a_step a <> 0 -> (0 < a_n a)%nat ->
  (on_axis a x /\ exists i t, (i < a_n a)%nat /\ 0 <= t < 1 /\ x = place a i t /\ index_3D a x = Ok (i, t))
  \/ (~ on_axis a x /\ - / 10 ^ 7 < steps_of a x < INR (a_n a) + / 10 ^ 7 /\ index_3D a x = Ok (0%nat, 0))
  \/ (~ (- / 10 ^ 7 < steps_of a x < INR (a_n a) + / 10 ^ 7) /\ index_3D a x = Err CppException).
Proof.
  intros S N. pose proof eps_pos as E. assert (N1 : 1 <= INR (a_n a)) by (apply (le_INR 1); lia).
  destruct (Rle_dec 0 (steps_of a x)) as [A|A]; [destruct (Rlt_dec (steps_of a x) (INR (a_n a))) as [B|B]|].
  - left. split; [split; assumption|]. destruct (placed' a x S (conj A B)) as (i & t & I & T & X & _).
    exists i, t. repeat (split; [assumption|]). rewrite X. apply index3_at; assumption.
  - right. assert (O : ~ on_axis a x) by (unfold on_axis; lra). unfold index_3D. rewrite ratio_ok by exact S. cbn [bind].
    fold (steps_of a x). rewrite off_out by exact O. rewrite (proj2 (tiny_f (steps_of a x))) by (rewrite Rabs_pos_eq by lra; pose proof eps_half; lra).
    destruct (tiny (steps_of a x - INR (a_n a))) eqn:Tn.
    + left. split; [exact O|]. apply tiny_t in Tn. apply Rabs_def2 in Tn. split; [lra|]. rewrite split_zero. reflexivity.
    + right. apply tiny_f in Tn. rewrite Rabs_pos_eq in Tn by lra. split; [lra|reflexivity].
  - right. assert (O : ~ on_axis a x) by (unfold on_axis; lra). unfold index_3D. rewrite ratio_ok by exact S. cbn [bind].
    fold (steps_of a x). rewrite off_out by exact O.
    destruct (tiny (steps_of a x)) eqn:Tn.
    + left. split; [exact O|]. apply tiny_t in Tn. apply Rabs_def2 in Tn. split; [lra|]. rewrite split_zero. reflexivity.
    + right. apply tiny_f in Tn. rewrite Rabs_left in Tn by lra. rewrite (proj2 (tiny_f (steps_of a x - INR (a_n a)))).
      * split; [lra|reflexivity].
      * rewrite Rabs_left by lra. pose proof eps_half. lra.
Qed.
Lemma index3_start a : a_step a <> 0 -> (0 < a_n a)%nat -> index_3D a (a_start a) = Ok (0%nat, 0).
Proof.
  intros S N. replace (a_start a) with (tick (a_start a) (a_step a) 0 + 0 * a_step a) at 1 by (unfold tick; cbn; ring).
  apply index3_at; [exact S|exact N|lra].
Qed.
Lemma index3_moved a x x' : a_step a <> 0 -> (0 < a_n a)%nat -> tolerated a x -> moved a x x' -> index_3D a x = index_3D a x'.
Proof.
  intros S N T [[O ->]|[O ->]]; [reflexivity|].
  destruct (index3_cases a x S N) as [[O' _]|[(_ & _ & E)|[T' _]]]; try contradiction. rewrite E. symmetry. apply index3_start; assumption.
Qed.
Lemma on_tolerated a x : on_axis a x -> tolerated a x.
Proof. unfold on_axis, tolerated. pose proof eps_pos. lra. Qed.
Theorem cell_domain : forall g x y z, good g ->
  (tolerated (g_x g) x /\ tolerated (g_y g) y /\ tolerated (g_z g) z -> exists u, linear3 g x y z = Ok u)
  /\ (~ (tolerated (g_x g) x /\ tolerated (g_y g) y /\ tolerated (g_z g) z) -> linear3 g x y z = Err CppException).
Proof.
  intros g x y z G0; pose proof (good_new _ G0) as G; destruct G0 as (_ & (Sx & Sy & Sz) & (Nx & Ny & Nz)); 
  assert (H : forall a r, a_step a <> 0 -> (0 < a_n a)%nat ->
    (tolerated a r /\ exists i t, (i < a_n a)%nat /\ index_3D a r = Ok (i, t)) \/ (~ tolerated a r /\ index_3D a r = Err CppException)).
  { intros a r S N. destruct (index3_cases a r S N) as [(O & i & t & I & T & X & E)|[(O & T & E)|(T & E)]].
    - left. split; [apply on_tolerated; exact O|eauto].
    - left. split; [exact T|]. exists 0%nat, 0. auto.
    - right. auto. }
  destruct (H _ x Sx Nx) as [(Tx & i & t & I & Ex)|(Tx & Ex)].
  2: { split; [tauto|]. intros _. unfold linear3. rewrite Ex. reflexivity. }
  destruct (H _ y Sy Ny) as [(Ty & j & v & J & Ey)|(Ty & Ey)].
  2: { split; [tauto|]. intros _. unfold linear3. rewrite Ex, Ey. reflexivity. }
  destruct (H _ z Sz Nz) as [(Tz & k & w & K & Ez)|(Tz & Ez)].
  2: { split; [tauto|]. intros _. unfold linear3. rewrite Ex, Ey, Ez. reflexivity. }
  split; [|tauto]. intros _. eexists. eapply linear3_at; eassumption.
Qed.
Theorem cell_moved : forall g x y z x' y' z', good g ->
  tolerated (g_x g) x -> tolerated (g_y g) y -> tolerated (g_z g) z ->
  moved (g_x g) x x' -> moved (g_y g) y y' -> moved (g_z g) z z' ->
  linear3 g x y z = linear3 g x' y' z'.
Proof.
  intros g x y z x' y' z' G0; pose proof (good_new _ G0) as G; destruct G0 as (_ & (Sx & Sy & Sz) & (Nx & Ny & Nz)); intros Tx Ty Tz Mx My Mz. unfold linear3.
  rewrite (index3_moved _ x x'), (index3_moved _ y y'), (index3_moved _ z z') by assumption. reflexivity.
Qed.

Lemma linear3_inv g x y z u : good g -> linear3 g x y z = Ok u ->
  exists i j k t v w, (i < a_n (g_x g))%nat /\ (j < a_n (g_y g))%nat /\ (k < a_n (g_z g))%nat
    /\ 0 <= t < 1 /\ 0 <= v < 1 /\ 0 <= w < 1
    /\ index_3D (g_x g) x = Ok (i, t) /\ index_3D (g_y g) y = Ok (j, v) /\ index_3D (g_z g) z = Ok (k, w)
    /\ u = mix3 (cell3 (g_data g)) i j k t v w.
Proof.
  intros G0 H. pose proof (good_new _ G0) as G; destruct G0 as (_ & (Sx & Sy & Sz) & (Nx & Ny & Nz)).
  destruct (index_3D (g_x g) x) as [[i t]|e] eqn:Ex; [|unfold linear3 in H; rewrite Ex in H; discriminate].
  destruct (index_3D (g_y g) y) as [[j v]|e] eqn:Ey; [|unfold linear3 in H; rewrite Ex, Ey in H; discriminate].
  destruct (index_3D (g_z g) z) as [[k w]|e] eqn:Ez; [|unfold linear3 in H; rewrite Ex, Ey, Ez in H; discriminate].
  destruct (index3_range _ _ _ _ Sx Nx Ex) as [I T]. destruct (index3_range _ _ _ _ Sy Ny Ey) as [J V]. destruct (index3_range _ _ _ _ Sz Nz Ez) as [K W].
  exists i, j, k, t, v, w. repeat (split; [assumption||reflexivity|]).
  rewrite (linear3_at g x y z i j k t v w) in H by assumption. injection H as <-. reflexivity.
Qed.

Lemma mix3_range u i j k t v w lo hi : 0 <= t <= 1 -> 0 <= v <= 1 -> 0 <= w <= 1 ->
  (forall p q r, corner i j k p q r -> lo <= u p q r <= hi) -> lo <= mix3 u i j k t v w <= hi.
Proof.
  intros T V W H. unfold mix3.
  repeat match goal with |- _ <= mix ?a _ _ <= _ => apply mix_range; [assumption| |] end;
    apply H; unfold corner; tauto.
Qed.
Theorem cell_range : forall g x y z u lo hi, good g -> linear3 g x y z = Ok u ->
  (forall p q r, (p <= a_n (g_x g))%nat -> (q <= a_n (g_y g))%nat -> (r <= a_n (g_z g))%nat -> lo <= cell3 (g_data g) p q r <= hi) ->
  lo <= u <= hi.
Proof.
  intros g x y z u lo hi G L H. destruct (linear3_inv _ _ _ _ _ G L) as (i & j & k & t & v & w & I & J & K & T & V & W & _ & _ & _ & ->).
  apply mix3_range; [lra|lra|lra|]. intros p q r ([->| ->] & [->| ->] & [->| ->]); apply H; lia.
Qed.
Theorem cell_between : forall g x y z u, good g -> on_axis (g_x g) x -> on_axis (g_y g) y -> on_axis (g_z g) z ->
  linear3 g x y z = Ok u ->
  exists i j k t v w, (i < a_n (g_x g))%nat /\ (j < a_n (g_y g))%nat /\ (k < a_n (g_z g))%nat
    /\ 0 <= t < 1 /\ 0 <= v < 1 /\ 0 <= w < 1
    /\ x = place (g_x g) i t /\ y = place (g_y g) j v /\ z = place (g_z g) k w
    /\ forall lo hi, (forall p q r, corner i j k p q r -> lo <= cell3 (g_data g) p q r <= hi) -> lo <= u <= hi.
Proof.
  intros g x y z u G Ox Oy Oz L. pose proof G as (_ & (Sx & Sy & Sz) & _).
  destruct (placed' _ x Sx Ox) as (i & t & I & T & X & _). destruct (placed' _ y Sy Oy) as (j & v & J & V & Y & _). destruct (placed' _ z Sz Oz) as (k & w & K & W & Z & _).
  exists i, j, k, t, v, w. repeat (split; [assumption|]). intros lo hi H.
  rewrite X, Y, Z, cell_interpolates in L by assumption. injection L as <-. apply mix3_range; try lra. exact H.
Qed.
Theorem cell_multilinear : forall g f x y z u, good g -> multilinear f ->
  (forall i j k, (i <= a_n (g_x g))%nat -> (j <= a_n (g_y g))%nat -> (k <= a_n (g_z g))%nat ->
     cell3 (g_data g) i j k = f (place (g_x g) i 0) (place (g_y g) j 0) (place (g_z g) k 0)) ->
  on_axis (g_x g) x -> on_axis (g_y g) y -> on_axis (g_z g) z ->
  linear3 g x y z = Ok u -> u = f x y z.
Proof.
  intros g f x y z u G M H Ox Oy Oz L. pose proof G as (_ & (Sx & Sy & Sz) & _).
  destruct (placed' _ x Sx Ox) as (i & t & I & T & X & _). destruct (placed' _ y Sy Oy) as (j & v & J & V & Y & _). destruct (placed' _ z Sz Oz) as (k & w & K & W & Z & _).
  rewrite X, Y, Z, cell_interpolates in L by assumption. injection L as <-.
  assert (P : forall a i t, place a i t = mix t (place a i 0) (place a (S i) 0)).
  { intros a n r. unfold place, mix, tick. rewrite S_INR. ring. }
  rewrite X, Y, Z, (P _ i t), (P _ j v), (P _ k w). unfold mix3. rewrite !H by lia.
  rewrite (proj1 (M t _ _)). f_equal; rewrite (proj1 (proj2 (M v _ _))); f_equal; rewrite (proj2 (proj2 (M w _ _))); reflexivity.
Qed.

(** ** continuity *)
Lemma mix3_pw u i j k t v w : 0 <= t < 1 -> 0 <= v < 1 -> 0 <= w < 1 ->
  mix3 u i j k t v w = pw (fun p => pw (fun q => pw (fun r => u p q r) (INR k + w)) (INR j + v)) (INR i + t).
Proof. intros T V W. rewrite pw_at by exact T. rewrite !(pw_at _ j) by exact V. rewrite !(pw_at _ k) by exact W. reflexivity. Qed.
Lemma pw_diff d d' n M r : (forall i, (i <= n)%nat -> Rabs (d i - d' i) <= M) -> 0 <= r < INR n -> Rabs (pw d r - pw d' r) <= M.
Proof. intros H R. rewrite <- pw_minus. apply (pw_bound _ M n); assumption. Qed.
Theorem cell_steep : forall g Mx My Mz x y z x' y' z' u u', good g ->
  (forall i j k, (i < a_n (g_x g))%nat -> (j <= a_n (g_y g))%nat -> (k <= a_n (g_z g))%nat ->
     Rabs (cell3 (g_data g) (S i) j k - cell3 (g_data g) i j k) <= Mx) ->
  (forall i j k, (i <= a_n (g_x g))%nat -> (j < a_n (g_y g))%nat -> (k <= a_n (g_z g))%nat ->
     Rabs (cell3 (g_data g) i (S j) k - cell3 (g_data g) i j k) <= My) ->
  (forall i j k, (i <= a_n (g_x g))%nat -> (j <= a_n (g_y g))%nat -> (k < a_n (g_z g))%nat ->
     Rabs (cell3 (g_data g) i j (S k) - cell3 (g_data g) i j k) <= Mz) ->
  on_axis (g_x g) x -> on_axis (g_y g) y -> on_axis (g_z g) z ->
  on_axis (g_x g) x' -> on_axis (g_y g) y' -> on_axis (g_z g) z' ->
  linear3 g x y z = Ok u -> linear3 g x' y' z' = Ok u' ->
  Rabs (u - u') <= Mx * (Rabs (x - x') / Rabs (a_step (g_x g))) + My * (Rabs (y - y') / Rabs (a_step (g_y g)))
                   + Mz * (Rabs (z - z') / Rabs (a_step (g_z g))).
Proof.
  intros g Mx My Mz x y z x' y' z' u u' G Hx Hy Hz Ox Oy Oz Ox' Oy' Oz' L L'.
  pose proof G as (_ & (Sx & Sy & Sz) & _). set (c := cell3 (g_data g)) in *.
  assert (E : forall x y z u, on_axis (g_x g) x -> on_axis (g_y g) y -> on_axis (g_z g) z -> linear3 g x y z = Ok u ->
    u = pw (fun p => pw (fun q => pw (fun r => c p q r) (steps_of (g_z g) z)) (steps_of (g_y g) y)) (steps_of (g_x g) x)).
  { clear - G Sx Sy Sz. intros x y z u Ox Oy Oz L.
    destruct (placed' _ x Sx Ox) as (i & t & I & T & X & ->). destruct (placed' _ y Sy Oy) as (j & v & J & V & Y & ->). destruct (placed' _ z Sz Oz) as (k & w & K & W & Z & ->).
    rewrite X, Y, Z, cell_interpolates in L by assumption. injection L as <-. apply mix3_pw; assumption. }
  rewrite (E x y z u) by assumption. rewrite (E x' y' z' u') by assumption. clear E L L'.
  assert (D : forall a p q, a_step a <> 0 -> Rabs (p - q) / Rabs (a_step a) = Rabs (steps_of a p - steps_of a q)).
  { intros a p q S. unfold steps_of. replace ((p - a_start a) / a_step a - (q - a_start a) / a_step a) with ((p - q) / a_step a) by (field; exact S).
    unfold Rdiv at 2. rewrite Rabs_mult, Rabs_inv. reflexivity. }
  rewrite !D by assumption. unfold on_axis in *.
  set (rx := steps_of (g_x g) x) in *. set (ry := steps_of (g_y g) y) in *. set (rz := steps_of (g_z g) z) in *.
  set (rx' := steps_of (g_x g) x') in *. set (ry' := steps_of (g_y g) y') in *. set (rz' := steps_of (g_z g) z') in *.
  set (F a b d := pw (fun p => pw (fun q => pw (fun r => c p q r) d) b) a).
  change (Rabs (F rx ry rz - F rx' ry' rz') <= Mx * Rabs (rx - rx') + My * Rabs (ry - ry') + Mz * Rabs (rz - rz')).
  replace (F rx ry rz - F rx' ry' rz') with ((F rx ry rz - F rx' ry rz) + (F rx' ry rz - F rx' ry' rz) + (F rx' ry' rz - F rx' ry' rz')) by ring.
  eapply Rle_trans; [apply Rabs_triang|]. apply Rplus_le_compat.
  - eapply Rle_trans; [apply Rabs_triang|]. apply Rplus_le_compat; unfold F.
    + apply (pw_lip _ Mx (a_n (g_x g))); try assumption. intros p P.
      apply (pw_diff _ _ (a_n (g_y g))); [|assumption]. intros q Q. apply (pw_diff _ _ (a_n (g_z g))); [|assumption]. intros r R. apply Hx; assumption.
    + apply (pw_diff _ _ (a_n (g_x g))); [|assumption]. intros p P.
      apply (pw_lip _ My (a_n (g_y g))); try assumption. intros q Q. apply (pw_diff _ _ (a_n (g_z g))); [|assumption]. intros r R. apply Hy; assumption.
  - unfold F. apply (pw_diff _ _ (a_n (g_x g))); [|assumption]. intros p P. apply (pw_diff _ _ (a_n (g_y g))); [|assumption]. intros q Q.
    apply (pw_lip _ Mz (a_n (g_z g))); try assumption. intros r R. apply Hz; assumption.
Qed.

(** ** nearest point *)
Lemma indexNN_cases a x : a_step a <> 0 -> (0 < a_n a)%nat ->
  (0 <= steps_of a x <= INR (a_n a) - / 10 ^ 7 /\ exists i t, (i < a_n a)%nat /\ 0 <= t < 1 /\ steps_of a x = INR i + t /\ index_NN a x = Ok (i, t))
  \/ ((- / 10 ^ 7 < steps_of a x < 0 \/ INR (a_n a) - / 10 ^ 7 < steps_of a x < INR (a_n a)) /\ index_NN a x = Ok (0%nat, 0))
  \/ (~ (- / 10 ^ 7 < steps_of a x < INR (a_n a)) /\ index_NN a x = Err CppException).
Proof.
  intros S N. pose proof eps_pos as E. pose proof eps_half as EH. assert (N1 : 1 <= INR (a_n a)) by (apply (le_INR 1); lia).
  unfold index_NN. rewrite ratio_ok by exact S. cbn [bind]. fold (steps_of a x).
  destruct (Rle_dec 0 (steps_of a x)) as [A|A]; [destruct (Rlt_dec (steps_of a x) (INR (a_n a))) as [B|B]|].
  - rewrite off_in by (split; assumption). cbn [bind]. destruct (tiny (steps_of a x - INR (a_n a))) eqn:Tn.
    + right. left. apply tiny_t in Tn. apply Rabs_def2 in Tn. split; [lra|]. rewrite split_zero. reflexivity.
    + left. apply tiny_f in Tn. rewrite Rabs_left in Tn by lra. split; [lra|]. destruct (floor_nat _ A) as [i I].
      exists i, (steps_of a x - INR i). split; [eapply INR_lt_of; [apply I|exact B]|]. split; [lra|]. split; [lra|].
      rewrite (split_spec i) by exact I. reflexivity.
  - right. right. rewrite off_out by lra. rewrite (proj2 (tiny_f _)) by (rewrite Rabs_pos_eq by lra; lra). split; [lra|reflexivity].
  - right. rewrite off_out by lra. destruct (tiny (steps_of a x)) eqn:Tn.
    + left. apply tiny_t in Tn. apply Rabs_def2 in Tn. split; [lra|]. cbn [bind].
      rewrite (proj2 (tiny_f _)) by (rewrite Rabs_left by lra; lra). rewrite split_zero. reflexivity.
    + right. apply tiny_f in Tn. rewrite Rabs_left in Tn by lra. split; [lra|reflexivity].
Qed.
Lemma far_half r i j : (i <> j)%nat -> Rabs (r - INR i) <= / 2 -> Rabs (r - INR i) <= Rabs (r - INR j).
Proof.
  intros N H. assert (D : 1 <= Rabs (INR i - INR j)).
  { destruct (Nat.lt_ge_cases i j) as [L|L].
    - rewrite Rabs_left1; [|apply le_INR in L; rewrite S_INR in L; lra]. apply le_INR in L. rewrite S_INR in L. lra.
    - assert (L' : (S j <= i)%nat) by lia. apply le_INR in L'. rewrite S_INR in L'. rewrite Rabs_pos_eq; lra. }
  replace (INR i - INR j) with ((r - INR j) - (r - INR i)) in D by ring.
  pose proof (Rabs_triang (r - INR j) (- (r - INR i))) as T. rewrite Rabs_Ropp in T. unfold Rminus in D at 1. lra.
Qed.
Lemma rounded_closest a x i t : a_step a <> 0 -> (i < a_n a)%nat -> 0 <= t < 1 -> steps_of a x = INR i + t ->
  closest (a_start a) (a_step a) (a_n a) (rounded (i, t)) x.
Proof.
  intros S I T E. assert (D : forall k, Rabs (x - tick (a_start a) (a_step a) k) = Rabs (steps_of a x - INR k) * Rabs (a_step a)).
  { intros k. rewrite <- Rabs_mult. f_equal. unfold steps_of, tick. field. exact S. }
  split.
  - unfold rounded. cbn [fst snd]. destruct (Rltb (/ 2) t); lia.
  - intros j _. rewrite !D. apply Rmult_le_compat_r; [apply Rabs_pos|].
    destruct (Nat.eq_dec (rounded (i, t)) j) as [->|N]; [apply Rle_refl|]. apply far_half; [exact N|]. rewrite E.
    unfold rounded. cbn [fst snd]. destruct (Rltb (/ 2) t) eqn:B.
    + apply Rltb_t in B. rewrite S_INR. rewrite Rabs_left1; lra.
    + apply Rltb_f in B. rewrite Rabs_pos_eq; lra.
Qed.
Theorem nearest_picks : forall g x y z, good g ->
  - / 10 ^ 7 < steps_of (g_x g) x < INR (a_n (g_x g)) -> - / 10 ^ 7 < steps_of (g_y g) y < INR (a_n (g_y g)) ->
  - / 10 ^ 7 < steps_of (g_z g) z < INR (a_n (g_z g)) ->
  exists i j k, represents (g_x g) i x /\ represents (g_y g) j y /\ represents (g_z g) k z
    /\ nearest3 g x y z = Ok (cell3 (g_data g) i j k).
Proof.
  intros g x y z G0; pose proof (good_new _ G0) as G; destruct G0 as (_ & (Sx & Sy & Sz) & (Nx & Ny & Nz)); intros Rx Ry Rz.
  assert (H : forall a r, a_step a <> 0 -> (0 < a_n a)%nat -> - / 10 ^ 7 < steps_of a r < INR (a_n a) ->
    exists p, index_NN a r = Ok p /\ represents a (rounded p) r /\ (rounded p <= a_n a)%nat).
  { intros a r S N R. destruct (indexNN_cases a r S N) as [(O & i & t & I & T & X & E)|[(O & E)|(O & E)]]; [| |contradiction].
    - exists (i, t). split; [exact E|]. split; [left; split; [exact O|]; apply rounded_closest; assumption|].
      unfold rounded. cbn [fst snd]. destruct (Rltb (/ 2) t); lia.
    - exists (0%nat, 0). split; [exact E|]. unfold rounded. cbn [fst snd]. rewrite (proj2 (Rltb_f _ _)) by lra. split; [|lia]. right. auto. }
  destruct (H _ x Sx Nx Rx) as (px & Ex & Qx & Bx). destruct (H _ y Sy Ny Ry) as (py & Ey & Qy & By). destruct (H _ z Sz Nz Rz) as (pz & Ez & Qz & Bz).
  exists (rounded px), (rounded py), (rounded pz). repeat (split; [assumption|]).
  unfold nearest3. rewrite Ex, Ey, Ez. cbn [bind]. apply new_grid_iff in G. destruct G as (_ & A & B & C). apply getitem_in; lia.
Qed.
Theorem nearest_domain : forall g x y z, good g ->
  ~ (- / 10 ^ 7 < steps_of (g_x g) x < INR (a_n (g_x g)) /\ - / 10 ^ 7 < steps_of (g_y g) y < INR (a_n (g_y g))
     /\ - / 10 ^ 7 < steps_of (g_z g) z < INR (a_n (g_z g))) ->
  nearest3 g x y z = Err CppException.
Proof.
  intros g x y z G0; pose proof (good_new _ G0) as G; destruct G0 as (_ & (Sx & Sy & Sz) & (Nx & Ny & Nz)); intros R. pose proof eps_pos as E0.
  assert (H : forall a r, a_step a <> 0 -> (0 < a_n a)%nat ->
    (- / 10 ^ 7 < steps_of a r < INR (a_n a) /\ exists p, index_NN a r = Ok p) \/ index_NN a r = Err CppException).
  { intros a r S N. assert (N1 : 1 <= INR (a_n a)) by (apply (le_INR 1); lia). pose proof eps_half.
    destruct (indexNN_cases a r S N) as [(O & i & t & _ & _ & _ & E)|[(O & E)|(O & E)]]; [left|left|right; exact E]; (split; [lra|eauto]). }
  unfold nearest3. destruct (H _ x Sx Nx) as [(Rx & px & ->)| ->]; [|reflexivity]. cbn [bind].
  destruct (H _ y Sy Ny) as [(Ry & py & ->)| ->]; [|reflexivity]. cbn [bind].
  destruct (H _ z Sz Nz) as [(Rz & pz & ->)| ->]; [|reflexivity]. tauto.
Qed.
