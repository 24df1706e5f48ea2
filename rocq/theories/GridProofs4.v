(** Proofs for C42: the dispersion made from the files. *)
From Coq Require Import Reals Lra Psatz.
From Verif Require Import Base RotModel DetModel ChanModel ShapeModel GridModel GridSpec ChanProofs ShapeProofs GridProofs GridProofs2 GridProofs3.
Open Scope R_scope.

Lemma INR_above r : exists n, r < INR n.
Proof.
  exists (Z.to_nat (up (Rabs r))). destruct (archimed (Rabs r)) as [A _]. pose proof (Rabs_pos r). pose proof (Rle_abs r).
  rewrite INR_IZR_INZ, Z2Nat.id; [lra|]. apply le_IZR. lra.
Qed.
Lemma nm1_pos n : (2 <= n)%nat -> 1 <= INR (n - 1).
Proof. intros H. apply (le_INR 1). lia. Qed.
Lemma uaxis_steps n x : (2 <= n)%nat -> steps_of (uaxis n) x = x * INR (n - 1).
Proof. intros H. pose proof (nm1_pos n H). unfold steps_of, uaxis. cbn [a_start a_step]. field. lra. Qed.
Lemma uaxis_on n x : (2 <= n)%nat -> frac x -> on_axis (uaxis n) x.
Proof.
  intros H [A B]. pose proof (nm1_pos n H). unfold on_axis. rewrite uaxis_steps by exact H. cbn [uaxis a_n]. split; [nra|nra].
Qed.
Lemma uaxis_place n i t : (2 <= n)%nat -> place (uaxis n) i t = (INR i + t) / INR (n - 1).
Proof. intros H. pose proof (nm1_pos n H). unfold place, tick, uaxis. cbn [a_start a_step]. field. lra. Qed.
Lemma coordinate_decimal n h i t : (2 <= n)%nat -> (S i < n)%nat -> 0 <= t < 1 ->
  decimal_part (coordinate h n i t) = place (uaxis n) i t.
Proof.
  intros H I T. rewrite uaxis_place by exact H. unfold coordinate. rewrite Rplus_comm, decimal_shift. apply decimal_id.
  pose proof (nm1_pos n H). pose proof (pos_INR i). assert (L : INR i + 1 <= INR (n - 1)) by (rewrite <- S_INR; apply le_INR; lia).
  split; [apply Rmult_le_pos; [lra|left; apply Rinv_0_lt_compat; lra]|].
  apply Rmult_lt_reg_r with (INR (n - 1)); [lra|]. unfold Rdiv. rewrite Rmult_assoc, Rinv_l by lra. lra.
Qed.
Lemma uaxis_good n1 n2 n3 d : (2 <= n1)%nat -> (2 <= n2)%nat -> (2 <= n3)%nat -> s0 d = n1 -> s1 d = n2 -> s2 d = n3 ->
  good (mkG3 (uaxis n1) (uaxis n2) (uaxis n3) d) /\ new_grid3 (uaxis n1) (uaxis n2) (uaxis n3) d = Ok (mkG3 (uaxis n1) (uaxis n2) (uaxis n3) d).
Proof.
  intros A B C D E F.
  assert (G : good (mkG3 (uaxis n1) (uaxis n2) (uaxis n3) d)).
  { assert (K : forall n, (2 <= n)%nat -> 1 / INR (n - 1) <> 0).
    { intros n H. pose proof (nm1_pos n H). unfold Rdiv. apply Rmult_integral_contrapositive_currified; [lra|]. apply Rinv_neq_0_compat. lra. }
    unfold good. cbn [g_x g_y g_z g_data uaxis a_n a_step]. repeat split; auto; lia. }
  split; [exact G|]. exact (good_new _ G).
Qed.

Theorem made_energy : forall natoms b1 b2 b3 n1 n2 n3 p e d branch h1 h2 h3 i j k t v w,
  periodicdispersion_fromidf natoms (b1, n1) (b2, n2) (b3, n3) p e = Ok d -> (branch < 3 * natoms)%nat ->
  (S i < n1)%nat -> (S j < n2)%nat -> (S k < n3)%nat -> 0 <= t < 1 -> 0 <= v < 1 -> 0 <= w < 1 ->
  energy d branch (comb b1 b2 b3 (coordinate h1 n1 i t) (coordinate h2 n2 j v) (coordinate h3 n3 k w))
  = Ok (mix3 (fun x y z => cell4 e x y z branch) i j k t v w).
Proof.
  intros natoms b1 b2 b3 n1 n2 n3 p e d branch h1 h2 h3 i j k t v w H B I J K T V W.
  destruct (proj1 (made_iff natoms b1 b2 b3 n1 n2 n3 p e) (ex_intro _ d H)) as [_ ((N1 & N2 & N3) & (E0 & E1 & E2 & E3) & _)].
  destruct (made_is _ _ _ _ _ _ _ _ _ _ H) as [HE _]. rewrite HE by exact B. rewrite !coordinate_decimal by assumption.
  unfold energy_at. destruct (uaxis_good n1 n2 n3 (slice4 e branch)) as [G ->]; try assumption. cbn [bind vx vy vz].
  etransitivity; [apply (cell_interpolates _ i j k t v w G); try assumption; cbn [g_x g_y g_z uaxis a_n]; lia|reflexivity].
Qed.
Theorem made_bounds : forall natoms b1 b2 b3 n1 n2 n3 p e d branch,
  periodicdispersion_fromidf natoms (b1, n1) (b2, n2) (b3, n3) p e = Ok d -> (branch < 3 * natoms)%nat ->
  exists lo hi, min_energy d branch = Ok lo /\ max_energy d branch = Ok hi
    /\ (forall Q, exists u, energy d branch Q = Ok u /\ lo <= u <= hi)
    /\ (exists i j k, (i < n1)%nat /\ (j < n2)%nat /\ (k < n3)%nat /\ cell4 e i j k branch = lo)
    /\ (exists i j k, (i < n1)%nat /\ (j < n2)%nat /\ (k < n3)%nat /\ cell4 e i j k branch = hi).
Proof.
  intros natoms b1 b2 b3 n1 n2 n3 p e d branch H B.
  destruct (proj1 (made_iff natoms b1 b2 b3 n1 n2 n3 p e) (ex_intro _ d H)) as [I ((N1 & N2 & N3) & (E0 & E1 & E2 & E3) & _)].
  destruct (made_is _ _ _ _ _ _ _ _ _ _ H) as [HE [_ HM]]. destruct (HM branch B) as (lo & hi & Lo & Hi & InL & InH & R).
  exists lo, hi. split; [exact Lo|]. split; [exact Hi|]. split.
  - intros Q. destruct (coordinates b1 b2 b3 Q I) as (x & y & z & ->). rewrite HE by exact B. unfold energy_at.
    destruct (uaxis_good n1 n2 n3 (slice4 e branch)) as [G ->]; try assumption. cbn [bind vx vy vz].
    destruct (proj1 (cell_domain _ (decimal_part x) (decimal_part y) (decimal_part z) G)) as [u U].
    { cbn [g_x g_y g_z]. repeat split; apply on_tolerated, uaxis_on; auto using decimal_frac. }
    exists u. split; [exact U|]. apply (cell_range _ _ _ _ _ lo hi G U). cbn [g_x g_y g_z g_data uaxis a_n]. intros a b c A' B' C'.
    apply R. apply in_column. exists a, b, c. repeat split; lia.
  - apply in_column in InL, InH. destruct InL as (i & j & k & A & B' & C & ->). destruct InH as (i' & j' & k' & A' & B'' & C' & ->).
    rewrite E0, E1, E2 in *. split; [exists i, j, k; auto|exists i', j', k'; auto].
Qed.
Theorem made_polarization : forall natoms b1 b2 b3 n1 n2 n3 p e d branch atom h1 h2 h3 x y z,
  periodicdispersion_fromidf natoms (b1, n1) (b2, n2) (b3, n3) p e = Ok d -> (branch < 3 * natoms)%nat -> (atom < natoms)%nat ->
  frac x -> frac y -> frac z ->
  exists i j k, stands_for n1 i x /\ stands_for n2 j y /\ stands_for n3 k z
    /\ let c := cell7 p i j k branch atom in
       polarization d branch atom (comb b1 b2 b3 (IZR h1 + x) (IZR h2 + y) (IZR h3 + z))
       = Ok ((c 0%nat 0%nat, c 0%nat 1%nat), (c 1%nat 0%nat, c 1%nat 1%nat), (c 2%nat 0%nat, c 2%nat 1%nat)).
Proof.
  intros natoms b1 b2 b3 n1 n2 n3 p e d branch atom h1 h2 h3 x y z H B A X Y Z.
  destruct (proj1 (made_iff natoms b1 b2 b3 n1 n2 n3 p e) (ex_intro _ d H)) as [I ((N1 & N2 & N3) & _ & (P0 & P1 & P2 & P3 & P4 & P5 & P6))].
  destruct (made_is _ _ _ _ _ _ _ _ _ _ H) as [_ [HP _]]. rewrite HP by assumption.
  rewrite !(Rplus_comm (IZR _)), !decimal_shift, !decimal_id by assumption.
  pose proof eps_pos as EP. pose proof (nm1_pos n1 N1) as Q1. pose proof (nm1_pos n2 N2) as Q2. pose proof (nm1_pos n3 N3) as Q3.
  assert (S1 := uaxis_steps n1 x N1). assert (S2 := uaxis_steps n2 y N2). assert (S3 := uaxis_steps n3 z N3).
  assert (HX : exists i, (i <= n1 - 1)%nat /\ stands_for n1 i x /\ exists q, index_NN (uaxis n1) x = Ok q /\ rounded q = i).
  2: assert (HY : exists i, (i <= n2 - 1)%nat /\ stands_for n2 i y /\ exists q, index_NN (uaxis n2) y = Ok q /\ rounded q = i).
  3: assert (HZ : exists i, (i <= n3 - 1)%nat /\ stands_for n3 i z /\ exists q, index_NN (uaxis n3) z = Ok q /\ rounded q = i).
  1,2,3:
    match goal with |- exists i, _ /\ stands_for ?n i ?r /\ _ =>
      assert (Hn : (2 <= n)%nat) by assumption; assert (Hr : frac r) by assumption; pose proof (uaxis_on n r Hn Hr) as O; pose proof (uaxis_steps n r Hn) as Hs; pose proof (nm1_pos n Hn) as Hq;
      assert (St : a_step (uaxis n) <> 0) by (cbn [uaxis a_step]; unfold Rdiv; apply Rmult_integral_contrapositive_currified; [lra|apply Rinv_neq_0_compat; lra]);
      assert (Np : (0 < a_n (uaxis n))%nat) by (cbn [uaxis a_n]; lia);
      destruct (indexNN_cases (uaxis n) r St Np) as [(Oa & i & t & Ii & T & Xe & E)|[(Oa & E)|(Oa & E)]]
    end.
  1,4,7: (exists (rounded (i, t)); pose proof (rounded_closest _ _ _ _ St Ii T Xe) as CL; split; [exact (proj1 CL)|]; split; [|eexists; split; [exact E|reflexivity]];
          left; rewrite Hs in Oa; cbn [uaxis a_n] in Oa; split; [lra|exact CL]).
  1,3,5: (exists 0%nat; split; [lia|]; split; [|eexists; split; [exact E|unfold rounded; cbn [fst snd]; rewrite (proj2 (Rltb_f _ _)) by lra; reflexivity]];
          right; split; [|reflexivity]; unfold on_axis in O; rewrite Hs in Oa, O; cbn [uaxis a_n] in Oa; lra).
  1,2,3: (exfalso; apply Oa; unfold on_axis in O; lra).
  destruct HX as (i & Ii & Si & q1 & X1 & X2). destruct HY as (j & Ij & Sj & q2 & Y1 & Y2). destruct HZ as (k & Ik & Sk & q3 & Z1 & Z2).
  exists i, j, k. split; [exact Si|]. split; [exact Sj|]. split; [exact Sk|]. cbv zeta. unfold polarization_at.
  assert (G : forall c r, (let! g := new_grid3 (uaxis n1) (uaxis n2) (uaxis n3) (slice7 p branch atom c r) in nearest3 g x y z) = Ok (cell7 p i j k branch atom c r)).
  { intros c r. destruct (uaxis_good n1 n2 n3 (slice7 p branch atom c r)) as [G ->]; try assumption. cbn [bind].
    unfold nearest3. cbn [g_x g_y g_z g_data]. rewrite X1, Y1, Z1. cbn [bind]. rewrite X2, Y2, Z2. apply getitem_in; cbn [slice7 s0 s1 s2]; lia. }
  cbn [vx vy vz]. rewrite !G. reflexivity.
Qed.

(** ** continuity over the whole of space *)
Lemma pw_ext d d' r : 0 <= r -> (forall i, INR i <= r -> d i = d' i /\ d (S i) = d' (S i)) -> pw d r = pw d' r.
Proof.
  intros P H. destruct (floor_nat r P) as [i I]. replace r with (INR i + (r - INR i)) by ring. rewrite !pw_at by lra.
  destruct (H i (proj1 I)) as [-> ->]. reflexivity.
Qed.
Lemma pw_shift d n r : 0 <= r -> (forall i, d (i + n)%nat = d i) -> pw d (r + INR n) = pw d r.
Proof.
  intros P H. destruct (floor_nat r P) as [i I]. replace (r + INR n) with (INR (i + n) + (r - INR i)) by (rewrite plus_INR; ring).
  replace r with (INR i + (r - INR i)) at 2 by ring. rewrite !pw_at by lra. rewrite H. change (S (i + n)) with (S i + n)%nat. rewrite H. reflexivity.
Qed.
Lemma pw_shiftk d n k r : 0 <= r -> (forall i, d (i + n)%nat = d i) -> pw d (r + INR (k * n)) = pw d r.
Proof.
  intros P H. apply pw_shift; [exact P|]. induction k; intros i; [rewrite Nat.add_0_r; reflexivity|].
  cbn. rewrite (Nat.add_comm n), Nat.add_assoc. rewrite H. apply IHk.
Qed.
(* data continued periodically *)
Definition wrap (n1 n2 n3 : nat) (u : nat -> nat -> nat -> R) (i j k : nat) : R :=
  u (i mod (n1 - 1))%nat (j mod (n2 - 1))%nat (k mod (n3 - 1))%nat.
Definition spread (u : nat -> nat -> nat -> R) (a b c : R) : R := pw (fun p => pw (fun q => pw (fun r => u p q r) c) b) a.
Lemma closed_mod (m : nat) (f : nat -> R) i : (0 < m)%nat -> f m = f 0%nat -> (i <= m)%nat -> f (i mod m)%nat = f i.
Proof.
  intros P E L. destruct (Nat.eq_dec i m) as [->|N].
  - rewrite Nat.mod_same by lia. symmetry. exact E.
  - rewrite Nat.mod_small by lia. reflexivity.
Qed.
Lemma closed_wrap n1 n2 n3 u i j k : (2 <= n1)%nat -> (2 <= n2)%nat -> (2 <= n3)%nat -> closed n1 n2 n3 u ->
  (i <= n1 - 1)%nat -> (j <= n2 - 1)%nat -> (k <= n3 - 1)%nat -> wrap n1 n2 n3 u i j k = u i j k.
Proof.
  intros A B C (P & Q & R) I J K. unfold wrap.
  rewrite (closed_mod (n1 - 1) (fun x => u x _ _)) by (lia || apply P).
  rewrite (closed_mod (n2 - 1) (fun x => u _ x _)) by (lia || apply Q).
  rewrite (closed_mod (n3 - 1) (fun x => u _ _ x)) by (lia || apply R). reflexivity.
Qed.
Lemma mod_succ m i : (0 < m)%nat -> ((S i) mod m = S (i mod m) \/ ((S i) mod m = 0 /\ S (i mod m) = m))%nat.
Proof.
  intros P. pose proof (Nat.mod_upper_bound i m ltac:(lia)) as U. pose proof (Nat.div_mod_eq i m) as D.
  destruct (Nat.eq_dec (S (i mod m)) m) as [E|E].
  - right. split; [|exact E]. assert (S i = (S (i / m)) * m)%nat as -> by lia. apply Nat.mod_mul. lia.
  - left. symmetry. apply (Nat.mod_unique _ _ (i / m)); lia.
Qed.
Lemma gradual_wrap n1 n2 n3 u M1 M2 M3 i j k : (2 <= n1)%nat -> (2 <= n2)%nat -> (2 <= n3)%nat -> closed n1 n2 n3 u -> gradual n1 n2 n3 u M1 M2 M3 ->
  Rabs (wrap n1 n2 n3 u (S i) j k - wrap n1 n2 n3 u i j k) <= M1
  /\ Rabs (wrap n1 n2 n3 u i (S j) k - wrap n1 n2 n3 u i j k) <= M2
  /\ Rabs (wrap n1 n2 n3 u i j (S k) - wrap n1 n2 n3 u i j k) <= M3.
Proof.
  intros A B C (P & Q & R) G. unfold wrap.
  pose proof (Nat.mod_upper_bound i (n1 - 1) ltac:(lia)). pose proof (Nat.mod_upper_bound j (n2 - 1) ltac:(lia)). pose proof (Nat.mod_upper_bound k (n3 - 1) ltac:(lia)).
  destruct (G (i mod (n1 - 1))%nat (j mod (n2 - 1))%nat (k mod (n3 - 1))%nat ltac:(lia) ltac:(lia) ltac:(lia)) as (G1 & G2 & G3).
  specialize (G1 ltac:(lia)). specialize (G2 ltac:(lia)). specialize (G3 ltac:(lia)).
  split; [|split].
  - destruct (mod_succ (n1 - 1) i ltac:(lia)) as [->|[-> E]]; [exact G1|]. rewrite E in G1. rewrite P in G1. exact G1.
  - destruct (mod_succ (n2 - 1) j ltac:(lia)) as [->|[-> E]]; [exact G2|]. rewrite E in G2. rewrite Q in G2. exact G2.
  - destruct (mod_succ (n3 - 1) k ltac:(lia)) as [->|[-> E]]; [exact G3|]. rewrite E in G3. rewrite R in G3. exact G3.
Qed.
Lemma spread_lip n1 n2 n3 u M1 M2 M3 a b c a' b' c' : (2 <= n1)%nat -> (2 <= n2)%nat -> (2 <= n3)%nat -> closed n1 n2 n3 u -> gradual n1 n2 n3 u M1 M2 M3 ->
  0 <= a -> 0 <= b -> 0 <= c -> 0 <= a' -> 0 <= b' -> 0 <= c' ->
  Rabs (spread (wrap n1 n2 n3 u) a b c - spread (wrap n1 n2 n3 u) a' b' c') <= M1 * Rabs (a - a') + M2 * Rabs (b - b') + M3 * Rabs (c - c').
Proof.
  intros N1 N2 N3 C G A B D A' B' D'. set (F := spread (wrap n1 n2 n3 u)).
  assert (UB : exists n, a < INR n /\ a' < INR n /\ b < INR n /\ b' < INR n /\ c < INR n /\ c' < INR n).
  { destruct (INR_above (a + a' + b + b' + c + c')) as [n Hn]. exists n. lra. }
  destruct UB as (n & U1 & U2 & U3 & U4 & U5 & U6).
  replace (F a b c - F a' b' c') with ((F a b c - F a' b c) + (F a' b c - F a' b' c) + (F a' b' c - F a' b' c')) by ring.
  eapply Rle_trans; [apply Rabs_triang|]. apply Rplus_le_compat.
  - eapply Rle_trans; [apply Rabs_triang|]. apply Rplus_le_compat; unfold F, spread.
    + apply (pw_lip _ M1 n); try lra. intros p P.
      apply (pw_diff _ _ n); [|lra]. intros q Q. apply (pw_diff _ _ n); [|lra]. intros r R. apply (gradual_wrap n1 n2 n3 u M1 M2 M3); assumption.
    + apply (pw_diff _ _ n); [|lra]. intros p P.
      apply (pw_lip _ M2 n); try lra. intros q Q. apply (pw_diff _ _ n); [|lra]. intros r R. apply (gradual_wrap n1 n2 n3 u M1 M2 M3); assumption.
  - unfold F, spread. apply (pw_diff _ _ n); [|lra]. intros p P. apply (pw_diff _ _ n); [|lra]. intros q Q.
    apply (pw_lip _ M3 n); try lra. intros r R. apply (gradual_wrap n1 n2 n3 u M1 M2 M3); assumption.
Qed.
Lemma pw_ext_all d d' r : (forall i, d i = d' i) -> pw d r = pw d' r.
Proof. intros H. unfold pw. rewrite !H. reflexivity. Qed.
Lemma spread_shift n1 n2 n3 u h k l a b c : (2 <= n1)%nat -> (2 <= n2)%nat -> (2 <= n3)%nat -> 0 <= a -> 0 <= b -> 0 <= c ->
  spread (wrap n1 n2 n3 u) (a + INR (h * (n1 - 1))) (b + INR (k * (n2 - 1))) (c + INR (l * (n3 - 1))) = spread (wrap n1 n2 n3 u) a b c.
Proof.
  intros N1 N2 N3 A B C. unfold spread.
  assert (W : forall n i, (2 <= n)%nat -> ((i + (n - 1)) mod (n - 1) = i mod (n - 1))%nat).
  { intros n i N. replace (i + (n - 1))%nat with (i + 1 * (n - 1))%nat by lia. apply Nat.mod_add. lia. }
  rewrite pw_shiftk; [|exact A|].
  - apply pw_ext_all. intros i. rewrite pw_shiftk; [|exact B|].
    + apply pw_ext_all. intros j. apply pw_shiftk; [exact C|]. intros m. unfold wrap. rewrite W by exact N3. reflexivity.
    + intros m. unfold wrap. rewrite W by exact N2. reflexivity.
  - intros m. unfold wrap. rewrite W by exact N1. reflexivity.
Qed.
Lemma energy_spread natoms b1 b2 b3 n1 n2 n3 p e d branch x y z :
  periodicdispersion_fromidf natoms (b1, n1) (b2, n2) (b3, n3) p e = Ok d -> (branch < 3 * natoms)%nat ->
  closed n1 n2 n3 (fun i j k => cell4 e i j k branch) -> 0 <= x -> 0 <= y -> 0 <= z ->
  energy d branch (comb b1 b2 b3 x y z)
  = Ok (spread (wrap n1 n2 n3 (fun i j k => cell4 e i j k branch)) (x * INR (n1 - 1)) (y * INR (n2 - 1)) (z * INR (n3 - 1))).
Proof.
  intros H B CL X Y Z. set (u := fun i j k => cell4 e i j k branch) in *.
  destruct (proj1 (made_iff natoms b1 b2 b3 n1 n2 n3 p e) (ex_intro _ d H)) as [I ((N1 & N2 & N3) & (E0 & E1 & E2 & E3) & _)].
  assert (F : forall n r, (2 <= n)%nat -> 0 <= r -> exists h i t, (S i < n)%nat /\ 0 <= t < 1 /\ r = coordinate (Z.of_nat h) n i t
    /\ r * INR (n - 1) = (INR i + t) + INR (h * (n - 1))).
  { intros n r N P. pose proof (nm1_pos n N) as Q. exists (Z.to_nat (floorZ r)).
    assert (Fl : IZR (Z.of_nat (Z.to_nat (floorZ r))) = IZR (floorZ r)) by (rewrite Z2Nat.id by (apply floor_nonneg; exact P); reflexivity).
    pose proof (floor_bounds r) as FB. set (s := (r - IZR (floorZ r)) * INR (n - 1)).
    assert (S0 : 0 <= s < INR (n - 1)) by (unfold s; split; nra).
    destruct (floor_nat s (proj1 S0)) as [i Hi]. exists i, (s - INR i).
    assert (i < n - 1)%nat by (eapply INR_lt_of; [apply Hi|apply S0]). split; [lia|]. split; [lra|].
    split.
    - unfold coordinate. rewrite Fl. unfold s. field. lra.
    - rewrite mult_INR, (INR_IZR_INZ (Z.to_nat (floorZ r))), Fl. unfold s. ring. }
  destruct (F n1 x N1 X) as (h1 & i & t & Ii & T & Ex & Rx). destruct (F n2 y N2 Y) as (h2 & j & v & Ij & V & Ey & Ry). destruct (F n3 z N3 Z) as (h3 & k & w & Ik & W & Ez & Rz).
  rewrite Rx, Ry, Rz. rewrite Ex, Ey, Ez. rewrite (made_energy natoms b1 b2 b3 n1 n2 n3 p e d) by assumption. f_equal.
  pose proof (pos_INR i). pose proof (pos_INR j). pose proof (pos_INR k).
  rewrite spread_shift by (assumption || lra). fold u. rewrite mix3_pw by assumption. unfold spread.
  rewrite !pw_at by assumption. rewrite !(closed_wrap n1 n2 n3) by (assumption || lia). reflexivity.
Qed.
Theorem made_continuous : forall natoms b1 b2 b3 n1 n2 n3 p e d branch M1 M2 M3 x y z x' y' z' u u',
  periodicdispersion_fromidf natoms (b1, n1) (b2, n2) (b3, n3) p e = Ok d -> (branch < 3 * natoms)%nat ->
  closed n1 n2 n3 (fun i j k => cell4 e i j k branch) -> gradual n1 n2 n3 (fun i j k => cell4 e i j k branch) M1 M2 M3 ->
  energy d branch (comb b1 b2 b3 x y z) = Ok u -> energy d branch (comb b1 b2 b3 x' y' z') = Ok u' ->
  Rabs (u - u') <= INR (n1 - 1) * M1 * Rabs (x - x') + INR (n2 - 1) * M2 * Rabs (y - y') + INR (n3 - 1) * M3 * Rabs (z - z').
Proof.
  intros natoms b1 b2 b3 n1 n2 n3 p e d branch M1 M2 M3 x y z x' y' z' u u' H B CL G.
  destruct (proj1 (made_iff natoms b1 b2 b3 n1 n2 n3 p e) (ex_intro _ d H)) as [I ((N1 & N2 & N3) & _ & _)].
  (* move everything to positive coordinates *)
  assert (SH : exists h : Z, 0 <= x + IZR h /\ 0 <= y + IZR h /\ 0 <= z + IZR h /\ 0 <= x' + IZR h /\ 0 <= y' + IZR h /\ 0 <= z' + IZR h).
  { destruct (INR_above (Rabs x + Rabs y + Rabs z + Rabs x' + Rabs y' + Rabs z')) as [n Hn]. exists (Z.of_nat n). rewrite <- INR_IZR_INZ.
    pose proof (Rabs_pos x). pose proof (Rabs_pos y). pose proof (Rabs_pos z). pose proof (Rabs_pos x'). pose proof (Rabs_pos y'). pose proof (Rabs_pos z').
    pose proof (Rle_abs (- x)). pose proof (Rle_abs (- y)). pose proof (Rle_abs (- z)). pose proof (Rle_abs (- x')). pose proof (Rle_abs (- y')). pose proof (Rle_abs (- z')).
    rewrite !Rabs_Ropp in *. lra. }
  destruct SH as (h & A1 & A2 & A3 & A4 & A5 & A6).
  assert (EQ : forall a b c, energy d branch (comb b1 b2 b3 a b c) = energy d branch (comb b1 b2 b3 (a + IZR h) (b + IZR h) (c + IZR h))).
  { intros a b c. destruct (made_is _ _ _ _ _ _ _ _ _ _ H) as [HE _]. rewrite !HE by exact B. rewrite !decimal_shift. reflexivity. }
  rewrite EQ, (EQ x'). rewrite !(energy_spread natoms b1 b2 b3 n1 n2 n3 p e d branch) by assumption. intros [= <-] [= <-].
  pose proof (nm1_pos n1 N1). pose proof (nm1_pos n2 N2). pose proof (nm1_pos n3 N3).
  eapply Rle_trans; [apply (spread_lip n1 n2 n3 _ M1 M2 M3); try assumption; apply Rmult_le_pos; lra|].
  assert (K : forall r r' N, 1 <= N -> Rabs ((r + IZR h) * N - (r' + IZR h) * N) = N * Rabs (r - r')).
  { intros r r' N P. replace ((r + IZR h) * N - (r' + IZR h) * N) with (N * (r - r')) by ring. rewrite Rabs_mult, (Rabs_pos_eq N) by lra. reflexivity. }
  rewrite !K by assumption. right. ring.
Qed.

Theorem made_counts : forall natoms b1 b2 b3 n1 n2 n3 p e d,
  periodicdispersion_fromidf natoms (b1, n1) (b2, n2) (b3, n3) p e = Ok d -> nAtoms d = natoms /\ nBranches d = (3 * natoms)%nat.
Proof.
  intros natoms b1 b2 b3 n1 n2 n3 p e d H. unfold periodicdispersion_fromidf, linearlyinterpolateddispersion_3d in H. cbn [fst snd] in H.
  destruct (unit_axis n1); [|discriminate]. destruct (unit_axis n2); [|discriminate]. destruct (unit_axis n3); [|discriminate].
  destruct (extrema Rmin e); [|discriminate]. destruct (extrema Rmax e); [|discriminate]. cbn [bind] in H.
  destruct (dispersion_on_grid natoms _ _ _ p e _ _) as [core|] eqn:D in H; [|discriminate]. cbn [bind] in H.
  destruct (inverse_of_columns b1 b2 b3); [|discriminate]. cbn [bind] in H. injection H as <-.
  unfold dispersion_on_grid in D. destruct (negb _) in D; [discriminate|]. destruct (negb _) in D; [discriminate|]. injection D as <-. split; reflexivity.
Qed.
