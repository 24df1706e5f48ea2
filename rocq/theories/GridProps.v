(** C41, interpolation on a grid, and C42, periodic phonon dispersions. *)
From Coq Require Import Reals Lra Psatz.
From Verif Require Import Base RotModel DetModel ChanModel ShapeModel GridModel GridSpec ChanProofs GridProofs GridProofs2 GridProofs3 GridProofs4.
Open Scope R_scope.

(** ** C41, one dimension *)

(** Between tick i and the next one, at a fraction t of a step, the value is the mixture of the two data: the datum itself at a tick. *)
Theorem C41_line_interpolates : forall a data i t,
  a_step a <> 0 -> (a_n a < List.length data)%nat -> (i < a_n a)%nat -> 0 <= t < 1 ->
  grid1 a data (tick (a_start a) (a_step a) i + t * a_step a) = Ok (mix t (nth i data 0) (nth (S i) data 0)).
Proof. exact line_interpolates. Qed.
(** A value is returned from the first tick to just before the last, an exception is thrown anywhere else. *)
Theorem C41_line_domain : forall a data x,
  a_step a <> 0 -> (a_n a < List.length data)%nat ->
  (0 <= (x - a_start a) / a_step a < INR (a_n a) -> exists y, grid1 a data x = Ok y)
  /\ (~ (0 <= (x - a_start a) / a_step a < INR (a_n a)) -> grid1 a data x = Err CppException).
Proof. exact line_domain. Qed.
(** No value is returned with a step of zero. *)
Theorem C41_line_step_zero : forall start n data x, exists e, grid1 (mkAxis start 0 n) data x = Err e.
Proof. exact step_zero. Qed.
(** The value lies between the data of the two ticks around the position. *)
Theorem C41_line_between : forall a data x y,
  a_step a <> 0 -> (a_n a < List.length data)%nat -> grid1 a data x = Ok y ->
  exists i, (i < a_n a)%nat
    /\ Rmin (tick (a_start a) (a_step a) i) (tick (a_start a) (a_step a) (S i)) <= x <= Rmax (tick (a_start a) (a_step a) i) (tick (a_start a) (a_step a) (S i))
    /\ Rmin (nth i data 0) (nth (S i) data 0) <= y <= Rmax (nth i data 0) (nth (S i) data 0).
Proof. exact line_between. Qed.
(** Continuity, across ticks too: the value changes no faster than the data do. *)
Theorem C41_line_steep : forall a data M x x' y y',
  a_step a <> 0 -> (a_n a < List.length data)%nat ->
  (forall i, (i < a_n a)%nat -> Rabs (nth (S i) data 0 - nth i data 0) <= M) ->
  grid1 a data x = Ok y -> grid1 a data x' = Ok y' ->
  Rabs (y - y') <= M * (Rabs (x - x') / Rabs (a_step a)).
Proof. exact line_steep. Qed.
(** Data on a straight line give the straight line. *)
Theorem C41_line_affine : forall a data p q x y,
  a_step a <> 0 -> (a_n a < List.length data)%nat ->
  (forall i, (i <= a_n a)%nat -> nth i data 0 = p + q * tick (a_start a) (a_step a) i) ->
  grid1 a data x = Ok y -> y = p + q * x.
Proof. exact line_affine. Qed.
(** False of the code: the last tick of the axis, for which there is a datum, is refused. *)
Theorem C41_line_last_tick_refuted : exists a data,
  a_step a <> 0 /\ (a_n a < List.length data)%nat
  /\ grid1 a data (tick (a_start a) (a_step a) (a_n a)) = Err CppException.
Proof.
  exists (mkAxis 0 1 2), [5; 6; 7]. cbn [a_step a_n a_start]. split; [lra|]. split; [cbn; lia|].
  apply (proj2 (line_domain (mkAxis 0 1 2) [5; 6; 7] (tick 0 1 2) R1_neq_R0 ltac:(cbn; lia))).
  unfold tick. cbn [a_step a_n a_start INR]. lra.
Qed.
Example C41_line_example : grid1 (mkAxis 10 2 2) [5; 6; 8] 13 = Ok 7.
Proof.
  replace 13 with (tick (a_start (mkAxis 10 2 2)) (a_step (mkAxis 10 2 2)) 1 + (1 / 2) * a_step (mkAxis 10 2 2)) by (unfold tick; cbn; lra).
  rewrite line_interpolates; cbn [a_step a_n List.length]; try lia; try lra. unfold mix. cbn [nth]. f_equal. lra.
Qed.
(* the hypotheses of the six theorems are met by this axis, these data and the positions 11 and 13 *)
Example C41_line_example' :
  a_step (mkAxis 10 2 2) <> 0 /\ (a_n (mkAxis 10 2 2) < List.length [5; 6; 8])%nat
  /\ (forall i, (i < a_n (mkAxis 10 2 2))%nat -> Rabs (nth (S i) [5; 6; 8] 0 - nth i [5; 6; 8] 0) <= 2)
  /\ grid1 (mkAxis 10 2 2) [5; 6; 8] 11 = Ok (11 / 2)
  /\ (forall i, (i <= a_n (mkAxis 10 2 2))%nat -> nth i [5; 7; 9] 0 = -5 + 1 * tick (a_start (mkAxis 10 2 2)) (a_step (mkAxis 10 2 2)) i).
Proof.
  split; [cbn; lra|]. split; [cbn; lia|]. split; [|split].
  - intros [|[|i]] H; cbn [nth a_n] in *; [| |lia]; apply Rabs_le; lra.
  - assert (E : 11 = tick (a_start (mkAxis 10 2 2)) (a_step (mkAxis 10 2 2)) 0 + (1 / 2) * a_step (mkAxis 10 2 2)) by (unfold tick; cbn; lra).
    rewrite E at 1. rewrite line_interpolates; cbn [a_step a_n List.length]; try lia; try lra. unfold mix. cbn [nth]. f_equal. lra.
  - intros [|[|[|i]]] H; unfold tick; cbn [nth a_n a_start a_step INR] in *; [lra|lra|lra|lia].
Qed.

(** ** C41, three dimensions *)

Theorem C41_cell_interpolates : forall g i j k t v w,
  good g -> (i < a_n (g_x g))%nat -> (j < a_n (g_y g))%nat -> (k < a_n (g_z g))%nat ->
  0 <= t < 1 -> 0 <= v < 1 -> 0 <= w < 1 ->
  linear3 g (place (g_x g) i t) (place (g_y g) j v) (place (g_z g) k w) = Ok (mix3 (cell3 (g_data g)) i j k t v w).
Proof. exact cell_interpolates. Qed.
(** Accepted positions: up to 1e-7 steps before the first and after the last tick of each axis. *)
Theorem C41_cell_domain : forall g x y z, good g ->
  (tolerated (g_x g) x /\ tolerated (g_y g) y /\ tolerated (g_z g) z -> exists u, linear3 g x y z = Ok u)
  /\ (~ (tolerated (g_x g) x /\ tolerated (g_y g) y /\ tolerated (g_z g) z) -> linear3 g x y z = Err CppException).
Proof. exact cell_domain. Qed.
(** Accepted positions outside of the axis, the last tick included, are taken for the first tick. *)
Theorem C41_cell_moved : forall g x y z x' y' z', good g ->
  tolerated (g_x g) x -> tolerated (g_y g) y -> tolerated (g_z g) z ->
  moved (g_x g) x x' -> moved (g_y g) y y' -> moved (g_z g) z z' ->
  linear3 g x y z = linear3 g x' y' z'.
Proof. exact cell_moved. Qed.
(** The value lies in any interval that holds the eight corners of a cell around the position. *)
Theorem C41_cell_between : forall g x y z u, good g -> on_axis (g_x g) x -> on_axis (g_y g) y -> on_axis (g_z g) z ->
  linear3 g x y z = Ok u ->
  exists i j k t v w, (i < a_n (g_x g))%nat /\ (j < a_n (g_y g))%nat /\ (k < a_n (g_z g))%nat
    /\ 0 <= t < 1 /\ 0 <= v < 1 /\ 0 <= w < 1
    /\ x = place (g_x g) i t /\ y = place (g_y g) j v /\ z = place (g_z g) k w
    /\ forall lo hi, (forall p q r, corner i j k p q r -> lo <= cell3 (g_data g) p q r <= hi) -> lo <= u <= hi.
Proof. exact cell_between. Qed.
(** No extrapolation: the value lies in any interval that holds all data, at the moved positions too. *)
Theorem C41_cell_range : forall g x y z u lo hi, good g -> linear3 g x y z = Ok u ->
  (forall p q r, (p <= a_n (g_x g))%nat -> (q <= a_n (g_y g))%nat -> (r <= a_n (g_z g))%nat -> lo <= cell3 (g_data g) p q r <= hi) ->
  lo <= u <= hi.
Proof. exact cell_range. Qed.
Theorem C41_cell_multilinear : forall g f x y z u, good g -> multilinear f ->
  (forall i j k, (i <= a_n (g_x g))%nat -> (j <= a_n (g_y g))%nat -> (k <= a_n (g_z g))%nat ->
     cell3 (g_data g) i j k = f (place (g_x g) i 0) (place (g_y g) j 0) (place (g_z g) k 0)) ->
  on_axis (g_x g) x -> on_axis (g_y g) y -> on_axis (g_z g) z ->
  linear3 g x y z = Ok u -> u = f x y z.
Proof. exact cell_multilinear. Qed.
Theorem C41_cell_steep : forall g Mx My Mz x y z x' y' z' u u', good g ->
  (forall i j k, (i < a_n (g_x g))%nat -> (j <= a_n (g_y g))%nat -> (k <= a_n (g_z g))%nat ->
     Rabs (cell3 (g_data g) (S i) j k - cell3 (g_data g) i j k) <= Mx) ->
  (forall i j k, (i <= a_n (g_x g))%nat -> (j < a_n (g_y g))%nat -> (k <= a_n (g_z g))%nat ->
     Rabs (cell3 (g_data g) i (S j) k - cell3 (g_data g) i j k) <= My) ->
  (forall i j k, (i <= a_n (g_x g))%nat -> (j <= a_n (g_y g))%nat -> (k < a_n (g_z g))%nat ->
     Rabs (cell3 (g_data g) i j (S k) - cell3 (g_data g) i j k) <= Mz) ->
  on_axis (g_x g) x -> on_axis (g_y g) y -> on_axis (g_z g) z ->
  on_axis (g_x g) x' -> on_axis (g_y g) y' -> on_axis (g_z g) z' ->
  linear3 g x y z = Ok u -> linear3 g x' y' z' = Ok u' ->
  Rabs (u - u') <= Mx * (Rabs (x - x') / Rabs (a_step (g_x g))) + My * (Rabs (y - y') / Rabs (a_step (g_y g)))
                   + Mz * (Rabs (z - z') / Rabs (a_step (g_z g))).
Proof. exact cell_steep. Qed.

Definition cube : grid3 := mkG3 (mkAxis 0 1 1) (mkAxis 0 1 1) (mkAxis 0 1 1) (mkA3 2 2 2 (fun i j k => INR (i + 2 * j + 4 * k))).
Example C41_cell_example : good cube /\ on_axis (g_x cube) (1 / 2) /\ tolerated (g_x cube) 1 /\ ~ on_axis (g_x cube) 1
  /\ linear3 cube (1 / 2) (1 / 2) (1 / 2) = Ok (7 / 2)
  /\ multilinear (fun x y z => x + 2 * y + 4 * z)
  /\ (forall i j k, (i <= 1)%nat -> (j <= 1)%nat -> (k <= 1)%nat ->
        cell3 (g_data cube) i j k = place (g_x cube) i 0 + 2 * place (g_y cube) j 0 + 4 * place (g_z cube) k 0)
  /\ (forall i j k, Rabs (cell3 (g_data cube) (S i) j k - cell3 (g_data cube) i j k) <= 1).
Proof.
  assert (G : good cube) by (unfold good, cube; cbn; repeat split; try lia; lra). pose proof eps_pos.
  split; [exact G|]. unfold on_axis, tolerated, steps_of. cbn [cube g_x g_y g_z a_start a_step a_n INR g_data cell3].
  split; [lra|]. split; [lra|]. split; [lra|]. split; [|split; [|split]].
  - replace (1 / 2) with (place (mkAxis 0 1 1) 0 (1 / 2)) by (unfold place, tick; cbn; lra).
    etransitivity; [apply (cell_interpolates cube 0 0 0 (1 / 2) (1 / 2) (1 / 2) G); cbn; lia || lra|].
    unfold mix3, mix. cbn. f_equal. lra.
  - intros t a b. unfold mix. repeat split; intros; ring.
  - intros i j k _ _ _. unfold place, tick. cbn [a_start a_step]. rewrite !plus_INR, !mult_INR. cbn [INR]. ring.
  - intros i j k. rewrite !plus_INR, S_INR. apply Rabs_le. lra.
Qed.
(** False of the code: at the last tick the value is the datum of the last tick. *)
Theorem C41_cell_last_tick_refuted : exists g u, good g
  /\ linear3 g (place (g_x g) (a_n (g_x g)) 0) (place (g_y g) 0 0) (place (g_z g) 0 0) = Ok u
  /\ u <> cell3 (g_data g) (a_n (g_x g)) 0 0.
Proof.
  exists cube, 0. destruct C41_cell_example as (G & _ & T & N & _). split; [exact G|]. split; [|cbn; lra].
  assert (M : moved (g_x cube) (place (g_x cube) (a_n (g_x cube)) 0) (place (g_x cube) 0 0)).
  { right. split; [|unfold place, tick; cbn; lra]. replace (place (g_x cube) (a_n (g_x cube)) 0) with 1 by (unfold place, tick; cbn; lra). exact N. }
  assert (O : on_axis (g_y cube) (place (g_y cube) 0 0)) by (unfold on_axis, steps_of, place, tick; cbn; lra).
  rewrite (cell_moved cube _ _ _ (place (g_x cube) 0 0) (place (g_y cube) 0 0) (place (g_z cube) 0 0) G).
  - etransitivity; [apply (cell_interpolates cube 0 0 0 0 0 0 G); cbn; lia || lra|]. unfold mix3, mix. cbn. f_equal. lra.
  - replace (place (g_x cube) (a_n (g_x cube)) 0) with 1 by (unfold place, tick; cbn; lra). exact T.
  - apply on_tolerated. exact O.
  - apply on_tolerated. exact O.
  - exact M.
  - left. auto.
  - left. auto.
Qed.

(** Nearest point: the datum of the closest tick, except just before the last tick. *)
Theorem C41_nearest_picks : forall g x y z, good g ->
  - / 10 ^ 7 < steps_of (g_x g) x < INR (a_n (g_x g)) -> - / 10 ^ 7 < steps_of (g_y g) y < INR (a_n (g_y g)) ->
  - / 10 ^ 7 < steps_of (g_z g) z < INR (a_n (g_z g)) ->
  exists i j k, represents (g_x g) i x /\ represents (g_y g) j y /\ represents (g_z g) k z
    /\ nearest3 g x y z = Ok (cell3 (g_data g) i j k).
Proof. exact nearest_picks. Qed.
(** The last tick itself is refused, unlike by the linear interpolation. *)
Theorem C41_nearest_domain : forall g x y z, good g ->
  ~ (- / 10 ^ 7 < steps_of (g_x g) x < INR (a_n (g_x g)) /\ - / 10 ^ 7 < steps_of (g_y g) y < INR (a_n (g_y g))
     /\ - / 10 ^ 7 < steps_of (g_z g) z < INR (a_n (g_z g))) ->
  nearest3 g x y z = Err CppException.
Proof. exact nearest_domain. Qed.
Example C41_nearest_example : good cube /\ - / 10 ^ 7 < steps_of (g_x cube) (3 / 4) < INR (a_n (g_x cube))
  /\ nearest3 cube (3 / 4) (1 / 4) (1 / 4) = Ok 1 /\ nearest3 cube 1 0 0 = Err CppException /\ linear3 cube 1 0 0 = Ok 0.
Proof.
  destruct C41_cell_example as (G & _). pose proof eps_pos as E. pose proof eps_half as EH. split; [exact G|].
  assert (Sx : forall x, steps_of (mkAxis 0 1 1) x = x) by (intros; unfold steps_of; cbn; lra).
  assert (St : a_step (mkAxis 0 1 1) <> 0) by (cbn; lra). assert (Np : (0 < a_n (mkAxis 0 1 1))%nat) by (cbn; lia).
  split; [cbn [cube g_x]; rewrite Sx; cbn; lra|]. split; [|split].
  - assert (H : forall x t, x = t -> 0 <= t <= 3 / 4 -> index_NN (mkAxis 0 1 1) x = Ok (0%nat, t)).
    { intros x t -> T. destruct (indexNN_cases (mkAxis 0 1 1) t St Np) as [(O & i & s & I & T' & X & ->)|[(O & _)|(O & _)]]; rewrite ?Sx in *; cbn [a_n INR] in *.
      - destruct i; [|lia]. cbn [INR] in X. do 2 f_equal. lra.
      - lra.
      - exfalso. apply O. lra. }
    unfold nearest3. cbn [cube g_x g_y g_z]. rewrite (H (3 / 4) (3 / 4)), (H (1 / 4) (1 / 4)) by lra. cbn [bind]. unfold rounded. cbn [fst snd].
    rewrite (proj2 (Rltb_t _ _)) by lra. rewrite !(proj2 (Rltb_f _ _)) by lra. cbn. reflexivity.
  - apply nearest_domain; [exact G|]. cbn [cube g_x]. rewrite Sx. cbn. lra.
  - destruct (cell_domain cube 1 0 0 G) as [_ _]. destruct C41_cell_example as (_ & _ & T & N & _).
    assert (O : on_axis (g_y cube) 0) by (unfold on_axis; cbn [cube g_y]; rewrite Sx; cbn; lra).
    rewrite (cell_moved cube 1 0 0 0 0 0 G T (on_tolerated _ _ O) (on_tolerated _ _ O)); [|right; split; [exact N|reflexivity]|left; auto|left; auto].
    replace 0 with (place (mkAxis 0 1 1) 0 0) by (unfold place, tick; cbn; lra).
    etransitivity; [apply (cell_interpolates cube 0 0 0 0 0 0 G); cbn; lia || lra|]. unfold mix3, mix, place, tick. cbn. f_equal. lra.
Qed.
(** False of the code: always the datum of a closest tick. *)
Theorem C41_nearest_refuted : exists g x u, good g /\ on_axis (g_x g) x /\ nearest3 g x 0 0 = Ok u
  /\ forall i, closest (a_start (g_x g)) (a_step (g_x g)) (a_n (g_x g)) i x -> u <> cell3 (g_data g) i 0 0.
Proof.
  exists cube, (1 - / 10 ^ 8), 0. destruct C41_cell_example as (G & _). pose proof eps_pos as E. pose proof eps_half as EH.
  assert (E8 : 0 < / 10 ^ 8) by (apply Rinv_0_lt_compat, pow_lt; lra).
  assert (E87 : / 10 ^ 8 < / 10 ^ 7) by (apply Rinv_lt_contravar; [apply Rmult_lt_0_compat; apply pow_lt; lra|apply Rlt_pow; [lra|lia]]).
  assert (Sx : forall x, steps_of (mkAxis 0 1 1) x = x) by (intros; unfold steps_of; cbn; lra).
  assert (St : a_step (mkAxis 0 1 1) <> 0) by (cbn; lra). assert (Np : (0 < a_n (mkAxis 0 1 1))%nat) by (cbn; lia).
  split; [exact G|]. split; [unfold on_axis; cbn [cube g_x]; rewrite Sx; cbn [a_n INR]; lra|]. split.
  - unfold nearest3. cbn [cube g_x g_y g_z g_data].
    destruct (indexNN_cases (mkAxis 0 1 1) (1 - / 10 ^ 8) St Np) as [(O & _)|[(O & ->)|(O & _)]]; rewrite ?Sx in *; cbn [a_n INR] in *; [lra| |exfalso; apply O; lra].
    destruct (indexNN_cases (mkAxis 0 1 1) 0 St Np) as [(O' & i & s & I & T' & X & ->)|[(O' & _)|(O' & _)]]; rewrite ?Sx in *; cbn [a_n INR] in *; [|lra|exfalso; apply O'; lra].
    destruct i; [|lia]. cbn [INR] in X. replace s with 0 by lra. cbn [bind]. unfold rounded. cbn [fst snd]. rewrite !(proj2 (Rltb_f _ _)) by lra. cbn. reflexivity.
  - cbn [cube g_x a_start a_step a_n g_data cell3]. intros i [L H]. specialize (H 1%nat ltac:(lia)). unfold tick in H.
    destruct i as [|i]; [|cbn [INR Nat.add Nat.mul]; intros Z; destruct i; [cbn in Z; lra|lia]].
    exfalso. cbn [INR] in H. rewrite (Rabs_pos_eq (1 - / 10 ^ 8 - _)) in H by lra. rewrite Rabs_left in H by lra. lra.
Qed.

(** ** C42 *)

(** Q is taken into the cell by a reciprocal lattice vector. *)
Theorem C42_reduced : forall b1 b2 b3 Q, independent b1 b2 b3 ->
  exists q, reducedQ b1 b2 b3 Q = Some q
    /\ (exists x y z, frac x /\ frac y /\ frac z /\ q = comb b1 b2 b3 x y z)
    /\ (exists h k l, Q = vadd q (comb b1 b2 b3 (IZR h) (IZR k) (IZR l))).
Proof. exact reduced. Qed.
(** Any dispersion made periodic has the period of the reciprocal lattice, and is unchanged within the cell. *)
Theorem C42_periodic : forall core b1 b2 b3, independent b1 b2 b3 ->
  let d := periodic core b1 b2 b3 in
  (forall branch Q h k l, energy d branch (vadd Q (comb b1 b2 b3 (IZR h) (IZR k) (IZR l))) = energy d branch Q)
  /\ (forall branch atom Q h k l, polarization d branch atom (vadd Q (comb b1 b2 b3 (IZR h) (IZR k) (IZR l))) = polarization d branch atom Q)
  /\ (forall branch x y z, frac x -> frac y -> frac z -> energy d branch (comb b1 b2 b3 x y z) = energy core branch (comb b1 b2 b3 x y z))
  /\ (forall branch atom x y z, frac x -> frac y -> frac z ->
        polarization d branch atom (comb b1 b2 b3 x y z) = polarization core branch atom (comb b1 b2 b3 x y z)).
Proof. exact periodic_energy. Qed.
(** A dispersion can be made from arrays exactly if the cell is not flat and the shapes belong together. *)
Theorem C42_made_iff : forall natoms b1 b2 b3 n1 n2 n3 p e,
  (exists d, periodicdispersion_fromidf natoms (b1, n1) (b2, n2) (b3, n3) p e = Ok d) <-> (independent b1 b2 b3 /\ fits natoms n1 n2 n3 p e).
Proof. exact made_iff. Qed.
(** It has the atoms asked for and three branches for each. *)
Theorem C42_made_counts : forall natoms b1 b2 b3 n1 n2 n3 p e d,
  periodicdispersion_fromidf natoms (b1, n1) (b2, n2) (b3, n3) p e = Ok d -> nAtoms d = natoms /\ nBranches d = (3 * natoms)%nat.
Proof. exact made_counts. Qed.
(** Its energy, h1, h2, h3 cells away, i, j, k points and t, v, w of a step into the cell, is the mixture of the eight data around. *)
Theorem C42_made_energy : forall natoms b1 b2 b3 n1 n2 n3 p e d branch h1 h2 h3 i j k t v w,
  periodicdispersion_fromidf natoms (b1, n1) (b2, n2) (b3, n3) p e = Ok d -> (branch < 3 * natoms)%nat ->
  (S i < n1)%nat -> (S j < n2)%nat -> (S k < n3)%nat -> 0 <= t < 1 -> 0 <= v < 1 -> 0 <= w < 1 ->
  energy d branch (comb b1 b2 b3 (coordinate h1 n1 i t) (coordinate h2 n2 j v) (coordinate h3 n3 k w))
  = Ok (mix3 (fun x y z => cell4 e x y z branch) i j k t v w).
Proof. exact made_energy. Qed.
(** It has an energy for every Q, between the reported minimum and maximum, which are values of the grid. *)
Theorem C42_made_bounds : forall natoms b1 b2 b3 n1 n2 n3 p e d branch,
  periodicdispersion_fromidf natoms (b1, n1) (b2, n2) (b3, n3) p e = Ok d -> (branch < 3 * natoms)%nat ->
  exists lo hi, min_energy d branch = Ok lo /\ max_energy d branch = Ok hi
    /\ (forall Q, exists u, energy d branch Q = Ok u /\ lo <= u <= hi)
    /\ (exists i j k, (i < n1)%nat /\ (j < n2)%nat /\ (k < n3)%nat /\ cell4 e i j k branch = lo)
    /\ (exists i j k, (i < n1)%nat /\ (j < n2)%nat /\ (k < n3)%nat /\ cell4 e i j k branch = hi).
Proof. exact made_bounds. Qed.
(** Its polarisation is, with all its components, that of one point of the grid. *)
Theorem C42_made_polarization : forall natoms b1 b2 b3 n1 n2 n3 p e d branch atom h1 h2 h3 x y z,
  periodicdispersion_fromidf natoms (b1, n1) (b2, n2) (b3, n3) p e = Ok d -> (branch < 3 * natoms)%nat -> (atom < natoms)%nat ->
  frac x -> frac y -> frac z ->
  exists i j k, stands_for n1 i x /\ stands_for n2 j y /\ stands_for n3 k z
    /\ let c := cell7 p i j k branch atom in
       polarization d branch atom (comb b1 b2 b3 (IZR h1 + x) (IZR h2 + y) (IZR h3 + z))
       = Ok ((c 0%nat 0%nat, c 0%nat 1%nat), (c 1%nat 0%nat, c 1%nat 1%nat), (c 2%nat 0%nat, c 2%nat 1%nat)).
Proof. exact made_polarization. Qed.
(** If the data repeat themselves at the far faces of the cell, the energy is continuous over the whole of space. *)
Theorem C42_made_continuous : forall natoms b1 b2 b3 n1 n2 n3 p e d branch M1 M2 M3 x y z x' y' z' u u',
  periodicdispersion_fromidf natoms (b1, n1) (b2, n2) (b3, n3) p e = Ok d -> (branch < 3 * natoms)%nat ->
  closed n1 n2 n3 (fun i j k => cell4 e i j k branch) -> gradual n1 n2 n3 (fun i j k => cell4 e i j k branch) M1 M2 M3 ->
  energy d branch (comb b1 b2 b3 x y z) = Ok u -> energy d branch (comb b1 b2 b3 x' y' z') = Ok u' ->
  Rabs (u - u') <= INR (n1 - 1) * M1 * Rabs (x - x') + INR (n2 - 1) * M2 * Rabs (y - y') + INR (n3 - 1) * M3 * Rabs (z - z').
Proof. exact made_continuous. Qed.

Definition ex1 := mkV 2 0 0. Definition ex2 := mkV 1 3 0. Definition ex3 := mkV 0 1 1.
Definition example_p : array7 := mkA7 2 2 2 3 1 3 2 (fun i j k b a c r => INR (i + j + k + b + a + c + r)).
(* energies that do not repeat themselves at the far face *)
Definition example_e : array4 := mkA4 2 2 2 3 (fun i j k b => INR (i + b)).
(* energies that do *)
Definition example_c : array4 := mkA4 3 2 2 3 (fun i j k b => (if Nat.eqb i 1 then 1 else 0) + INR b).
Definition example_p3 : array7 := mkA7 3 2 2 3 1 3 2 (fun i j k b a c r => INR (i + j + k + b + a + c + r)).
Example C42_example : independent ex1 ex2 ex3
  /\ (exists d, periodicdispersion_fromidf 1 (ex1, 2%nat) (ex2, 2%nat) (ex3, 2%nat) example_p example_e = Ok d)
  /\ (exists d, periodicdispersion_fromidf 1 (ex1, 3%nat) (ex2, 2%nat) (ex3, 2%nat) example_p3 example_c = Ok d)
  /\ closed 3 2 2 (fun i j k => cell4 example_c i j k 1) /\ gradual 3 2 2 (fun i j k => cell4 example_c i j k 1) 1 0 0.
Proof.
  assert (I : independent ex1 ex2 ex3) by (apply indep_iff; unfold vol, ex1, ex2, ex3, vdot, vcross; cbn; lra).
  split; [exact I|]. split; [|split; [|split]].
  - apply made_iff. split; [exact I|]. unfold fits. cbn. lia.
  - apply made_iff. split; [exact I|]. unfold fits. cbn. lia.
  - unfold closed. cbn [example_c cell4]. repeat split.
  - intros i j k A B C. cbn [example_c cell4]. repeat split; intros; rewrite ?Rminus_diag_eq by reflexivity; rewrite ?Rabs_R0; try lra.
    destruct i as [|[|i]]; [| |lia]; cbn; apply Rabs_le; lra.
Qed.
(** False of the code: the energy is continuous for any data.  Close to the far face it may jump, however close the two points are. *)
Theorem C42_continuous_refuted : exists natoms b1 b2 b3 n1 n2 n3 p e d,
  periodicdispersion_fromidf natoms (b1, n1) (b2, n2) (b3, n3) p e = Ok d
  /\ forall eps, 0 < eps < 1 -> exists x x' u u', Rabs (x - x') < eps
    /\ energy d 0 (comb b1 b2 b3 x 0 0) = Ok u /\ energy d 0 (comb b1 b2 b3 x' 0 0) = Ok u' /\ / 2 <= Rabs (u - u').
Proof.
  destruct C42_example as (I & [d D] & _). exists 1%nat, ex1, ex2, ex3, 2%nat, 2%nat, 2%nat, example_p, example_e, d. split; [exact D|].
  intros eps E. exists (coordinate 0 2 0 (1 - eps / 2)), (coordinate 1 2 0 0), (1 - eps / 2), 0.
  split; [unfold coordinate; cbn; rewrite Rabs_left; lra|].
  assert (Z : 0 = coordinate 0 2 0 0) by (unfold coordinate; cbn; lra).
  split; [|split].
  - rewrite Z at 1 2. rewrite (made_energy _ _ _ _ _ _ _ _ _ _ 0 0 0 0 0 0 0 (1 - eps / 2) 0 0 D) by (lia || lra).
    unfold mix3, mix. cbn. f_equal. lra.
  - rewrite Z at 2 3. rewrite (made_energy _ _ _ _ _ _ _ _ _ _ 0 1 0 0 0 0 0 0 0 0 D) by (lia || lra).
    unfold mix3, mix. cbn. f_equal. lra.
  - rewrite Rabs_pos_eq; lra.
Qed.

Print Assumptions C41_line_interpolates. Print Assumptions C41_line_domain. Print Assumptions C41_line_step_zero. Print Assumptions C41_line_between.
Print Assumptions C41_line_steep. Print Assumptions C41_line_affine. Print Assumptions C41_line_last_tick_refuted.
Print Assumptions C41_cell_interpolates. Print Assumptions C41_cell_domain. Print Assumptions C41_cell_moved. Print Assumptions C41_cell_between.
Print Assumptions C41_cell_range. Print Assumptions C41_cell_multilinear. Print Assumptions C41_cell_steep. Print Assumptions C41_cell_last_tick_refuted.
Print Assumptions C41_nearest_picks. Print Assumptions C41_nearest_domain. Print Assumptions C41_nearest_refuted.
Print Assumptions C42_reduced. Print Assumptions C42_periodic. Print Assumptions C42_made_iff. Print Assumptions C42_made_counts. Print Assumptions C42_made_energy. Print Assumptions C42_made_bounds.
Print Assumptions C42_made_polarization. Print Assumptions C42_made_continuous. Print Assumptions C42_continuous_refuted.
