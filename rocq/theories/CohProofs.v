(** Proofs for C69. *)
From Coq Require Import Reals Lra Lia.
From Coquelicot Require Import Coquelicot.
From Verif Require Import Base RotModel RotSpec ChanModel ChanProofs ShapeModel ShapeSpec ShapeProofs ScatModel ScatSpec UnitModel UnitSpec UnitProofs KinModel KinSpec KinProofs KinProofs2 GridModel GridProofs PowdModel PowdSpec PowdProofs PowdProofs3 PhonModel PhonSpec PhonProofs3 RootModel RootSpec RootProofs RootProofs2 ConeModel ConeSpec ConeProofs CohModel CohSpec.
Open Scope R_scope.

Lemma wave_vector_iff q v : wave_vector q v <-> q = vscale v2k v.
Proof.
  unfold wave_vector. rewrite !is_wavenumber_iff. unfold vscale. destruct q as [a b c], v as [x y z]. cbn. split; [intros (-> & -> & ->); reflexivity|intros E; injection E; auto].
Qed.
Lemma speed_scale_abs s d : norm2 d = 1 -> speed (vscale s d) = Rabs s.
Proof. intros N. rewrite scale_speed. replace (speed d) with 1 by (unfold speed; rewrite N; symmetry; apply sqrt_1). ring. Qed.
Lemma energy_diff a s : vsquare2E (Rabs (a * a - s * s)) = Rabs (v2E a - v2E (Rabs s)).
Proof.
  unfold vsquare2E, v2E. pose proof vsq2e_pos as P. rewrite <- (Rabs_pos_eq vsq2e) at 1 by lra. rewrite <- Rabs_mult. f_equal. rewrite <- Rabs_mult, (Rabs_pos_eq (s * s)) by nra. ring.
Qed.
Lemma excess_of d b vi dir s : norm2 dir = 1 -> excess d b vi (vscale s dir) (omega_minus_deltaE d b dir vi (vnorm vi) s).
Proof.
  intros N. exists (v2E (speed vi)), (v2E (speed (vscale s dir))), (vscale v2k (vsub vi (vscale s dir))). split; [now apply is_energy_iff|]. split; [now apply is_energy_iff|]. split; [now apply wave_vector_iff|].
  unfold omega_minus_deltaE. cbv zeta. change (vnorm vi) with (speed vi). rewrite energy_diff, speed_scale_abs by exact N. reflexivity.
Qed.
Lemma excess_unique d b v v' x y : excess d b v v' x -> excess d b v v' y -> x = y.
Proof.
  intros (A & B & q & E1 & E2 & W & ->) (A' & B' & q' & E1' & E2' & W' & ->). apply is_energy_iff in E1, E2, E1', E2'. apply wave_vector_iff in W, W'. congruence.
Qed.
Lemma unit_nz d : norm2 d = 1 -> d <> mkV 0 0 0.
Proof. intros N ->. unfold norm2, sdot in N. cbn in N. lra. Qed.
Lemma direction_ok u1 u2 target radius : 0 <= u1 <= 1 -> (0 < radius -> target <> mkV 0 0 0) ->
  exists d n, choose_scattering_direction u1 u2 target radius = (Some d, Some (target_solid target radius)) /\ normalize d = Some n /\ norm2 n = 1 /\ (0 < radius -> hits_disk target radius n).
Proof.
  intros U T. unfold choose_scattering_direction, target_solid. destruct (Rle_dec radius 0) as [L|L].
  - rewrite (proj2 (Rleb_true _ _)) by exact L. pose proof (proj2 (choose_unit u1 u2 U)) as N. exists (choose_direction u1 u2), (choose_direction u1 u2). split; [reflexivity|]. split; [now apply normalize_unit|]. split; [exact N|lra].
  - rewrite (proj2 (Rleb_false _ _)) by lra. specialize (T ltac:(lra)). destruct (cone_hits target radius u1 u2 T ltac:(lra) U) as (d & DE & DN & (t & T0 & H1 & H2)). destruct (directions target radius T) as (e1 & e2 & e3 & _ & _ & D). specialize (D u1 u2 U). cbv zeta in D. rewrite D in DE |- *. cbn [fst] in DE. rewrite DE.
    assert (DZ : d <> mkV 0 0 0). { intros ->. pose proof (n2_pos _ T) as K. rewrite <- DN in K. unfold norm2, sdot in K. cbn in K. lra. }
    destruct (normalize_some d DZ) as (n & NE & AL & NN). exists d, n. split; [reflexivity|]. split; [exact NE|]. split; [exact NN|]. intros _. exists (t * speed d). pose proof (speed_pos d DZ). split; [nra|].
    replace (vscale (t * speed d) n) with (vscale t d); [now split|]. rewrite AL at 1. unfold vscale. destruct n. cbn. f_equal; ring.
Qed.

Lemma in_roots f xacc n b s : (0 < n)%nat -> In s (find_roots_evenly (ZRidd_solve xacc) n 0 b f) -> exists i, (i < n)%nat /\ ZRidd_solve xacc (grid 0 b n i) (grid 0 b n (i + 1)) f = Found s.
Proof.
  intros N H. unfold find_roots_evenly in H. apply in_flat_map in H. destruct H as (i & I & H). apply in_seq in I. exists i. split; [lia|]. unfold root_of_step in H. rewrite !grid_eq in H by exact N. destruct (ZRidd_solve xacc _ _ f) as [x| | |] eqn:E; try (now destruct H). destruct H as [->|[]]. reflexivity.
Qed.
Lemma count_roots f xacc n b : 0 < xacc < 10 ^ 30 -> 0 <= b -> b <= INR n * (2 ^ 59 * xacc) ->
  exists chg : nat -> bool, (forall i, (i < n)%nat -> chg i = true <-> changes_sign f (grid 0 b n i) (grid 0 b n (i + 1))) /\
    List.length (find_roots_evenly (ZRidd_solve xacc) n 0 b f) = List.length (filter chg (seq 0 n)).
Proof.
  intros X B W. exists (fun i => if changes_dec f (grid 0 b n i) (grid 0 b n (i + 1)) then true else false). split.
  - intros i _. destruct (changes_dec _ _ _); split; auto; discriminate.
  - unfold find_roots_evenly. assert (A : forall i, In i (seq 0 n) -> (i < n)%nat) by (intros i I; apply in_seq in I; lia). revert A. generalize (seq 0 n) as l. induction l as [|i l IH]; intros A; [reflexivity|]. cbn [flat_map filter]. rewrite app_length, IH by (intros j J; apply A; now right).
    assert (UB : UNUSED + xacc < Rmin 0 b) by (rewrite UNUSED_eq, Rmin_left by lra; lra). destruct (root_of_step_spec f xacc 0 b n i (A i (or_introl eq_refl)) (proj1 X) UB) as [P Q]; [rewrite Rminus_0_r, Rabs_pos_eq; lra|].
    destruct (changes_dec _ _ _) as [C|C]; [destruct (P C) as (x & -> & _)|rewrite (Q C)]; reflexivity.
Qed.
Lemma picked k b dir vi u v_f w : norm2 dir = 1 -> pick_v_f k b dir vi u = Some (v_f, w) ->
  let f := omega_minus_deltaE (sx_disp k) b dir vi (vnorm vi) in let roots := find_roots_evenly (ZRidd_solve (sx_xacc k)) (sx_nSteps k) 0 (vnorm vi * 2) f in
  exists s, In s roots /\ v_f = Some (vscale s dir) /\
    let dv := sx_DV k * vnorm vi in
    w = if Reqb (2 * dv) 0 then None else let J := Rabs (f (s + dv) - f (s - dv)) / (2 * dv) in if Reqb J 0 then None else Some (INR (List.length roots) * (2 * vsq2e * s / J)).
Proof.
  intros N H f roots. unfold pick_v_f in H. cbv zeta in H. fold f in H. fold roots in H. destruct roots as [|r0 l] eqn:E; [discriminate|]. injection H as <- <-.
  set (s := nth (random_index u (List.length (r0 :: l))) (r0 :: l) 0). exists s. split; [apply nth_In, index_below; cbn; lia|]. split; [now rewrite normalize_unit by exact N|]. reflexivity.
Qed.
Lemma picked_none k b dir vi u : pick_v_f k b dir vi u = None <-> find_roots_evenly (ZRidd_solve (sx_xacc k)) (sx_nSteps k) 0 (vnorm vi * 2) (omega_minus_deltaE (sx_disp k) b dir vi (vnorm vi)) = [].
Proof. unfold pick_v_f. cbv zeta. destruct (find_roots_evenly _ _ _ _ _); split; auto; discriminate. Qed.

Section Loop.
Context (k : single) (good : list nat) (vi : vec3) (draws : nat -> draw).
Context (U : forall i, 0 <= dr_1 (draws i) <= 1) (T : 0 < sx_radius k -> sx_target k <> mkV 0 0 0).
Lemma loop_some left : forall i sa b r, choose_state k good vi draws left i = Ok (Some (sa, b, r)) ->
  exists dir u, In b good /\ norm2 dir = 1 /\ (0 < sx_radius k -> hits_disk (sx_target k) (sx_radius k) dir) /\ sa = Some (target_solid (sx_target k) (sx_radius k)) /\ pick_v_f k b dir vi u = Some r.
Proof using U T.
  induction left as [|left IH]; intros i sa b r H; cbn in H; [discriminate|].
  destruct (direction_ok (dr_1 (draws i)) (dr_2 (draws i)) (sx_target k) (sx_radius k) (U i) T) as (d & n & DE & NE & NN & HD). rewrite DE, NE in H. destruct good as [|g0 gl] eqn:G; [discriminate|]. rewrite <- G in *.
  set (br := nth (random_index (dr_branch (draws i)) (List.length good)) good 0%nat) in *. destruct (pick_v_f k br n vi (dr_root (draws i))) as [r0|] eqn:PE; [|exact (IH _ _ _ _ H)]. injection H as <- <- <-.
  exists n, (dr_root (draws i)). split; [apply nth_In, index_below; rewrite G; cbn; lia|]. split; [exact NN|]. split; [exact HD|]. split; [reflexivity|exact PE].
Qed.
Lemma loop_none left : good <> [] -> (forall b dir u, In b good -> norm2 dir = 1 -> (0 < sx_radius k -> hits_disk (sx_target k) (sx_radius k) dir) -> pick_v_f k b dir vi u = None) -> forall i, choose_state k good vi draws left i = Ok None.
Proof using U T.
  intros G H. induction left as [|left IH]; intros i; [reflexivity|]. cbn.
  destruct (direction_ok (dr_1 (draws i)) (dr_2 (draws i)) (sx_target k) (sx_radius k) (U i) T) as (d & n & DE & NE & NN & HD). rewrite DE, NE. destruct good as [|g0 gl] eqn:GE; [easy|]. rewrite <- GE in *.
  set (br := nth (random_index (dr_branch (draws i)) (List.length good)) good 0%nat). rewrite (H br n); [apply IH| |exact NN|exact HD]. apply nth_In, index_below. rewrite GE. cbn. lia.
Qed.
End Loop.
Lemma loop_shift k good vi draws left : forall i j sa, (j <= left)%nat -> choose_state k good vi draws j i = Ok None -> choose_state k good vi draws (left - j) (i + j) = sa -> choose_state k good vi draws left i = sa.
Proof.
  induction left as [|left IH]; intros i j sa J H E; [assert (j = 0%nat) by lia; subst j; now rewrite Nat.add_0_r in E|]. destruct j as [|j]; [now rewrite Nat.add_0_r in E|]. cbn in H |- *.
  destruct (choose_scattering_direction _ _ _ _) as [dir sol]. destruct good as [|g0 gl]; [discriminate|]. destruct (match dir with None => None | Some d => normalize d end) as [n|]; [|discriminate]. destruct (pick_v_f _ _ _ _ _); [discriminate|].
  apply (IH (S i) j); [lia|exact H|]. cbn in E. now replace (S i + j)%nat with (i + S j)%nat by lia.
Qed.
Lemma draws_ext k good vi d1 d2 left : forall i j, (forall m, d1 (i + m)%nat = d2 (j + m)%nat) -> choose_state k good vi d1 left i = choose_state k good vi d2 left j.
Proof.
  induction left as [|left IH]; intros i j H; [reflexivity|]. cbn. pose proof (H 0%nat) as H0. rewrite !Nat.add_0_r in H0. rewrite H0. rewrite (IH (S i) (S j)); [reflexivity|]. intros m. specialize (H (S m)). now replace (S i + m)%nat with (i + S m)%nat by lia; replace (S j + m)%nat with (j + S m)%nat by lia.
Qed.
