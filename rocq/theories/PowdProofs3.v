(** Proofs for C57: scattering. *)
From Coq Require Import Reals Lra Lia.
From Coquelicot Require Import Coquelicot.
From Verif Require Import Base RotModel RotSpec ChanModel ChanProofs ShapeModel ShapeSpec ShapeProofs ScatModel ScatSpec UnitModel UnitSpec UnitProofs KinModel KinSpec KinProofs KinProofs2 KinProofs3 KinProofs4 GridProofs PowdModel PowdSpec PowdProofs PowdProofs2.
Open Scope R_scope.

Definition dflt : peak := mkPeak 0 0 0 0 0.
Lemma nth_map {A} (f : A -> R) l i d z : (i < List.length l)%nat -> nth i (map f l) z = f (nth i l d).
Proof. revert i. induction l as [|x l IH]; intros i L; [cbn in L; lia|]. destruct i; [reflexivity|]. cbn. apply IH. cbn in L. lia. Qed.

(** the index *)
Lemma index_floor u n : 0 <= u < 1 -> (0 < n)%nat -> random_index u n = Z.to_nat (floorZ (u * INR n)) /\ (random_index u n < n)%nat.
Proof.
  intros U N. unfold random_index, random. replace (u * (INR n - 0) + 0) with (u * INR n) by ring. assert (P : 0 < INR n) by (apply lt_0_INR; lia). rewrite trunc_nonneg by nra.
  assert (L : (floorZ (u * INR n) < Z.of_nat n)%Z) by (apply floor_lt; rewrite <- INR_IZR_INZ; nra). assert (G : (0 <= floorZ (u * INR n))%Z) by (apply floor_nonneg; nra).
  split; [apply Nat.mod_small; lia|apply Nat.mod_upper_bound; lia].
Qed.
Lemma index_end n : (0 < n)%nat -> random_index 1 n = 0%nat.
Proof.
  intros N. unfold random_index, random. replace (1 * (INR n - 0) + 0) with (IZR (Z.of_nat n)) by (rewrite <- INR_IZR_INZ; ring). rewrite trunc_IZR, Nat2Z.id. apply Nat.mod_same. lia.
Qed.
Lemma index_below u n : (0 < n)%nat -> (random_index u n < n)%nat.
Proof. intros N. unfold random_index. apply Nat.mod_upper_bound. lia. Qed.
(** the peak that is chosen *)
Definition choose (u : R) (n : nat) : nat := if Nat.ltb 1 n then random_index u n else 0%nat.
Lemma choose_below u n : (0 < n)%nat -> (choose u n < n)%nat.
Proof. intros N. unfold choose. destruct (Nat.ltb 1 n); [now apply index_below|exact N]. Qed.
Lemma choose_index u n : (0 < n)%nat -> choose u n = random_index u n.
Proof. intros N. unfold choose. destruct (Nat.ltb_spec 1 n) as [|L]; [reflexivity|]. assert (n = 1%nat) by lia. subst n. unfold random_index. now rewrite Nat.mod_1_r. Qed.
Fixpoint sum_to (f : nat -> R) (n : nat) : R := match n with O => 0 | S n => sum_to f n + f n end.
Lemma step_int (f : nat -> R) n : (0 < n)%nat -> is_RInt (fun u => f (choose u n)) 0 1 (sum_to f n / INR n).
Proof.
  intros N. assert (P : 0 < INR n) by (apply lt_0_INR; lia).
  assert (H : forall j, (j <= n)%nat -> is_RInt (fun u => f (choose u n)) 0 (INR j / INR n) (sum_to f j / INR n)).
  { induction j as [|j IH]; intros L.
    - cbn. replace (0 / INR n) with 0 by (field; lra). apply @is_RInt_point.
    - replace (sum_to f (S j) / INR n) with (plus (sum_to f j / INR n) (f j / INR n)) by (cbn; unfold plus; cbn; field; lra).
      apply (@is_RInt_Chasles R_NormedModule) with (INR j / INR n); [apply IH; lia|].
      assert (J : INR j / INR n < INR (S j) / INR n) by (apply Rmult_lt_compat_r; [now apply Rinv_0_lt_compat|apply lt_INR; lia]).
      apply (@is_RInt_ext R_NormedModule (fun _ => f j)).
      + intros u. rewrite Rmin_left, Rmax_right by lra. intros [A B]. assert (U0 : 0 <= INR j / INR n) by (apply Rmult_le_pos; [apply pos_INR|left; now apply Rinv_0_lt_compat]).
        assert (U1 : INR (S j) / INR n <= 1). { apply (Rmult_le_reg_r (INR n)); [exact P|]. replace (INR (S j) / INR n * INR n) with (INR (S j)) by (field; lra). rewrite Rmult_1_l. apply le_INR. lia. }
        rewrite choose_index by exact N. rewrite (proj1 (index_floor u n ltac:(lra) N)). f_equal. assert (F : floorZ (u * INR n) = Z.of_nat j).
        { apply floor_unique. rewrite <- INR_IZR_INZ. rewrite S_INR in B. split.
          - apply (Rmult_le_reg_r (/ INR n)); [now apply Rinv_0_lt_compat|]. replace (u * INR n * / INR n) with u by (field; lra). left. exact A.
          - apply (Rmult_lt_reg_r (/ INR n)); [now apply Rinv_0_lt_compat|]. replace (u * INR n * / INR n) with u by (field; lra). exact B. }
        rewrite F. symmetry. apply Nat2Z.id.
      + replace (f j / INR n) with (scal (INR (S j) / INR n - INR j / INR n) (f j)) by (unfold scal; cbn [ModuleSpace.scal]; rewrite S_INR; cbn; unfold mult; cbn; field; lra). apply @is_RInt_const. }
  specialize (H n (le_n n)). replace (INR n / INR n) with 1 in H by (field; lra). exact H.
Qed.
Lemma sum_over k f l : ordered l -> sum_to (fun i => f (nth i l dflt)) (number_reached k l) = over_reached k f l.
Proof.
  intros O.
  assert (S1 : forall (l : list peak) n, (n <= List.length l)%nat -> sum_to (fun i => f (nth i l dflt)) n = fold_right Rplus 0 (map f (firstn n l))).
  { intros l' n. revert l'. assert (X : forall n l', (n <= List.length l')%nat -> fold_right Rplus 0 (map f (firstn n l')) = sum_to (fun i => f (nth i l' dflt)) n).
    { clear. assert (SH : forall g n, sum_to g (S n) = g 0%nat + sum_to (fun i => g (S i)) n) by (intros g n; induction n as [|n IH]; [cbn; ring|]; cbn [sum_to] in *; rewrite IH; ring).
      induction n as [|n IH]; intros l' L; [reflexivity|]. destruct l' as [|x l']; [cbn in L; lia|]. cbn [firstn map fold_right]. rewrite IH by (cbn in L; lia). rewrite SH. reflexivity. }
    intros l' L. symmetry. now apply X. }
  rewrite S1 by (apply filter_le). rewrite <- (reached_first k l O). clear. induction l as [|p l IH]; [reflexivity|]. cbn. destruct (reached k p); cbn; rewrite IH; ring.
Qed.

(** one neutron, in general *)
Lemma asin_ok x : -1 <= x <= 1 -> std_asin x = Some (asin x).
Proof. intros H. unfold std_asin. rewrite !(proj2 (Rltb_f _ _)) by lra. reflexivity. Qed.
Lemma asin_bad x : x < -1 \/ 1 < x -> std_asin x = None.
Proof. intros [H|H]; unfold std_asin; rewrite (proj2 (Rltb_t _ _) H); [reflexivity|]. now rewrite Bool.orb_true_r. Qed.

Definition opening (kk : R) (p : peak) (u : R) : R := (if Req_EM_T (pk_line_width p) 0 then pk_q p else pk_q p * (1 + pk_line_width p * (2 * u - 1))) / (2 * kk).
Definition near (tt : R) : bool := Rltb (1 - Rabs (cos tt)) (1 / 10 ^ 7).

Section Scatter.
Variables (data : powder_data) (d : R) (k : powder) (ev : event) (kk : R).
Hypothesis Mk : new_powder data d = Ok (Some k).
Let v := e_v ev.
Hypothesis Nz : v <> mkV 0 0 0.
Hypothesis W : is_wavenumber kk (speed v).
Let l := pd_peaks data.
Lemma scatter_none up uw ua : l = [] -> powder_scatter k up uw ua ev = Err UndefinedBehaviour.
Proof using Mk. intros E. apply new_inv in Mk. destruct Mk as (O & U & ->). unfold powder_scatter, kernel_of. cbn [pw_q_v]. fold l. rewrite E. reflexivity. Qed.
Lemma scatter_low up uw ua p l' : l = p :: l' -> reached kk p = false -> powder_scatter k up uw ua ev = Ok (k, with_pv ev (-1) (Some v)).
Proof using Mk W.
  intros E R. apply new_inv in Mk. destruct Mk as (O & U & ->). unfold powder_scatter, kernel_of at 1. cbn [pw_q_v]. fold l. rewrite E. cbn [map]. rewrite norm_is. fold v. rewrite (not_reached_speed kk p (speed v) W), R. reflexivity.
Qed.
Let n := number_reached kk l.
Lemma scatter_general up uw ua p l' : l = p :: l' -> reached kk p = true ->
  let i := choose up n in let pi := nth i l dflt in let x := opening kk pi uw in
  powder_scatter k up uw ua ev =
    match std_asin x with
    | None => Ok (k, with_pv ev (-1) None)
    | Some theta =>
        let '(alpha0, d_phi) := azimuth d theta ua in
        let k' := kernel_of data d_phi in
        match (match rotate (1 / 10 ^ 7) v (second_axis v) (Some (2 * theta)) with None => None | Some vout => rotate (1 / 10 ^ 7) vout v alpha0 end) with
        | None => Ok (k', with_pv ev (-1) None)
        | Some vout => Ok (k', with_pv ev (e_p ev * (INR n * cone_coefficient kk (pd_volume data) pi)) (Some vout))
        end
    end.
Proof using Mk W Nz.
  intros E R. cbv zeta. pose proof (speed_pos v Nz) as S. pose proof Mk as MK. apply new_inv in MK. destruct MK as (O & [NV Q] & K). fold l in O, Q. unfold powder_scatter. assert (PQ : pw_q_v k = pk_q p * k2v :: map (fun p => pk_q p * k2v) l') by (rewrite K; cbn [kernel_of pw_q_v]; fold l; rewrite E; reflexivity).
  rewrite PQ. cbv zeta. rewrite norm_is. fold v. rewrite (not_reached_speed kk p (speed v) W), R. cbn [negb]. rewrite (proj2 (Reqb_f _ _)) by lra.
  assert (O' : ordered l') by (rewrite E in O; now apply ordered_cons in O).
  assert (NE : scatterable (speed v) (map (fun p => pk_q p * k2v) l') = n) by (rewrite (scatterable_count kk (speed v) l' W O'); unfold n, number_reached; rewrite E; cbn; now rewrite R).
  rewrite NE. change (if Nat.ltb 1 n then random_index up n else 0%nat) with (choose up n). rewrite <- PQ. assert (NP : (0 < n)%nat) by (rewrite <- NE; destruct (map _ l'); cbn; [lia|destruct (Rltb _ _); lia]).
  set (i := choose up n). assert (I : (i < n)%nat) by now apply choose_below. destruct (reached_nth kk l i dflt O I) as (RI & LI & IN). rewrite K. cbn [kernel_of pw_q_v pw_w_v pw_s_v2 pw_absorption_coeff pw_volume pw_d_phi]. fold l.
  rewrite !(nth_map _ l i dflt) by exact LI. set (pi := nth i l dflt) in *. specialize (Q pi IN).
  assert (X : (if Reqb (pk_line_width pi) 0 then pk_q pi * k2v / (2 * speed v) else pk_q pi * k2v * (1 + pk_line_width pi * random uw (-1) 1) / (2 * speed v)) = opening kk pi uw).
  { unfold opening, Reqb, random. apply is_wavenumber_iff in W. pose proof k2v_v2k as KV. pose proof v2k_pos. assert (KE : k2v = / v2k) by (apply (Rmult_eq_reg_r v2k); [rewrite KV; field; lra|lra]). rewrite W, KE. destruct (Req_EM_T (pk_line_width pi) 0); field; lra. }
  rewrite X. replace (sv (pd_volume data) pi / (speed v * speed v) * INR n / pd_volume data) with (INR n * cone_coefficient kk (pd_volume data) pi); [|rewrite <- (sv_coefficient kk (speed v) (pd_volume data) pi W S NV Q); field; split; assumption || lra].
  reflexivity.
Qed.
End Scatter.
