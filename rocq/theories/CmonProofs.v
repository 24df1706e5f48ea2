From Coq Require Import Reals List Lra Lia ZArith.
From Verif Require Import Base RotModel ChanModel ShapeModel ShapeSpec ChanProofs GridProofs OptModel OptSpec OptProofs3 McsModel McsSpec McsProofs McsProps BmonModel BmonSpec BmonProofs BmonProofs2 CmonModel CmonSpec.
Open Scope R_scope.

(** ** the way out *)
Lemma start_line p v : on_line p v 0 = p.
Proof. unfold on_line. destruct p as [x y z]. cbn. f_equal; ring. Qed.
Lemma hit_inside R0 H r : 0 <= H -> vx (r_vel r) <> 0 \/ vz (r_vel r) <> 0 -> open_cylinder R0 H (r_pos r) ->
  exists t0 t1 k, mc_cylinder_intersect (r_pos r) (r_vel r) R0 H = Ok (mkHit (Some (t0, t1)) k) /\ k <> 0%Z /\ t0 <= 0 <= t1 /\ inside_from_to (closed_cylinder R0 H) (r_pos r) (r_vel r) t0 t1.
Proof.
  intros Hh NV OC. destruct (C78_cylinder (r_pos r) (r_vel r) R0 H Hh NV) as (o & k & E & K0 & K1).
  assert (C0 : closed_cylinder R0 H (on_line (r_pos r) (r_vel r) 0)) by (rewrite start_line; apply cyl_iff; apply cyl_open_iff in OC; lra).
  assert (K : k <> 0%Z) by (intros Z; exact (K0 Z 0 C0)). destruct (K1 K) as (t0 & t1 & -> & I & _). exists t0, t1, k. split; [exact E|]. split; [exact K|]. split; [|exact I]. apply I, C0.
Qed.
Lemma last_time R0 H r t0 t1 s : inside_from_to (closed_cylinder R0 H) (r_pos r) (r_vel r) t0 t1 -> t0 <= 0 <= t1 -> leaves_side R0 H r s \/ leaves_end R0 H r s -> t1 = s.
Proof.
  intros [_ I] T L. assert (OC : open_cylinder R0 H (r_pos r)) by (destruct L as [L|L]; apply L). apply cyl_open_iff in OC. unfold axis_dist2 in OC.
  assert (S0 : 0 < s) by (destruct L as [L|L]; apply L). set (p := r_pos r) in *. set (v := r_vel r) in *.
  assert (Cs : closed_cylinder R0 H (on_line p v s)).
  { apply cyl_iff. destruct L as [(_ & _ & A & B)|(_ & _ & A & B)]; [fold p v in A, B; split; [rewrite A; lra|lra]|]. fold p v in A, B. split; [exact A|]. unfold Rabs in B. destruct (Rcase_abs (vy (on_line p v s))); lra. }
  apply I in Cs. destruct (Rle_lt_or_eq_dec s t1 (proj2 Cs)) as [Lt|E]; [exfalso|now symmetry].
  assert (C1 : closed_cylinder R0 H (on_line p v t1)) by (apply I; lra). apply cyl_iff in C1. destruct C1 as [D1 Y1]. destruct L as [(_ & _ & A & _)|(_ & _ & _ & B)].
  - fold p v in A. unfold axis_dist2, on_line in *. cbn [vx vy vz] in *. set (a := vx v * vx v + vz v * vz v). set (b := vx p * vx v + vz p * vz v). set (c := vx p * vx p + vz p * vz p) in *.
    assert (A' : a * s * s + 2 * b * s + c = R0 * R0) by (unfold a, b, c; lra). assert (D' : a * t1 * t1 + 2 * b * t1 + c <= R0 * R0) by (unfold a, b, c; lra).
    assert (Pa : 0 <= a) by (unfold a; nra). assert (M : 0 <= a * s * t1 * (t1 - s)) by (repeat apply Rmult_le_pos; lra). assert (M1 : s * (a * t1 * t1 + 2 * b * t1 + c) <= s * (R0 * R0)) by (apply Rmult_le_compat_l; lra).
    assert (M2 : (t1 - s) * c < (t1 - s) * (R0 * R0)) by (apply Rmult_lt_compat_l; lra). assert (M3 : t1 * (a * s * s + 2 * b * s + c) = t1 * (R0 * R0)) by (rewrite A'; ring). clear - M M1 M2 M3. nra.
  - fold p v in B. unfold on_line in *. cbn [vx vy vz] in *. assert (OY : - H / 2 < vy p < H / 2) by tauto. unfold Rabs in B. destruct (Rcase_abs (vy p + s * vy v)) as [N|N]; clear - S0 Lt OY Y1 B N; nra.
Qed.
Lemma moved s r : 0 <= s -> prop_dt s None r = prop_dt_nogravity s r.
Proof. intros H. unfold prop_dt. assert (A : 0 < / 10 ^ 15) by (apply Rinv_0_lt_compat; lra). rewrite (proj2 (Rltb_f _ _)) by lra. reflexivity. Qed.
Lemma moved_flown s r : flown weightless r s (prop_dt_nogravity s r).
Proof. unfold flown, prop_dt_nogravity, coordinate, weightless. cbn. repeat split; lra. Qed.
Lemma moved_at s r : r_pos (prop_dt_nogravity s r) = on_line (r_pos r) (r_vel r) s.
Proof. unfold prop_dt_nogravity, on_line. cbn. f_equal; ring. Qed.
(** ** the bins *)
Lemma add_counted h k p : (k < List.length h)%nat -> counted h (add_at h k p) k p.
Proof.
  intros K. destruct (nth_error h k) as [c|] eqn:E; [|apply nth_error_None in E; lia]. split; [apply add_length|]. split.
  - exists c, (add c p). split; [exact E|]. split; [now apply add_same|]. cbn. repeat split; ring.
  - intros m M. now apply add_other.
Qed.
Lemma int_floor_ok x : - 2 ^ 31 <= x < 2 ^ 31 -> int_floor x = Ok (floorZ x).
Proof.
  intros [A B]. unfold int_floor. apply cint_small. destruct (floor_bounds x) as [C D]. split; [apply Z.lt_succ_r; apply lt_IZR; rewrite succ_IZR|apply lt_IZR]; change (IZR (- 2 ^ 31)) with (- 2147483648) in *; change (IZR (2 ^ 31)) with 2147483648; lra.
Qed.
Lemma n31 n : (0 < n < 2 ^ 31)%Z -> 1 <= IZR n <= 2 ^ 31 - 1.
Proof. intros [A B]. split; [apply IZR_le; lia|]. replace (2 ^ 31 - 1) with (IZR (2 ^ 31 - 1)) by (change (2 ^ 31 - 1)%Z with 2147483647%Z; lra). apply IZR_le. lia. Qed.
Lemma flat_of (i j : nat) (n : Z) : (0 < n)%Z -> (Z.of_nat j + Z.of_nat i * n)%Z = Z.of_nat (j + i * Z.to_nat n).
Proof. intros N. rewrite Nat2Z.inj_add, Nat2Z.inj_mul, Z2Nat.id by lia. reflexivity. Qed.
Lemma phi_q n phi : 0 < n -> 180 / PI * phi / (360 / n) = phi / (2 * PI) * n.
Proof. intros N. pose proof PI_RGT_0. field. lra. Qed.
(** the channel of TOF_cylPSD_monitor *)
Section tof.
Variables (R0 H : R) (nt nphi : Z) (t_0 t_1 : R) (h : list cell) (r : ray) (s phi : R).
Hypothesis (NT : (0 < nt < 2 ^ 31)%Z) (NP : (0 < nphi < 2 ^ 31)%Z) (HH : 0 <= H) (NV : vx (r_vel r) <> 0 \/ vz (r_vel r) <> 0) (TT : t_0 < t_1).
Hypothesis (L : leaves_side R0 H r s) (AZ : azimuth (vx (on_line (r_pos r) (r_vel r) s)) (vz (on_line (r_pos r) (r_vel r) s)) phi).
Definition when : R := r_t r + s.
Lemma tof_unfold i : in_bin t_0 t_1 nt i (10 ^ 6 * when) -> (i < Z.to_nat nt)%nat -> tofcyl_trace None R0 H nt nphi t_0 t_1 h r =
  let! j := int_floor (IZR nphi / 2 + phi / (2 * PI) * IZR nphi) in let! h := tally h (j + Z.of_nat i * nphi) (r_p r) in Ok (h, prop_dt_nogravity s r).
Proof.
  intros B I. destruct (hit_inside R0 H r HH NV (proj1 L)) as (t0 & t1 & k & E & K & T & In). assert (t1 = s) by (eapply last_time; eauto). subst t1.
  unfold tofcyl_trace. cbv zeta. rewrite E. cbn [bind hit_value hit_times]. rewrite (proj2 (Z.eqb_neq k 0) K), (proj2 (Rltb_f 0 t0)) by lra. rewrite moved by lra. rewrite !moved_at.
  destruct L as (_ & S0 & _ & Y). rewrite (proj2 (Rleb_false (H / 2) _)), (proj2 (Rleb_false _ (- H / 2))) by lra. cbn [orb].
  change (r_t (prop_dt_nogravity s r)) with when. assert (P6 : 0 < / 10 ^ 6) by (apply Rinv_0_lt_compat; lra).
  assert (F : floorZ ((when - t_0 * / 10 ^ 6) * IZR nt / (t_1 * / 10 ^ 6 - t_0 * / 10 ^ 6)) = Z.of_nat i).
  { apply (in_bin_floor t_0 t_1 nt i) in B; [|exact TT|lia]. rewrite <- B. f_equal. field. lra. }
  rewrite (bin_ok when) by (try (apply Rmult_lt_compat_r; assumption); rewrite F; lia). cbn [bind]. rewrite F. destruct (Z.ltb_spec (Z.of_nat i) 0); [lia|]. destruct (Z.leb_spec nt (Z.of_nat i)); [lia|]. cbn [orb].
  rewrite (azimuth_arctan2 _ _ _ AZ). pose proof (n31 nphi NP) as N. unfold quot. rewrite (proj2 (Reqb_f (IZR nphi) 0)) by lra. cbn [bind]. assert (Q : 0 < 360 / IZR nphi) by (apply Rdiv_lt_0_compat; lra).
  rewrite (proj2 (Reqb_f (360 / IZR nphi) 0)) by lra. cbn [bind]. rewrite phi_q by lra. reflexivity.
Qed.
End tof.
(** the channel of PSDcyl_monitor *)
Lemma psd_unfold R0 H nr ny h r s phi : 2 * / 10 ^ 10 <= H -> vx (r_vel r) <> 0 \/ vz (r_vel r) <> 0 -> leaves_side R0 H r s ->
  azimuth (vx (on_line (r_pos r) (r_vel r) s)) (vz (on_line (r_pos r) (r_vel r) s)) phi -> psdcyl_trace None R0 H nr ny h r =
  let! i := int_floor (phi / (2 * PI) * IZR nr) in let! j := int_floor (vy (on_line (r_pos r) (r_vel r) s) / H * IZR ny) in let! h := tally h (j + i * ny) (r_p r) in Ok (h, prop_dt_nogravity s r).
Proof.
  intros HH NV L AZ. assert (P10 : 0 < / 10 ^ 10) by (apply Rinv_0_lt_compat; lra). set (e := / 10 ^ 10) in *. destruct (hit_inside R0 H r ltac:(lra) NV (proj1 L)) as (t0 & t1 & k & E & K & T & In). assert (t1 = s) by (eapply last_time; eauto). subst t1.
  unfold psdcyl_trace. rewrite E. cbn [bind hit_value hit_times]. rewrite (proj2 (Z.eqb_neq k 0) K), (proj2 (Rltb_f 0 t0)), (proj2 (Rltb_f s 0)) by lra. cbv zeta. rewrite moved by lra. rewrite !moved_at.
  destruct L as (_ & S0 & _ & Y). fold e. rewrite (proj2 (Rltb_t _ (H - e))) by (unfold Rabs; destruct (Rcase_abs (vy (on_line (r_pos r) (r_vel r) s))); lra).
  rewrite (azimuth_arctan2 _ _ _ AZ). unfold quot. rewrite (proj2 (Reqb_f H 0)) by lra. reflexivity.
Qed.
(** Monitor_4PI *)
Lemma all_from rs : forall c0, exists c rs', run (fun c r => Ok (monitor_4pi_trace c r)) c0 rs = Ok (c, rs') /\ rs' = rs /\ exists N p p2, holds (fun _ => True) rs N p p2 /\ c_N c = c_N c0 + N /\ c_p c = c_p c0 + p /\ c_p2 c = c_p2 c0 + p2.
Proof.
  induction rs as [|r rs IH]; intros c0; cbn [run].
  - exists c0, nil. split; [reflexivity|]. split; [reflexivity|]. exists 0, 0, 0. split; [repeat split; constructor|lra].
  - cbn [bind monitor_4pi_trace fst snd]. destruct (IH (add c0 (r_p r))) as (c & rs' & E & -> & N & p & p2 & (A & B & C) & X & Y & Z). unfold monitor_4pi_trace in *. cbn [fst snd]. rewrite E. cbn [bind fst snd]. exists c, (r :: rs). split; [reflexivity|]. split; [reflexivity|].
    exists (N + 1), (p + r_p r), (p2 + r_p r ^ 2). cbn in X, Y, Z. split; [|rewrite X, Y, Z; repeat split; ring]. split; [exact (total_in _ _ _ _ _ Logic.I A)|split; [exact (total_in _ r_p _ _ _ Logic.I B)|exact (total_in _ (fun r => r_p r ^ 2) _ _ _ Logic.I C)]].
Qed.
Lemma all_run rs : exists c rs', run (fun c r => Ok (monitor_4pi_trace c r)) (mkCell 0 0 0) rs = Ok (c, rs') /\ rs' = rs /\ holds (fun _ => True) rs (c_N c) (c_p c) (c_p2 c).
Proof. destruct (all_from rs (mkCell 0 0 0)) as (c & rs' & E & -> & N & p & p2 & A & X & Y & Z). exists c, rs. split; [exact E|]. split; [reflexivity|]. cbn in *. rewrite X, Y, Z, !Rplus_0_l. exact A. Qed.
