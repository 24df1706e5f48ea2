(** Lemmas on disk choppers. *)
From Coq Require Import Reals Lra Lia Psatz ZArith.
From Verif Require Import Base RotModel UnitProofs ChanModel ChanProofs ShapeModel GridProofs OptModel OptSpec OptProofs OptProofs2.
Open Scope R_scope.

Lemma fmod_val a b k : 0 <= a -> 0 < b -> IZR k * b <= a < (IZR k + 1) * b -> fmod a b = a - IZR k * b.
Proof.
  intros A B K. unfold fmod. assert (Q : 0 <= a / b) by (apply Rmult_le_pos; [exact A|left; apply Rinv_0_lt_compat, B]).
  assert (E : truncZ (a / b) = k).
  { unfold truncZ. destruct (Rlt_dec (a / b) 0); [lra|]. apply floor_unique. split.
    - apply (Rmult_le_reg_r b); [exact B|]. unfold Rdiv. rewrite Rmult_assoc, Rinv_l by lra. lra.
    - apply (Rmult_lt_reg_r b); [exact B|]. unfold Rdiv. rewrite Rmult_assoc, Rinv_l by lra. lra. }
  now rewrite E.
Qed.
Lemma period a b : 0 < b -> exists k : Z, IZR k * b <= a < (IZR k + 1) * b.
Proof.
  intros B. exists (floorZ (a / b)). pose proof (floor_bounds (a / b)) as [L U]. split.
  - apply (Rmult_le_compat_r b) in L; [|lra]. unfold Rdiv in L at 2. rewrite Rmult_assoc, Rinv_l in L by lra. lra.
  - apply (Rmult_lt_compat_r b) in U; [|exact B]. unfold Rdiv in U at 1. rewrite Rmult_assoc, Rinv_l in U by lra. lra.
Qed.

(* a window of the width W that opens every T, tested as the choppers do *)
Lemma window_fmod s T W : 0 <= s -> 0 < T -> 0 <= W <= T -> (fmod (s + W / 2) T <= W <-> exists k : Z, Rabs (s - IZR k * T) <= W / 2).
Proof.
  intros S HT HW. destruct (period (s + W / 2) T HT) as (k & K). rewrite (fmod_val _ _ k) by lra. split.
  - intros H. exists k. apply Rabs_le. lra.
  - intros (j & J). assert (J2 : - (W / 2) <= s - IZR j * T <= W / 2) by (split; [pose proof (Rle_abs (- (s - IZR j * T))); rewrite Rabs_Ropp in *; lra|pose proof (Rle_abs (s - IZR j * T)); lra]).
    destruct (Z.lt_trichotomy j k) as [L|[->|L]].
    + (* j < k: then s + W/2 >= k T >= j T + T, so W = T *)
      assert (IZR j + 1 <= IZR k) by (rewrite <- plus_IZR; apply IZR_le; lia). nra.
    + lra.
    + assert (IZR k + 1 <= IZR j) by (rewrite <- plus_IZR; apply IZR_le; lia). nra.
Qed.
(* the time may have either sign *)
Lemma window_abs u T W : 0 < T -> 0 <= W <= T -> (fmod (Rabs u + W / 2) T <= W <-> exists k : Z, Rabs (u - IZR k * T) <= W / 2).
Proof.
  intros HT HW. rewrite (window_fmod (Rabs u) T W (Rabs_pos u) HT HW). unfold Rabs at 2. destruct (Rcase_abs u) as [N|P]; [|reflexivity].
  split; intros (k & K); exists (- k)%Z; rewrite opp_IZR.
  - replace (u - - IZR k * T) with (- (- u - IZR k * T)) by ring. now rewrite Rabs_Ropp.
  - replace (- u - - IZR k * T) with (- (u - IZR k * T)) by ring. now rewrite Rabs_Ropp.
Qed.

(* in angles *)
Lemma window_angle c phi t d : disk c -> (exists k : Z, Rabs (t - phi / c_omega c - d - IZR k * c_Tg c) <= c_To c / 2) <-> slit_at (c_omega c) (c_n c) (c_theta0 c) d phi t.
Proof.
  intros (_ & N & TH & _ & OM & TG & TO). unfold slit_at. rewrite TG, TO. set (w := c_omega c) in *. set (n := c_n c) in *. set (th := c_theta0 c) in *.
  assert (WP : 0 < Rabs w) by (apply Rabs_pos_lt, OM).
  assert (K1 : forall k : Z, Rabs (t - phi / w - d - IZR k * (2 * PI / (Rabs w * n))) <= th / Rabs w / 2 <-> Rabs (w * (t - d) - phi - 2 * PI * (IZR k * (w / Rabs w)) / n) <= th / 2).
  { intros k. replace (w * (t - d) - phi - 2 * PI * (IZR k * (w / Rabs w)) / n) with (w * (t - phi / w - d - IZR k * (2 * PI / (Rabs w * n)))) by (field; repeat split; lra).
    rewrite Rabs_mult. replace (th / Rabs w / 2) with (th / 2 / Rabs w) by (field; lra). split; intros H.
    - apply (Rmult_le_compat_l (Rabs w)) in H; [|lra]. replace (Rabs w * (th / 2 / Rabs w)) with (th / 2) in H by (field; lra). exact H.
    - apply (Rmult_le_reg_l (Rabs w)); [exact WP|]. replace (Rabs w * (th / 2 / Rabs w)) with (th / 2) by (field; lra). exact H. }
  destruct (Rle_lt_dec 0 w) as [P|P].
  - assert (E : w / Rabs w = 1) by (rewrite Rabs_right by lra; field; exact OM). rewrite E in K1. split; intros (k & H); exists k; [apply K1 in H|apply K1]; rewrite Rmult_1_r in *; exact H.
  - assert (E : w / Rabs w = - 1) by (rewrite Rabs_left by exact P; field; exact OM). rewrite E in K1. split; intros (k & H); exists (- k)%Z.
    + apply K1 in H. rewrite opp_IZR. replace (2 * PI * - IZR k / n) with (2 * PI * (IZR k * -1) / n) by (field; lra). exact H.
    + apply K1. rewrite opp_IZR. replace (2 * PI * (- IZR k * -1) / n) with (2 * PI * IZR k / n) by (field; lra). exact H.
Qed.
Lemma disk_times c : disk c -> 0 < c_Tg c /\ 0 <= c_To c <= c_Tg c.
Proof.
  intros (_ & N & TH & FIT & OM & TG & TO). rewrite TG, TO. assert (WP : 0 < Rabs (c_omega c)) by (apply Rabs_pos_lt, OM). pose proof PI_RGT_0.
  assert (IW : 0 < / Rabs (c_omega c)) by (apply Rinv_0_lt_compat, WP). assert (IN : 0 < / c_n c) by (apply Rinv_0_lt_compat, N).
  assert (E : 2 * PI / (Rabs (c_omega c) * c_n c) = (2 * PI * / c_n c) * / Rabs (c_omega c)) by (field; lra). rewrite E.
  split; [apply Rmult_lt_0_compat; [apply Rmult_lt_0_compat; lra|exact IW]|]. split; [unfold Rdiv; apply Rmult_le_pos; lra|].
  unfold Rdiv. apply Rmult_le_compat_r; [lra|]. apply (Rmult_le_reg_r (c_n c)); [exact N|]. rewrite Rmult_assoc, Rinv_l by lra. lra.
Qed.

Lemma azimuth_arctan2 x y phi : azimuth x y phi -> arctan2 x y = phi.
Proof. intros (rho & R0 & P & -> & ->). now apply arctan2_dir. Qed.
Lemma azimuth_exists x y : x <> 0 \/ y <> 0 -> exists phi, azimuth x y phi.
Proof.
  intros H. exists (arctan2 x y). assert (H' : y <> 0 \/ x <> 0) by tauto. destruct (arctan2_range x y H') as (A & B & C). exists (sqrt (y * y + x * x)). split; [apply sqrt_lt_R0; destruct H; nra|]. tauto.
Qed.

Lemma ring_test rad height border x y :
  (border && Rltb (rad * rad) (x * x + y * y))%bool = false /\ Rltb (x * x + y * y) ((rad - height) * (rad - height)) = false <-> on_ring rad height border x y.
Proof.
  unfold on_ring. rewrite Rltb_f. replace (x ^ 2) with (x * x) by ring. replace (y ^ 2) with (y * y) by ring. replace (rad ^ 2) with (rad * rad) by ring. replace ((rad - height) ^ 2) with ((rad - height) * (rad - height)) by ring.
  destruct border; cbn [andb]; [rewrite Rltb_f|]; split; intros (A & B); split; try assumption; auto; discriminate.
Qed.

Section Second.
Variables (c : chopper) (r : ray) (u k w x y phi : R).
Hypotheses (D : disk c) (N : vz (r_vel r) <> 0) (M : meets r x y) (AZ : azimuth x (y + c_delta_y c) phi) (J : c_jitter c = 0).
Let q := prop_z0 None r.
Let arrival := r_t r - vz (r_pos r) / vz (r_vel r).

Lemma arrive : vx (r_pos q) = x /\ vy (r_pos q) = y /\ r_t q = arrival /\ r_p q = r_p r /\ vz (r_pos q) = 0 /\ r_vel q = r_vel r.
Proof.
  destruct (meets_fun r x y N M) as [X Y]. destruct (z0_none r N) as (F & Z). destruct F as (_ & _ & _ & _ & _ & _ & T & _ & _ & P). fold q in X, Y, T, P, Z |- *.
  split; [easy|]. split; [easy|]. split; [rewrite T; unfold arrival; field; exact N|]. split; [exact P|]. split; [exact Z|].
  unfold q. cbn [prop_z0]. unfold prop_z0_nogravity. now rewrite (proj2 (Reqb_f _ _) N).
Qed.

Lemma second_stops : c_first c = false ->
  (on_ring (c_radius c) (c_height c) (c_absout c) x (y + c_delta_y c) /\ slit_at (c_omega c) (c_n c) (c_theta0 c) (c_delay c) phi arrival -> chopper2_trace None c u k w r = q) /\
  (~ on_ring (c_radius c) (c_height c) (c_absout c) x (y + c_delta_y c) \/ ~ slit_at (c_omega c) (c_n c) (c_theta0 c) (c_delay c) phi arrival -> absorbed (chopper2_trace None c u k w r)).
Proof.
  intros NF. destruct arrive as (X & Y & T & P & Z & V). unfold chopper2_trace. fold q. rewrite X, Y, T, NF, (azimuth_arctan2 _ _ _ AZ), (proj2 (Reqb_t _ _) J).
  replace (arrival - phi / c_omega c - c_delay c - 0) with (arrival - phi / c_omega c - c_delay c) by ring.
  destruct (disk_times c D) as [TG TO]. pose proof (window_abs (arrival - phi / c_omega c - c_delay c) _ _ TG TO) as W. rewrite (window_angle c phi arrival (c_delay c) D) in W.
  pose proof (ring_test (c_radius c) (c_height c) (c_absout c) x (y + c_delta_y c)) as RT.
  assert (AB : absorbed (absorb q)) by (unfold absorbed; cbn; lra).
  destruct (c_absout c && Rltb (c_radius c * c_radius c) (x * x + (y + c_delta_y c) * (y + c_delta_y c)))%bool.
  { split; [intros (I & _); apply RT in I; destruct I; discriminate|intros _; exact AB]. }
  destruct (Rltb (x * x + (y + c_delta_y c) * (y + c_delta_y c)) ((c_radius c - c_height c) * (c_radius c - c_height c))).
  { split; [intros (I & _); apply RT in I; destruct I; discriminate|intros _; exact AB]. }
  destruct (Rltb (c_To c) _) eqn:E.
  - apply Rltb_t in E. split; [intros (_ & H); apply W in H; lra|intros _; exact AB].
  - apply Rltb_f in E. split; [reflexivity|]. intros [H|H]; exfalso; apply H; [apply RT; tauto|apply W; exact E].
Qed.

(* the time set by the first chopper *)
Lemma second_first : c_first c = true -> on_ring (c_radius c) (c_height c) (c_absout c) x (y + c_delta_y c) ->
  exists t, chopper2_trace None c u k w r = with_p (with_t q t) (r_p r * (c_n c * c_theta0 c / (2 * PI))) /\
    (-1 <= u <= 1 -> slit_at (c_omega c) (c_n c) (c_theta0 c) (c_delay c) phi t).
Proof.
  intros NF I. destruct arrive as (X & Y & T & P & Z & V). unfold chopper2_trace. fold q. rewrite X, Y, NF, (azimuth_arctan2 _ _ _ AZ), (proj2 (Reqb_t _ _) J).
  apply ring_test in I. destruct I as [I1 I2]. rewrite I1, I2. eexists. split; [rewrite P; f_equal; f_equal; field; pose proof PI_RGT_0; lra|].
  intros U. apply (window_angle c phi _ (c_delay c) D). exists (if Rltb 1 (c_npulse c) then floorZ (c_npulse c * w) else 0%Z).
  destruct (disk_times c D) as [TG TO].
  match goal with |- Rabs ?e <= _ => replace e with (c_To c * u / 2) by (destruct (Rltb 1 (c_npulse c)); field; apply D) end.
  apply Rabs_le. nra.
Qed.
End Second.

Lemma first_then_second c r u k w u' k' w' x y phi : disk c -> vz (r_vel r) <> 0 -> meets r x y -> azimuth x (y + c_delta_y c) phi -> c_jitter c = 0 -> c_first c = true ->
  on_ring (c_radius c) (c_height c) (c_absout c) x (y + c_delta_y c) -> -1 <= u <= 1 ->
  let r1 := chopper2_trace None c u k w r in chopper2_trace None (stopping c) u' k' w' r1 = r1.
Proof.
  intros D N M AZ J NF I U r1. destruct (second_first c r u k w x y phi D N M AZ J NF I) as (t & E & S). specialize (S U).
  destruct (arrive r x y N M) as (X & Y & T & P & Z & V).
  assert (N1 : vz (r_vel r1) <> 0) by (unfold r1; rewrite E; cbn [r_vel with_p with_t]; rewrite V; exact N).
  assert (Z1 : vz (r_pos r1) = 0) by (unfold r1; rewrite E; exact Z).
  assert (M1 : meets r1 x y).
  { exists 0. unfold coordinate. rewrite Z1. replace (vx (r_pos r1)) with x by (unfold r1; rewrite E; cbn [r_pos with_p with_t]; auto). replace (vy (r_pos r1)) with y by (unfold r1; rewrite E; cbn [r_pos with_p with_t]; auto). split; [field|]. split; field. }
  assert (T1 : r_t r1 - vz (r_pos r1) / vz (r_vel r1) = t) by (rewrite Z1; unfold r1; rewrite E; cbn [r_t with_p with_t r_vel]; unfold Rdiv; ring).
  destruct (second_stops (stopping c) r1 u' k' w' x y phi) as [G _]; [exact D|exact N1|exact M1|exact AZ|exact J|reflexivity|].
  cbv zeta in G. rewrite G.
  - cbn [prop_z0]. unfold prop_z0_nogravity. rewrite (proj2 (Reqb_f _ _) N1). replace (- vz (r_pos r1) / vz (r_vel r1)) with 0 by (rewrite Z1; unfold Rdiv; ring).
    unfold prop_dt_nogravity. rewrite !Rmult_0_r, !Rplus_0_r. destruct r1 as [[] ? ? ? ? ?]. reflexivity.
  - split; [exact I|]. rewrite T1. exact S.
Qed.

(* what INITIALIZE leaves *)
Lemma init2_ok th rad yh nu n j d first np ao ph xw c : chopper2_init th rad yh nu n j d first np ao ph xw = Ok c ->
  disk c /\ c_radius c = rad /\ c_n c = n /\ c_jitter c = j /\ c_first c = first /\ c_npulse c = np /\ c_absout c = ao /\
  c_height c = (if Req_EM_T yh 0 then rad else yh) /\ c_delta_y c = rad - c_height c / 2 /\
  (nu <> 0 -> c_omega c = 2 * PI * nu) /\ (th <> 0 -> c_theta0 c = th * (PI / 180)) /\
  (ph = 0 -> c_delay c = d) /\ (ph <> 0 -> c_delay c = ph * (PI / 180) / Rabs (c_omega c)) /\ 0 < c_theta0 c.
Proof.
  unfold chopper2_init. intros H. pose proof PI_RGT_0 as PI0.
  match type of H with bind ?e _ = _ => destruct e as [t|] eqn:ET; [|discriminate]; cbn [bind] in H end.
  destruct (Rleb n 0) eqn:E1; [discriminate|]. destruct (Rleb t 0) eqn:E2; [discriminate|]. destruct (Rleb rad 0) eqn:E3; [discriminate|]. cbn [orb] in H.
  destruct (Rleb 360 (n * t)) eqn:E4; [discriminate|]. destruct (negb (Reqb yh 0) && Rltb rad yh)%bool; [discriminate|]. destruct (first && Rleb np 0)%bool; [discriminate|].
  apply Rleb_false in E1, E2, E3, E4.
  assert (PN : 2 * PI * nu = 0 -> nu = 0) by (intros Q; apply Rmult_integral in Q; destruct Q; [lra|assumption]).
  injection H as <-. cbn [c_radius c_height c_delta_y c_omega c_n c_theta0 c_delay c_jitter c_first c_npulse c_absout c_Tg c_To c_Tc].
  set (om := if Reqb (2 * PI * nu) 0 then / 10 ^ 15 else 2 * PI * nu).
  assert (OM : om <> 0). { unfold om. destruct (Reqb (2 * PI * nu) 0) eqn:E; [apply Rinv_neq_0_compat, pow_nonzero; lra|now apply Reqb_f]. }
  assert (AO : Rabs om <> 0) by (apply Rabs_no_R0, OM).
  split.
  { unfold disk. cbn [c_radius c_height c_delta_y c_omega c_n c_theta0 c_delay c_jitter c_first c_npulse c_absout c_Tg c_To c_Tc].
    split; [exact E3|]. split; [exact E1|]. split; [apply Rmult_le_pos; [lra|unfold Rdiv; apply Rmult_le_pos; lra]|]. split; [|split; [exact OM|split; [field; split; [lra|exact AO]|reflexivity]]].
    replace (n * (t * (PI / 180))) with (n * t * (PI / 180)) by ring. replace (2 * PI) with (360 * (PI / 180)) by field. apply Rmult_lt_compat_r; [lra|exact E4]. }
  do 6 (split; [reflexivity|]). split; [unfold Reqb; destruct (Req_EM_T yh 0); reflexivity|]. split; [reflexivity|].
  split. { intros NU. unfold om. rewrite (proj2 (Reqb_f _ _)) by tauto. reflexivity. }
  split. { intros NT. rewrite (proj2 (Reqb_f _ _) NT) in ET. rewrite Bool.andb_false_r in ET. cbn [andb] in ET. injection ET as <-. reflexivity. }
  split. { intros NP. now rewrite (proj2 (Reqb_t _ _) NP). }
  split. { intros NP. now rewrite (proj2 (Reqb_f _ _) NP). }
  apply Rmult_lt_0_compat; [exact E2|lra].
Qed.

(* the older disk chopper, for neutrons that keep their height *)
Lemma first_version c r u k w x y phi : disk c -> vz (r_vel r) <> 0 -> vy (r_vel r) = 0 -> meets r x y -> azimuth x (y + c_delta_y c) phi -> c_jitter c = 0 -> c_Tc c = 0 -> c_first c = false ->
  chopper_trace None c u k w r = chopper2_trace None c u k w r.
Proof.
  intros D N VY M AZ J TC NF. destruct (meets_fun r x y N M) as [X Y]. unfold chopper_trace, chopper2_trace. 
  assert (YY : vy (r_pos (prop_z0 None r)) = vy (r_pos r)) by (cbn; unfold prop_z0_nogravity; rewrite (proj2 (Reqb_f _ _) N); cbn; rewrite VY; ring).
  rewrite YY, NF, (proj2 (Reqb_t _ _) J), J, TC. rewrite Rmult_0_l, Rplus_0_r, Rminus_0_r. rewrite (Bool.andb_comm (Rltb _ _) (c_absout c)).
  destruct (_ && _)%bool; [reflexivity|]. destruct (Rltb _ ((c_radius c - c_height c) * (c_radius c - c_height c))); [reflexivity|].
  rewrite (proj2 (Rltb_f (fmod (Rabs _ + 0 / 2) (c_Tg c)) 0)); [reflexivity|].
  destruct (disk_times c D) as [TG _]. match goal with |- 0 <= fmod (Rabs ?e + 0 / 2) _ => pose proof (Rabs_pos e) as AP; destruct (period (Rabs e + 0 / 2) (c_Tg c) TG) as (j & K); rewrite (fmod_val _ _ j) by lra end. lra.
Qed.
