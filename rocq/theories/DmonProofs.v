(** Proofs about the two-dimensional monitors. *)
From Coq Require Import Reals List Lra Lia ZArith.
From Verif Require Import Base RotModel ChanModel ShapeModel ChanProofs GridProofs OptModel OptSpec OptProofs OptProofs3 BmonModel BmonSpec BmonProofs BmonProofs2 BmonProofs3 DmonModel DmonSpec.
Import ListNotations.
Open Scope R_scope.

Lemma total_iff P Q f rs s : Forall moving rs -> (forall r, moving r -> (P r <-> Q r)) -> total P f rs s -> total Q f rs s.
Proof.
  intros M E T. induction T; [constructor|apply total_in|apply total_out]; inversion_clear M; auto; [apply E; auto|]. intros K. apply H. now apply E.
Qed.
Lemma holds_iff P Q rs N p p2 : Forall moving rs -> (forall r, moving r -> (P r <-> Q r)) -> holds P rs N p p2 -> holds Q rs N p p2.
Proof. intros M E (A & B & C). repeat split; eapply total_iff; eassumption. Qed.
Lemma deg v w d : divergence v w d <-> (v <> 0 \/ w <> 0) /\ d = div_deg v w.
Proof.
  pose proof PI_RGT_0 as Pp. unfold divergence, div_deg. split.
  - intros (phi & A & E). split.
    + destruct A as (rho & R & _ & X & Y). destruct (Req_dec v 0) as [V|V]; [right|left; exact V]. intros W. rewrite V in X. rewrite W in Y. pose proof (sin2_cos2 phi) as S. unfold Rsqr in S.
      assert (sin phi = 0) by nra. assert (cos phi = 0) by nra. nra.
    + rewrite (azimuth_arctan2 _ _ _ A), E. field. lra.
  - intros [N ->]. destruct (azimuth_exists v w N) as (phi & A). exists phi. split; [exact A|]. rewrite (azimuth_arctan2 _ _ _ A). field. lra.
Qed.
Lemma div_bin_eq d m n : div_bin d m n = bin d (- m) m n.
Proof. unfold div_bin, bin. replace (d + m) with (d - - m) by ring. replace (2 * m) with (m - - m) by ring. reflexivity. Qed.
Lemma div_in_iff d m : div_in d m = true <-> - m < d < m.
Proof. unfold div_in. rewrite Bool.andb_true_iff, !Rltb_t. lra. Qed.

(* a trace that counts in two windows *)
Section Two.
Variables (o : opening) (n1 n2 : Z) (lo1 hi1 lo2 hi2 : R) (a b : ray -> R) (tr : list cell -> ray -> result (list cell * ray)).
Hypotheses (N1 : (0 < n1 < 2 ^ 31)%Z) (N2 : (0 < n2 < 2 ^ 31)%Z) (L1 : lo1 < hi1) (L2 : lo2 < hi2).
Definition counted (r : ray) : Prop := through o r /\ lo1 < a r < hi1 /\ lo2 < b r < hi2.
Definition two_windows : Prop := forall h r, moving r ->
  (~ counted r -> tr h r = Ok (h, prop_z0 None r)) /\
  (counted r -> tr h r = (let! i := bin (a r) lo1 hi1 (IZR n1) in let! j := bin (b r) lo2 hi2 (IZR n2) in let! h := tally h (j + i * n2) (r_p r) in Ok (h, prop_z0 None r))).
Hypothesis TW : two_windows.
Let total_n := (Z.to_nat n1 * Z.to_nat n2)%nat.
Definition cell_of (i j : nat) (r : ray) : Prop := through o r /\ in_cell lo1 hi1 n1 i (a r) /\ in_cell lo2 hi2 n2 j (b r).
Definition flat_cell (k : nat) (r : ray) : Prop := exists i j, (i < Z.to_nat n1)%nat /\ (j < Z.to_nat n2)%nat /\ k = (j + i * Z.to_nat n2)%nat /\ cell_of i j r.
Lemma dec_counted r : counted r \/ ~ counted r.
Proof.
  unfold counted. destruct (Rlt_dec lo1 (a r)); [|right; tauto]. destruct (Rlt_dec (a r) hi1); [|right; tauto]. destruct (Rlt_dec lo2 (b r)); [|right; tauto]. destruct (Rlt_dec (b r) hi2); [|right; tauto].
  destruct (Classical_Prop.classic (through o r)); [left|right]; tauto.
Qed.
Lemma cell_counted i j r : (i < Z.to_nat n1)%nat -> (j < Z.to_nat n2)%nat -> cell_of i j r -> counted r.
Proof.
  intros I J (T & [B1 A1] & [B2 A2]). split; [exact T|]. split; split; try assumption; [exact (in_bin_below _ _ _ _ _ L1 I B1)|exact (in_bin_below _ _ _ _ _ L2 J B2)].
Qed.
Lemma two_one h r : moving r -> List.length h = total_n -> (~ counted r /\ tr h r = Ok (h, prop_z0 None r)) \/
  exists k, (k < total_n)%nat /\ flat_cell k r /\ tr h r = Ok (add_at h k (r_p r), prop_z0 None r).
Proof.
  intros M L. destruct (TW h r M) as [NC C]. destruct (dec_counted r) as [D|D]; [|left; split; [exact D|exact (NC D)]]. right. destruct D as (T & A & B).
  destruct (inside_bin _ _ _ n1 A N1) as (i & I & Bi & Ii). destruct (inside_bin _ _ _ n2 B N2) as (j & J & Bj & Ij). exists (j + i * Z.to_nat n2)%nat. pose proof (flat _ _ _ _ I J) as F. split; [exact F|]. split.
  { exists i, j. split; [exact I|]. split; [exact J|]. split; [reflexivity|]. split; [exact T|]. split; split; tauto. }
  rewrite C by (split; tauto). rewrite Bi. cbn [bind]. rewrite Bj. cbn [bind].
  replace (Z.of_nat j + Z.of_nat i * n2)%Z with (Z.of_nat (j + i * Z.to_nat n2)) by (rewrite Nat2Z.inj_add, Nat2Z.inj_mul, Z2Nat.id by lia; reflexivity).
  rewrite tally_in by (rewrite L; exact F). reflexivity.
Qed.
Lemma two_step : step_ok tr (fun h => h) total_n flat_cell moving.
Proof.
  intros h r h' r' M L H. destruct (two_one h r M L) as [[D E]|(k & K & F & E)]; rewrite E in H; injection H as <- <-; (split; [reflexivity|]); [right|left; eauto].
  split; [reflexivity|]. intros k _ (i & j & I & J & _ & C). exact (D (cell_counted i j r I J C)).
Qed.
Lemma flat_one r k k' : moving r -> (k < total_n)%nat -> (k' < total_n)%nat -> flat_cell k r -> flat_cell k' r -> k = k'.
Proof.
  intros _ _ _ (i & j & _ & _ & -> & _ & [B1 _] & [B2 _]) (i' & j' & _ & _ & -> & _ & [B1' _] & [B2' _]).
  rewrite (in_bin_one lo1 hi1 n1 i i' (a r) L1 ltac:(lia) B1 B1'), (in_bin_one lo2 hi2 n2 j j' (b r) L2 ltac:(lia) B2 B2'). reflexivity.
Qed.
Lemma two_run rs : Forall moving rs -> exists h rs', run tr (empty total_n) rs = Ok (h, rs') /\ List.length h = total_n /\ Forall2 at_plane rs rs' /\
  forall i j, (i < Z.to_nat n1)%nat -> (j < Z.to_nat n2)%nat -> exists c, nth_error h (j + i * Z.to_nat n2) = Some c /\ holds (cell_of i j) rs (c_N c) (c_p c) (c_p2 c).
Proof.
  intros G. destruct (run_total tr (fun h => h) total_n flat_cell moving two_step rs) with (a := empty total_n) as [[h rs'] H].
  - intros x r G1 LEN. destruct (two_one x r G1 LEN) as [[_ E]|(k & _ & _ & E)]; rewrite E; eauto.
  - exact G.
  - apply repeat_length.
  - exists h, rs'. split; [exact H|]. destruct (run_from_empty tr (fun h => h) total_n flat_cell moving two_step flat_one rs (empty total_n) h rs' G eq_refl H) as (Le & -> & C).
    split; [exact Le|]. split; [apply all_at, G|]. intros i j I J. destruct (C _ (flat _ _ _ _ I J)) as (c & C1 & C2). exists c. split; [exact C1|].
    eapply holds_iff; [exact G| |exact C2]. intros r _. split.
    + intros (i' & j' & I' & J' & E & X). destruct (flat_inj _ _ _ _ _ J J' E) as [-> ->]. exact X.
    + intros X. exists i, j. tauto.
Qed.
End Two.

(* the monitors *)
Definition hd (r : ray) : R := div_deg (vx (r_vel r)) (vz (r_vel r)).
Definition vd (r : ray) : R := div_deg (vy (r_vel r)) (vz (r_vel r)).
Definition xat (r : ray) : R := vx (r_pos (prop_z0 None r)).
Definition tat (r : ray) : R := r_t (prop_z0 None r).
Lemma thr o r : moving r -> in_area o (prop_z0 None r) = false -> ~ through o r.
Proof. intros M E T. apply (area_through o r M) in T. congruence. Qed.
Lemma thr_t o r : moving r -> through o r -> in_area o (prop_z0 None r) = true.
Proof. intros M. apply (area_through o r M). Qed.
Lemma area_t o r q : moving r -> q = prop_z0 None r -> through o r -> in_area o q = true.
Proof. intros M -> T. exact (thr_t o r M T). Qed.
Lemma not_true (b : bool) (P : Prop) : (b = true <-> P) -> ~ P -> b = false.
Proof. destruct b; [intros H K; exfalso; apply K, H; reflexivity|reflexivity]. Qed.
Lemma div_windows o nh nv hm vm : two_windows o nh nv (- hm) hm (- vm) vm hd vd (div_trace None o nh nv hm vm).
Proof.
  intros h r M. unfold div_trace. fields r M. set (q := prop_z0 None r) in *. cbv zeta. rewrite V, P. fold (hd r) (vd r). rewrite !div_bin_eq. split; intros C.
  - destruct (in_area o q) eqn:E; [|reflexivity]. rewrite (not_true (div_in (hd r) hm && div_in (vd r) vm)%bool (- hm < hd r < hm /\ - vm < vd r < vm)); [reflexivity| |].
    + now rewrite Bool.andb_true_iff, !div_in_iff.
    + intros [A B]. apply C. split; [now apply (area_through o r M)|tauto].
  - destruct C as (T' & A & B). rewrite (area_t o r q M eq_refl T'). apply div_in_iff in A, B. rewrite A, B. reflexivity.
Qed.
Lemma hdiv_windows o nh hm : two_windows o nh 1 (- hm) hm 0 1 hd (fun _ => 1 / 2) (hdiv_trace None o nh hm).
Proof.
  intros h r M. unfold hdiv_trace. fields r M. set (q := prop_z0 None r) in *. cbv zeta. rewrite V, P. fold (hd r). rewrite div_bin_eq. split; intros C.
  - destruct (in_area o q) eqn:E; [|reflexivity]. rewrite (not_true (div_in (hd r) hm) (- hm < hd r < hm)); [reflexivity|apply div_in_iff|].
    intros A. apply C. split; [now apply (area_through o r M)|]. lra.
  - destruct C as (T' & A & _). rewrite (area_t o r q M eq_refl T'). apply div_in_iff in A. rewrite A. destruct (bin (hd r) (- hm) hm (IZR nh)) as [i|e]; [cbn [bind]|reflexivity].
    assert (F : floorZ ((1 / 2 - 0) * 1 / (1 - 0)) = 0%Z) by (apply floor_unique; lra). rewrite (bin_ok (1 / 2) 0 1 1) by (try lra; rewrite F; lia). rewrite F. cbn [bind]. replace (0 + i * 1)%Z with i by ring. reflexivity.
Qed.
Lemma divlambda_windows o nl nd m l0 l1 : two_windows o nl nd l0 l1 (- m) m wavelength hd (divlambda_trace None o nl nd m l0 l1).
Proof.
  intros h r M. unfold divlambda_trace. fields r M. set (q := prop_z0 None r) in *. cbv zeta. rewrite (l_value r q M V). cbn [bind]. rewrite V, P. fold (hd r). rewrite !div_bin_eq. split; intros C.
  - destruct (in_area o q) eqn:E; cbn [andb]; [|reflexivity]. destruct (Rltb l0 (wavelength r)) eqn:E1; cbn [andb]; [|reflexivity]. destruct (Rltb (wavelength r) l1) eqn:E2; [|reflexivity].
    apply Rltb_t in E1, E2. rewrite (not_true (div_in (hd r) m) (- m < hd r < m)); [reflexivity|apply div_in_iff|]. intros A. apply C. split; [now apply (area_through o r M)|tauto].
  - destruct C as (T' & [A1 A2] & B). rewrite (area_t o r q M eq_refl T'), (proj2 (Rltb_t _ _) A1), (proj2 (Rltb_t _ _) A2). cbn [andb]. apply div_in_iff in B. rewrite B. reflexivity.
Qed.
Lemma divpos_windows o np nd m : two_windows o np nd (xmin o) (xmax o) (- m) m xat hd (divpos_trace None o np nd m).
Proof.
  intros h r M. unfold divpos_trace. fields r M. unfold xat. set (q := prop_z0 None r) in *. cbv zeta. rewrite V, P. fold (hd r). rewrite !div_bin_eq. split; intros C.
  - destruct (in_area o q) eqn:E; [|reflexivity]. rewrite (not_true (div_in (hd r) m) (- m < hd r < m)); [reflexivity|apply div_in_iff|]. intros A. apply C.
    split; [now apply (area_through o r M)|]. split; [|exact A]. apply in_area_iff in E. apply E.
  - destruct C as (T' & _ & B). rewrite (area_t o r q M eq_refl T'). apply div_in_iff in B. rewrite B. reflexivity.
Qed.
Lemma toflambda_windows o nl nt t0 t1 l0 l1 : two_windows o nt nl (t0 * / 1000000) (t1 * / 1000000) l0 l1 tat wavelength (toflambda_trace None o nl nt t0 t1 l0 l1).
Proof.
  intros h r M. unfold toflambda_trace. fields r M. unfold tat. set (q := prop_z0 None r) in *. cbv zeta. rewrite (l_value r q M V). cbn [bind]. rewrite P. set (u0 := t0 * / 1000000). set (u1 := t1 * / 1000000). split; intros C.
  - destruct (in_area o q) eqn:E; cbn [andb]; [|reflexivity]. destruct (Rltb l0 (wavelength r)) eqn:E1; cbn [andb]; [|reflexivity]. destruct (Rltb (wavelength r) l1) eqn:E2; [|reflexivity].
    apply Rltb_t in E1, E2. destruct (Rltb (r_t q) u1) eqn:E3; cbn [andb]; [|reflexivity]. destruct (Rltb u0 (r_t q)) eqn:E4; [|reflexivity]. apply Rltb_t in E3, E4. exfalso. apply C.
    split; [now apply (area_through o r M)|tauto].
  - destruct C as (T' & [A1 A2] & [B1 B2]). change (u0 < r_t q) in A1. change (r_t q < u1) in A2. rewrite (area_t o r q M eq_refl T'), (proj2 (Rltb_t _ _) A1), (proj2 (Rltb_t _ _) A2), (proj2 (Rltb_t _ _) B1), (proj2 (Rltb_t _ _) B2). cbn [andb].
    destruct (bin (wavelength r) l0 l1 (IZR nl)) as [i|e] eqn:Ei; cbn [bind].
    + destruct (bin (r_t q) u0 u1 (IZR nt)); reflexivity.
    + destruct (bin (r_t q) u0 u1 (IZR nt)) as [j|e'] eqn:Ej; cbn [bind]; [reflexivity|].
      unfold bin, quot in Ei, Ej. rewrite (proj2 (Reqb_f _ _)) in Ei by lra. rewrite (proj2 (Reqb_f _ _)) in Ej by lra. cbn [bind] in Ei, Ej. unfold cint in Ei, Ej. destruct (_ && _)%bool in Ei; [discriminate|]. destruct (_ && _)%bool in Ej; [discriminate|]. congruence.
Qed.
(* values of the specification *)
Lemma hd_div r P : moving r -> (P (hd r) <-> exists d, divergence (vx (r_vel r)) (vz (r_vel r)) d /\ P d).
Proof. intros M. split; [intros H; exists (hd r); split; [apply deg; split; [right; exact M|reflexivity]|exact H]|intros (d & D & H); apply deg in D; destruct D as [_ ->]; exact H]. Qed.
Lemma vd_div r P : moving r -> (P (vd r) <-> exists d, divergence (vy (r_vel r)) (vz (r_vel r)) d /\ P d).
Proof. intros M. split; [intros H; exists (vd r); split; [apply deg; split; [right; exact M|reflexivity]|exact H]|intros (d & D & H); apply deg in D; destruct D as [_ ->]; exact H]. Qed.
Lemma xat_meets r P : moving r -> (P (xat r) <-> exists x y, meets r x y /\ P x).
Proof. intros M. fields r M. split; [intros H; eexists _, _; split; [exact X|exact H]|intros (x & y & E & H); destruct (meets_one r _ _ _ _ M X E) as [<- _]; exact H]. Qed.
Lemma tat_arrives r P : moving r -> (P (tat r) <-> exists t, arrives r t /\ P t).
Proof. intros M. fields r M. split; [intros H; eexists; split; [exact T|exact H]|intros (t & E & H); rewrite (arrives_one r _ _ M E T) in H; exact H]. Qed.
Lemma in_cell_us lo hi n k t : (0 < n)%Z -> in_cell (lo * / 1000000) (hi * / 1000000) n k t <-> in_cell lo hi n k (1000000 * t).
Proof.
  intros N. apply IZR_lt in N. unfold in_cell, in_bin. set (x := INR k). set (y := INR (k + 1)).
  replace (lo * / 1000000 + (hi * / 1000000 - lo * / 1000000) * x / IZR n) with ((lo + (hi - lo) * x / IZR n) * / 1000000) by (field; lra).
  replace (lo * / 1000000 + (hi * / 1000000 - lo * / 1000000) * y / IZR n) with ((lo + (hi - lo) * y / IZR n) * / 1000000) by (field; lra). lra.
Qed.
