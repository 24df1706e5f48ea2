(** Proofs for C58: the reflections that are used. *)
From Coq Require Import Reals Lra Lia Sorting.Sorted Sorting.Permutation.
From Coquelicot Require Import Coquelicot.
From Verif Require Import Base RotModel RotSpec ChanModel ChanProofs ShapeModel ShapeSpec ShapeProofs ScatModel ScatSpec UnitModel UnitSpec UnitProofs KinModel KinSpec KinProofs KinProofs3 KinProofs4 GridProofs PowdProofs XtalModel XtalSpec XtalProofs XtalProofs2.
Open Scope R_scope.

(** the cache *)
Lemma same_velocity_eq a b : same_velocity a b = true <-> a = b.
Proof.
  unfold same_velocity. rewrite !Bool.andb_true_iff, !Reqb_t. destruct a, b; cbn. split; [intros [[-> ->] ->]; reflexivity|]. intros H. injection H. auto.
Qed.
Definition same_kernel (k0 k : xtal) : Prop :=
  x_lattice k = x_lattice k0 /\ x_hkls k = x_hkls k0 /\ x_delta_d_d k = x_delta_d_d k0 /\ x_abs_coeff k = x_abs_coeff k0 /\
  (x_cache k = None \/ exists v, x_cache k = Some (v, tau_info k0 v)).
Lemma tau_info_same k0 k v : same_kernel k0 k -> tau_info k v = tau_info k0 v.
Proof. intros (A & B & C & _ & _). unfold tau_info. now rewrite A, B, C. Qed.
Lemma setup_same k0 k v : same_kernel k0 k -> snd (setup k v) = tau_info k0 v /\ same_kernel k0 (fst (setup k v)) /\ x_cache (fst (setup k v)) = Some (v, tau_info k0 v).
Proof.
  intros S. pose proof (tau_info_same k0 k v S) as T. pose proof S as (A & B & C & D & E).
  assert (F : let k' := mkXt (x_lattice k) (x_hkls k) (x_delta_d_d k) (x_abs_coeff k) (Some (v, tau_info k v)) in tau_info k v = tau_info k0 v /\ same_kernel k0 k' /\ x_cache k' = Some (v, tau_info k0 v)).
  { cbv zeta. cbn [x_cache]. rewrite T. split; [reflexivity|]. split; [|reflexivity]. unfold same_kernel; cbn. repeat (split; [assumption|]). right. now exists v. }
  unfold setup. destruct E as [E|[v0 E]]; rewrite E; cbv zeta in F |- *; [exact F|]. destruct (same_velocity v v0) eqn:Q; [|exact F]. apply same_velocity_eq in Q. subst v0. cbn [fst snd]. auto.
Qed.
(** what happens to a neutron, from the data of the reflections *)
Definition from_info (k0 : xtal) (d : setup_data) (u z1 z2 : R) (ev : event) : option kevent :=
  match d with
  | None => None
  | Some (l, T, X) =>
      if Rleb T 0 then Some (with_pv ev (-1) (Some (e_v ev)))
      else match find_reflection (random u 0 T) 0 l with
           | None => None
           | Some t => match nth_error (x_hkls k0) (td_index t) with
                       | None => None
                       | Some h => if (Reqb (speed (local_point t z1 z2)) 0 || Reqb (X * td_refl t) 0)%bool then None
                                   else Some (with_pv ev (e_p ev * (td_xs t * T / (X * td_refl t)) * (X / V0 (x_lattice k0) * 100))
                                                (Some (vscale k2v (from_local h (vscale (speed (e_v ev) * v2k / speed (local_point t z1 z2)) (local_point t z1 z2))))))
                       end
           end
  end.
Lemma scattering_same k0 k v : same_kernel k0 k -> snd (xtal_scattering k v) = option_map (fun d => snd d / V0 (x_lattice k0) * 100) (tau_info k0 v) /\ same_kernel k0 (fst (xtal_scattering k v)).
Proof.
  intros S. destruct (setup_same k0 k v S) as (A & B & _). unfold xtal_scattering. destruct (setup k v) as [k' d]. cbn [fst snd] in *. subst d. destruct B as (B1 & B). split; [now rewrite B1|]. split; assumption.
Qed.
Lemma scatter_same k0 k u z1 z2 ev : same_kernel k0 k -> snd (xtal_scatter k u z1 z2 ev) = from_info k0 (tau_info k0 (e_v ev)) u z1 z2 ev /\ same_kernel k0 (fst (xtal_scatter k u z1 z2 ev)).
Proof.
  intros S. destruct (setup_same k0 k (e_v ev) S) as (A & B & _). unfold xtal_scatter, from_info. destruct (setup k (e_v ev)) as [k' d]. cbn [fst snd] in *. rewrite <- A.
  destruct d as [[[l T] X]|]; [|split; [reflexivity|exact B]]. destruct (Rleb T 0); [split; [reflexivity|exact B]|]. destruct (find_reflection _ _ _) as [t|]; [|split; [reflexivity|exact B]].
  replace (x_hkls k') with (x_hkls k0) by (symmetry; apply B). destruct (nth_error _ _) as [h|]; [|split; [reflexivity|exact B]]. fold (local_point t z1 z2).
  change (sqrt (vx (local_point t z1 z2) * vx (local_point t z1 z2) + vy (local_point t z1 z2) * vy (local_point t z1 z2) + vz (local_point t z1 z2) * vz (local_point t z1 z2))) with (speed (local_point t z1 z2)).
  destruct (_ || _)%bool eqn:Q; [split; [reflexivity|exact B]|].
  destruct (scattering_same k0 k' (e_v ev) B) as [C D]. destruct (xtal_scattering k' (e_v ev)) as [k'' c]. cbn [fst snd] in *. rewrite <- A in C. cbn [option_map snd] in C. subst c. split; [reflexivity|exact D].
Qed.
Lemma used_same k0 k : x_cache k0 = None -> used k0 k -> same_kernel k0 k.
Proof.
  intros N U. induction U as [|k1 v U IH|k1 u z1 z2 ev U IH]; [unfold same_kernel; repeat (split; [reflexivity|]); now left|apply (proj2 (scattering_same k0 k1 v IH))|apply (proj2 (scatter_same k0 k1 u z1 z2 ev IH))].
Qed.

(** one reflection *)
Lemma taudata_index f k r ki i h : new_taudata f k r ki i h = option_map (fun t => mkTD i (td_refl t) (td_xs t) (td_rho t) (td_o t) (td_b1 t) (td_b2 t) (td_l11 t) (td_l12 t) (td_l22 t) (td_y0x t) (td_y0y t)) (new_taudata f k r ki 0 h).
Proof. unfold new_taudata. cbv zeta. destruct (_ || _)%bool; [reflexivity|]. destruct (Reqb _ 0); [reflexivity|]. destruct (fsqrt _); [|reflexivity]. destruct (Reqb _ 0); [reflexivity|]. destruct (fsqrt _); reflexivity. Qed.

Lemma sub_speed a b : speed b <= speed a + speed (vsub a b).
Proof.
  pose proof (speed_nonneg a). pose proof (speed_nonneg b). pose proof (speed_nonneg (vsub a b)). pose proof (cauchy a b) as C. pose proof (Rle_abs (sdot a b)). apply Rnot_lt_le. intros L.
  pose proof (speed_norm a) as A. pose proof (speed_norm b) as B. pose proof (speed_norm (vsub a b)) as D.
  assert (E : norm2 (vsub a b) = norm2 a + norm2 b - 2 * sdot a b) by (unfold norm2, sdot, vsub; cbn; ring). rewrite E in D.
  assert (F : (speed b - speed a) * (speed b - speed a) <= speed (vsub a b) * speed (vsub a b)) by nra. nra.
Qed.

Section many.
Variables (lat : lattice) (mosaic dd : R) (ki : vec3).
Hypothesis M : 0 < mosaic.
Hypothesis D : 0 < dd < 1 / 5.
Hypothesis MD : rms * mosaic <= dd.
Hypothesis NK : ki <> mkV 0 0 0.
Hypothesis VP : 0 < V0 lat.
Let k := speed ki.
Let f := Rpower (2 * PI) (5 / 2) / (V0 lat * k * k).
Let pt := tau_of lat.
Let reach x := in_reach mosaic dd ki (pt x).
Definition tdx (i : nat) (x : hkl) : taudata :=
  match new_taudata f k (speed (vsub ki (pt x))) ki i (new_hkldata lat mosaic dd x) with Some t => t | None => mkTD 0 0 0 ki ki ki ki 0 0 0 0 0 end.
Fixpoint reached_list (i : nat) (l : list hkl) : list (nat * hkl) :=
  match l with [] => [] | x :: l => if reach x then (i, x) :: reached_list (S i) l else reached_list (S i) l end.

Lemma reach_close x : reach x = true -> Rabs (speed (vsub ki (pt x)) - k) <= 5 * dd * speed (pt x).
Proof.
  unfold reach, in_reach. destruct (Rle_dec _ _) as [L|]; [|discriminate]. intros _. fold k in L. eapply Rle_trans; [exact L|]. replace (5 * dd * speed (pt x)) with (5 * (dd * speed (pt x))) by ring. apply Rmult_le_compat_l; [lra|].
  pose proof (speed_nonneg (pt x)). assert (rms < 1) by (unfold rms; lra). assert (0 < rms) by (unfold rms; lra). apply Rmax_lub; unfold sig_along, sig_across; apply Rmult_le_compat_r; try assumption. nra.
Qed.
Lemma reach_below x : reach x = true -> beyond k dd (speed (pt x)) = false.
Proof.
  intros R. apply reach_close in R. unfold beyond. rewrite (proj2 (Reqb_f _ _)) by lra. apply Rltb_f. pose proof (sub_speed ki (pt x)) as S. fold k in S.
  assert (speed (vsub ki (pt x)) - k <= 5 * dd * speed (pt x)) by (eapply Rle_trans; [apply Rle_abs|exact R]).
  apply (Rmult_le_reg_r (1 - 5 * dd)); [lra|]. replace (2 * k / (1 - 5 * dd) * (1 - 5 * dd)) with (2 * k) by (field; lra). lra.
Qed.
Lemma reach_rho x : pt x <> mkV 0 0 0 -> reach x = true -> vsub ki (pt x) <> mkV 0 0 0.
Proof.
  intros N R Z. apply reach_close in R. assert (Q : speed (vsub ki (pt x)) = 0) by (rewrite Z; unfold speed; replace (norm2 (mkV 0 0 0)) with 0 by (unfold norm2, sdot; cbn; ring); apply sqrt_0). rewrite Q in R.
  assert (E : ki = pt x) by (destruct ki as [a b c], (pt x) as [a' b' c']; unfold vsub in Z; cbn in Z; injection Z; intros; f_equal; lra). unfold k in R. rewrite E in R. pose proof (speed_pos _ N). rewrite Rminus_0_l, Rabs_Ropp, Rabs_pos_eq in R by lra. nra.
Qed.
Lemma tdx_ok i x : pt x <> mkV 0 0 0 -> reach x = true ->
  new_taudata f k (speed (vsub ki (pt x))) ki i (new_hkldata lat mosaic dd x) = Some (tdx i x) /\ td_index (tdx i x) = i /\ 0 < td_refl (tdx i x) /\ td_xs (tdx i x) = td_refl (tdx i x) * F2 x / 100 /\
  lands (V0 lat) mosaic dd ki (pt x) (td_refl (tdx i x)) (fun z1 z2 => from_local (new_hkldata lat mosaic dd x) (local_point (tdx i x) z1 z2)) /\ (forall z1 z2, 0 < speed (local_point (tdx i x) z1 z2)).
Proof.
  intros N R. destruct (taudata_ok lat mosaic dd (V0 lat) x ki i M (proj1 D) VP N NK (reach_rho x N R)) as (t & E & H). assert (Q : tdx i x = t) by (unfold tdx; fold k f pt in E; now rewrite E). rewrite Q. split; [exact E|exact H].
Qed.
Lemma tdx_same i x : td_refl (tdx i x) = td_refl (tdx 0 x) /\ td_xs (tdx i x) = td_xs (tdx 0 x) /\ forall z1 z2, local_point (tdx i x) z1 z2 = local_point (tdx 0 x) z1 z2.
Proof. unfold tdx. rewrite (taudata_index _ _ _ _ i). destruct (new_taudata f k _ ki 0 _); cbn; auto. Qed.

Lemma reached_none l : forall i, (forall x, In x l -> reach x = false) -> reached_list i l = [].
Proof. induction l as [|x l IH]; intros i H; cbn; [reflexivity|]. rewrite (H x (or_introl eq_refl)). apply IH. intros y Y. apply H. now right. Qed.
Lemma list_ok l : (forall x, In x l -> pt x <> mkV 0 0 0) -> StronglySorted (fun x y => speed (pt x) <= speed (pt y)) l ->
  forall i, tau_list f dd k ki i (map (new_hkldata lat mosaic dd) l) = Some (map (fun p => tdx (fst p) (snd p)) (reached_list i l)).
Proof.
  induction l as [|x l IH]; intros N SO i; [reflexivity|]. cbn [map tau_list reached_list]. change (hd_tau_length (new_hkldata lat mosaic dd x)) with (speed (pt x)). change (hd_tau (new_hkldata lat mosaic dd x)) with (pt x).
  inversion SO as [|? ? SO' F]; subst. specialize (IH (fun y Y => N y (or_intror Y)) SO' (S i)).
  destruct (beyond k dd (speed (pt x))) eqn:B.
  - assert (RX : forall y, In y (x :: l) -> reach y = false).
    { intros y Y. destruct (reach y) eqn:R; [|reflexivity]. apply reach_below in R. unfold beyond in B, R. rewrite (proj2 (Reqb_f _ _)) in B, R by lra. apply Rltb_t in B. apply Rltb_f in R. destruct Y as [<-|Y]; [lra|]. rewrite Forall_forall in F. specialize (F y Y). lra. }
    rewrite (RX x (or_introl eq_refl)), reached_none; [reflexivity|]. intros y Y. apply RX. now right.
  - destruct (hkldata_ok lat mosaic dd x M (proj1 D) (N x (or_introl eq_refl))) as (_ & _ & _ & _ & _ & _ & _ & _ & _ & CU). rewrite CU. change (vnorm (vsub ki (pt x))) with (speed (vsub ki (pt x))).
    destruct (reach x) eqn:R.
    + pose proof R as R'. unfold reach, in_reach in R'. destruct (Rle_dec _ _) as [L|]; [|discriminate]. rewrite (proj2 (Rltb_f _ _)) by exact L. rewrite (proj1 (tdx_ok i x (N x (or_introl eq_refl)) R)). rewrite IH. reflexivity.
    + pose proof R as R'. unfold reach, in_reach in R'. destruct (Rle_dec _ _) as [|L]; [discriminate|]. rewrite (proj2 (Rltb_t _ _)) by (apply Rnot_le_lt; exact L). exact IH.
Qed.
Lemma reached_in l : forall i j x, In (j, x) (reached_list i l) -> In x l /\ reach x = true /\ (i <= j)%nat /\ nth_error l (j - i) = Some x.
Proof.
  induction l as [|y l IH]; intros i j x H; [destruct H|]. cbn [reached_list] in H. destruct (reach y) eqn:R.
  - destruct H as [E|H]; [injection E as <- <-; split; [now left|]; split; [exact R|]; split; [lia|]; rewrite Nat.sub_diag; reflexivity|].
    apply IH in H. destruct H as (A & B & C & E). split; [now right|]. split; [exact B|]. split; [lia|]. replace (j - i)%nat with (S (j - S i)) by lia. exact E.
  - apply IH in H. destruct H as (A & B & C & E). split; [now right|]. split; [exact B|]. split; [lia|]. replace (j - i)%nat with (S (j - S i)) by lia. exact E.
Qed.
Fixpoint lsum (g : hkl -> R) (l : list (nat * hkl)) : R := match l with [] => 0 | p :: l => g (snd p) + lsum g l end.
Lemma lsum_reach g l : forall i, (forall x, In x l -> 0 < F2 x) -> lsum g (reached_list i l) = over_reach mosaic dd ki pt g l.
Proof.
  induction l as [|x l IH]; intros i H; cbn; [reflexivity|]. destruct (Rlt_dec 0 (F2 x)) as [|Z]; [|elim Z; apply H; now left]. fold (reach x). rewrite <- (IH (S i)) by (intros y Y; apply H; now right). destruct (reach x); cbn; ring.
Qed.
Lemma fold_sum (q : taudata -> R) (g : hkl -> R) l : (forall p, In p l -> q (tdx (fst p) (snd p)) = g (snd p)) -> forall s, fold_left (fun s t => s + q t) (map (fun p => tdx (fst p) (snd p)) l) s = s + lsum g l.
Proof. intros H. induction l as [|p l IH]; intros s; cbn; [ring|]. rewrite IH by (intros r I; apply H; now right). rewrite (H p (or_introl eq_refl)). ring. Qed.

(** the mean over the reflections *)
Lemma find_some l r s : l <> [] -> exists t, find_reflection r s l = Some t /\ In t l.
Proof.
  revert s. induction l as [|t l IH]; intros s N; [now elim N|]. cbn. destruct (Rltb r _); [exists t; auto|]. destruct l as [|t' l']; [exists t; auto|]. destruct (IH (s + td_refl t)) as (u & A & B); [discriminate|]. exists u. auto.
Qed.
Fixpoint tsum (q : taudata -> R) (l : list taudata) : R := match l with [] => 0 | t :: l => q t + tsum q l end.
Lemma tsum_nonneg q l : (forall t, In t l -> 0 < q t) -> 0 <= tsum q l.
Proof. induction l as [|t l IH]; cbn; intros H; [lra|]. pose proof (H t (or_introl eq_refl)). assert (0 <= tsum q l) by (apply IH; intros; apply H; now right). lra. Qed.
Lemma find_int (g : taudata -> R) l : forall s, (forall t, In t l -> 0 < td_refl t) ->
  is_RInt (fun r => match find_reflection r s l with Some t => g t | None => 0 end) s (s + tsum td_refl l) (tsum (fun t => td_refl t * g t) l).
Proof.
  induction l as [|t l IH]; intros s H; cbn [tsum].
  - replace (s + 0) with s by ring. exact (@is_RInt_point R_NormedModule _ s).
  - pose proof (H t (or_introl eq_refl)) as P. assert (H' : forall u, In u l -> 0 < td_refl u) by (intros; apply H; now right). specialize (IH (s + td_refl t) H').
    pose proof (tsum_nonneg td_refl l H') as Q. replace (s + (td_refl t + tsum td_refl l)) with (s + td_refl t + tsum td_refl l) by ring.
    apply (@is_RInt_Chasles R_NormedModule _ s (s + td_refl t) (s + td_refl t + tsum td_refl l)).
    + apply (@is_RInt_ext R_NormedModule (fun _ => g t)).
      * intros r. rewrite Rmin_left, Rmax_right by lra. intros R. cbn. rewrite (proj2 (Rltb_t _ _)) by lra. reflexivity.
      * pose proof (@is_RInt_const R_NormedModule s (s + td_refl t) (g t)) as C. change (is_RInt (fun _ => g t) s (s + td_refl t) ((s + td_refl t - s) * g t)) in C. replace (s + td_refl t - s) with (td_refl t) in C by ring. exact C.
    + destruct l as [|t' l'].
      * cbn [tsum]. replace (s + td_refl t + 0) with (s + td_refl t) by ring. exact (@is_RInt_point R_NormedModule _ _).
      * eapply (@is_RInt_ext R_NormedModule); [|exact IH]. intros r. rewrite Rmin_left, Rmax_right by lra. intros R. cbv beta. symmetry. cbn [find_reflection]. rewrite (proj2 (Rltb_f r (s + td_refl t))) by lra. reflexivity.
Qed.
End many.
