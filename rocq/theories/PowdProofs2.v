(** Proofs for C57: the list of peaks and the coefficients. *)
From Coq Require Import Reals Lra Lia.
From Coquelicot Require Import Coquelicot.
From Verif Require Import Base RotModel RotSpec ChanModel ChanProofs ShapeModel ShapeSpec ShapeProofs ScatModel ScatSpec UnitModel UnitSpec UnitProofs KinModel KinSpec KinProofs KinProofs2 KinProofs3 KinProofs4 GridProofs PowdModel PowdSpec PowdProofs.
Open Scope R_scope.


Lemma ordered_cons p l : ordered (p :: l) <-> (forall x, In x l -> pk_q p <= pk_q x) /\ ordered l.
Proof.
  split.
  - intros H. split.
    + intros x X. destruct (In_nth l x p X) as (n & L & E). specialize (H 0%nat (S n) ltac:(cbn; lia) p). cbn in H. now rewrite E in H.
    + intros i j L d. exact (H (S i) (S j) ltac:(cbn; lia) d).
  - intros [A B] i j L d. destruct i as [|i], j as [|j]; cbn; try lia; [lra|apply A; apply nth_In; cbn in L; lia|]. apply B. cbn in L. lia.
Qed.
Lemma ascending_iff l : ascending (map (fun p => pk_q p * k2v) l) = true <-> ordered l.
Proof.
  pose proof k2v_pos as K. induction l as [|p l IH]; [split; [intros _ i j L; cbn in L; lia|reflexivity]|]. rewrite ordered_cons. destruct l as [|p' l].
  - split; [intros _; split; [intros x []|intros i j L; cbn in L; lia]|reflexivity].
  - change (ascending (map (fun p => pk_q p * k2v) (p :: p' :: l))) with (Rleb (pk_q p * k2v) (pk_q p' * k2v) && ascending (map (fun p => pk_q p * k2v) (p' :: l)))%bool.
    rewrite Bool.andb_true_iff, IH, Rleb_true. split.
    + intros [A B]. split; [|exact B]. assert (pk_q p <= pk_q p') by nra. intros x [<-|X]; [assumption|]. apply ordered_cons in B. destruct B as [B _]. specialize (B x X). lra.
    + intros [A B]. split; [|exact B]. specialize (A p' (or_introl eq_refl)). nra.
Qed.
Lemma all_some_map {A} (bad : A -> bool) (g : A -> R) l : all_some (map (fun x => if bad x then None else Some (g x)) l) = if existsb bad l then None else Some (map g l).
Proof. induction l as [|x l IH]; [reflexivity|]. cbn. destruct (bad x); [reflexivity|]. cbn. rewrite IH. now destruct (existsb bad l). Qed.

Definition sv (V : R) (p : peak) : R := 4 * PI * PI * PI * 1 * damping p / V / (v2k * v2k) * (IZR (pk_multiplicity p) * pk_F_squared p / pk_q p) * 100.
Lemma damping_eq p : (if Reqb (pk_DebyeWaller p) 0 then 1 else pk_DebyeWaller p) = damping p.
Proof. unfold damping, Reqb. now destruct (Req_EM_T _ _). Qed.
Definition kernel_of (data : powder_data) (d : R) : powder :=
  mkPow (map (fun p => pk_q p * k2v) (pd_peaks data)) (map pk_line_width (pd_peaks data)) (map (sv (pd_volume data)) (pd_peaks data)) (1 * pd_absorption data / pd_volume data * 100) (pd_volume data) d.
Definition usable (data : powder_data) : Prop := pd_volume data <> 0 /\ forall p, In p (pd_peaks data) -> pk_q p <> 0.
Lemma new_ok data d : ordered (pd_peaks data) -> usable data -> new_powder data d = Ok (Some (kernel_of data d)).
Proof.
  intros O [V Q]. unfold new_powder. rewrite (proj2 (ascending_iff _) O). cbn [negb].
  assert (E : map (peak_s_v2 (pd_volume data)) (pd_peaks data) = map (fun p => if (fun p => (Reqb (pd_volume data) 0 || Reqb (pk_q p) 0)%bool) p then None else Some (sv (pd_volume data) p)) (pd_peaks data)).
  { apply map_ext. intros p. unfold peak_s_v2, sv. now rewrite damping_eq. }
  rewrite E, all_some_map. assert (existsb (fun p => (Reqb (pd_volume data) 0 || Reqb (pk_q p) 0)%bool) (pd_peaks data) = false).
  { destruct (existsb _ _) eqn:X; [|reflexivity]. apply existsb_exists in X. destruct X as (p & I & B). rewrite (proj2 (Reqb_f _ _) V) in B. cbn in B. apply Reqb_t in B. now elim (Q p I). }
  rewrite H, (proj2 (Reqb_f _ _) V). reflexivity.
Qed.
Lemma new_bad data d : ordered (pd_peaks data) -> ~ usable data -> new_powder data d = Ok None.
Proof.
  intros O U. unfold new_powder. rewrite (proj2 (ascending_iff _) O). cbn [negb].
  assert (E : map (peak_s_v2 (pd_volume data)) (pd_peaks data) = map (fun p => if (fun p => (Reqb (pd_volume data) 0 || Reqb (pk_q p) 0)%bool) p then None else Some (sv (pd_volume data) p)) (pd_peaks data)).
  { apply map_ext. intros p. unfold peak_s_v2, sv. now rewrite damping_eq. }
  rewrite E, all_some_map. destruct (existsb _ _) eqn:X; [reflexivity|]. destruct (Reqb (pd_volume data) 0) eqn:V; [reflexivity|]. exfalso. apply U. apply Reqb_f in V. split; [exact V|]. intros p I Z.
  assert (Y : existsb (fun p => (Reqb (pd_volume data) 0 || Reqb (pk_q p) 0)%bool) (pd_peaks data) = true) by (apply existsb_exists; exists p; split; [exact I|]; rewrite (proj2 (Reqb_t _ _) Z); apply Bool.orb_true_r). rewrite (proj2 (Reqb_f _ _) V) in Y. cbn in *. rewrite X in Y. discriminate.
Qed.
Lemma new_unordered data d : ~ ordered (pd_peaks data) -> new_powder data d = Err Terminated.
Proof. intros O. unfold new_powder. destruct (ascending _) eqn:A; [|reflexivity]. apply ascending_iff in A. contradiction. Qed.
Lemma ordered_dec l : ordered l \/ ~ ordered l.
Proof. rewrite <- ascending_iff. destruct (ascending _); [left; reflexivity|right; discriminate]. Qed.
Lemma usable_dec data : usable data \/ ~ usable data.
Proof.
  unfold usable. destruct (Req_dec (pd_volume data) 0) as [Z|V]; [right; tauto|]. destruct (existsb (fun p => Reqb (pk_q p) 0) (pd_peaks data)) eqn:E.
  - right. apply existsb_exists in E. destruct E as (p & I & B). apply Reqb_t in B. intros [_ H]. now apply (H p I).
  - left. split; [exact V|]. intros p I Z. assert (X : existsb (fun p => Reqb (pk_q p) 0) (pd_peaks data) = true) by (apply existsb_exists; exists p; split; [exact I|now apply Reqb_t]). congruence.
Qed.
Lemma new_inv data d k : new_powder data d = Ok (Some k) -> ordered (pd_peaks data) /\ usable data /\ k = kernel_of data d.
Proof.
  intros H. destruct (ordered_dec (pd_peaks data)) as [O|O]; [|rewrite (new_unordered data d O) in H; discriminate]. destruct (usable_dec data) as [U|U]; [|rewrite (new_bad data d O U) in H; discriminate].
  rewrite (new_ok data d O U) in H. split; [exact O|]. split; [exact U|congruence].
Qed.

(** which peaks are reached *)
Lemma filter_le {A} (f : A -> bool) l : (List.length (filter f l) <= List.length l)%nat.
Proof. induction l as [|x l IH]; [reflexivity|]. cbn. destruct (f x); cbn; lia. Qed.
Lemma reached_speed k p s : is_wavenumber k s -> Rleb (pk_q p * k2v / 2) s = reached k p.
Proof.
  intros W. apply is_wavenumber_iff in W. subst k. pose proof v2k_pos as A. pose proof k2v_v2k as B. unfold reached. destruct (Rle_dec (pk_q p / 2) (v2k * s)) as [L|L].
  - apply Rleb_true. apply (Rmult_le_reg_l v2k); [exact A|]. replace (v2k * (pk_q p * k2v / 2)) with (pk_q p / 2 * (k2v * v2k)) by field. rewrite B. lra.
  - apply Rleb_false. apply (Rmult_lt_reg_l v2k); [exact A|]. replace (v2k * (pk_q p * k2v / 2)) with (pk_q p / 2 * (k2v * v2k)) by field. rewrite B. lra.
Qed.
Lemma not_reached_speed k p s : is_wavenumber k s -> Rltb s (pk_q p * k2v / 2) = negb (reached k p).
Proof.
  intros W. rewrite <- (reached_speed k p s W). unfold Rltb, Rleb. destruct (Rlt_dec _ _), (Rle_dec _ _); try reflexivity; lra.
Qed.
Lemma none_reached k l p : (forall x, In x l -> pk_q p <= pk_q x) -> reached k p = false -> filter (reached k) l = [].
Proof.
  intros H R. induction l as [|x l IH]; [reflexivity|]. cbn. replace (reached k x) with false; [apply IH; intros; apply H; now right|]. symmetry. unfold reached in *. specialize (H x (or_introl eq_refl)). destruct (Rle_dec (pk_q p / 2) k); [discriminate|]. destruct (Rle_dec _ _); [lra|reflexivity].
Qed.
Lemma reached_first k l : ordered l -> filter (reached k) l = firstn (number_reached k l) l.
Proof.
  unfold number_reached. induction l as [|p l IH]; [reflexivity|]. intros O. apply ordered_cons in O. destruct O as [A O]. cbn. destruct (reached k p) eqn:R; [cbn; now rewrite <- IH|]. rewrite (none_reached k l p A R). reflexivity.
Qed.
Lemma scatterable_count k s l : is_wavenumber k s -> ordered l -> scatterable s (map (fun p => pk_q p * k2v) l) = S (number_reached k l).
Proof.
  intros W. unfold number_reached. induction l as [|p l IH]; [reflexivity|]. intros O. apply ordered_cons in O. destruct O as [A O]. cbn. rewrite (not_reached_speed k p s W). destruct (reached k p) eqn:R; cbn; [now rewrite IH|]. now rewrite (none_reached k l p A R).
Qed.
Lemma nth_first {A} n : forall (l : list A) i d, (i < n)%nat -> nth i (firstn n l) d = nth i l d.
Proof. induction n as [|n IH]; intros l i d L; [lia|]. destruct l as [|x l]; [reflexivity|]. destruct i as [|i]; [reflexivity|]. cbn. apply IH. lia. Qed.
Lemma reached_nth k l i d : ordered l -> (i < number_reached k l)%nat -> reached k (nth i l d) = true /\ (i < List.length l)%nat /\ In (nth i l d) l.
Proof.
  intros O L. assert (LL : (number_reached k l <= List.length l)%nat) by (unfold number_reached; apply filter_le). split; [|split; [lia|apply nth_In; lia]].
  assert (E : nth i (filter (reached k) l) d = nth i l d). { rewrite (reached_first k l O). now apply nth_first. }
  rewrite <- E. apply (filter_In (reached k) (nth i (filter (reached k) l) d) l). apply nth_In. exact L.
Qed.

(** coefficients *)
Lemma sv_coefficient k s V p : is_wavenumber k s -> 0 < s -> V <> 0 -> pk_q p <> 0 -> sv V p / (s * s) / V = cone_coefficient k V p.
Proof.
  intros W S NV Q. apply is_wavenumber_iff in W. subst k. unfold sv, cone_coefficient, cone_xs. pose proof v2k_pos. field. repeat split; try lra; assumption.
Qed.
Lemma xs_fold V s k l a : is_wavenumber k s ->
  fold_left (fun xs p => if Rleb (fst p / 2) s then xs + snd p else xs) (combine (map (fun p => pk_q p * k2v) l) (map (sv V) l)) a = a + over_reached k (sv V) l.
Proof.
  intros W. revert a. induction l as [|p l IH]; intros a; cbn; [ring|]. rewrite (reached_speed k p s W). destruct (reached k p); rewrite IH; ring.
Qed.
Lemma over_ext k f g l : (forall p, In p l -> f p = g p) -> over_reached k f l = over_reached k g l.
Proof. intros H. induction l as [|p l IH]; [reflexivity|]. cbn. rewrite IH by (intros; apply H; now right). destruct (reached k p); [rewrite H by now left|]; reflexivity. Qed.
Lemma over_scale k f c l : over_reached k (fun p => f p * c) l = over_reached k f l * c.
Proof. induction l as [|p l IH]; cbn; [ring|]. rewrite IH. destruct (reached k p); ring. Qed.
Lemma scattering_is data d k kk v : new_powder data d = Ok (Some k) -> v <> mkV 0 0 0 -> is_wavenumber kk (speed v) ->
  powder_scattering k v = Some (over_reached kk (cone_coefficient kk (pd_volume data)) (pd_peaks data)).
Proof.
  intros H N W. apply new_inv in H. destruct H as (O & [NV Q] & ->). pose proof (speed_pos v N) as S. unfold powder_scattering, powder_xs. cbv zeta. rewrite norm_is, (proj2 (Reqb_f _ _)) by lra. cbn [pw_q_v pw_s_v2 kernel_of option_map pw_volume].
  rewrite (xs_fold (pd_volume data) (speed v) kk (pd_peaks data) 0 W). f_equal. rewrite Rplus_0_l. unfold Rdiv. rewrite <- !over_scale. apply over_ext. intros p I. apply (sv_coefficient kk (speed v)); try assumption. now apply Q.
Qed.
Lemma absorption_is data d k v : new_powder data d = Ok (Some k) -> v <> mkV 0 0 0 -> powder_absorption k v = Some (100 * pd_absorption data / pd_volume data * (2200 / speed v)).
Proof.
  intros H N. apply new_inv in H. destruct H as (O & [NV Q] & ->). pose proof (speed_pos v N) as S. unfold powder_absorption. cbv zeta. rewrite norm_is, (proj2 (Reqb_f _ _)) by lra. f_equal. cbn. field. split; [lra|assumption].
Qed.
Lemma reached_twice k p : 0 < k -> Rltb (2 * k) (pk_q p) = negb (reached k p).
Proof. intros K. unfold Rltb, reached. destruct (Rlt_dec _ _), (Rle_dec _ _); try reflexivity; lra. Qed.
Lemma terms_some k V l : 0 < k -> V <> 0 -> (forall p, In p l -> pk_q p <> 0) -> all_some (map (cone_term k (PI * 2 / k) V) l) = Some (map (fun p => if reached k p then cone_xs k V (pk_q p) (pk_F_squared p) (pk_multiplicity p) else 0) l).
Proof.
  intros K NV. induction l as [|p l IH]; intros Q; [reflexivity|]. cbn [map all_some]. assert (QP : pk_q p <> 0) by (apply Q; now left). unfold cone_term at 1. rewrite (reached_twice k p K). destruct (reached k p); cbn [negb].
  - rewrite (proj2 (Reqb_f V 0) NV). rewrite (proj2 (Reqb_f _ 0)); [|intros Z; apply QP; apply (Rmult_eq_reg_r (/ 2 / k)); [unfold Rdiv in *; rewrite Rmult_0_l; rewrite <- Z; ring|apply Rgt_not_eq; apply Rdiv_lt_0_compat; lra]].
    cbn [orb]. rewrite IH by (intros; apply Q; now right). cbn [option_map]. f_equal. f_equal. unfold cone_xs. field. repeat split; try lra; assumption.
  - rewrite IH by (intros; apply Q; now right). reflexivity.
Qed.
Lemma sum_left l a : fold_left Rplus l a = a + fold_right Rplus 0 l.
Proof. revert a. induction l as [|x l IH]; intros a; cbn; [ring|]. rewrite IH. ring. Qed.
Lemma total_is Ei V l kk : py_e2k Ei = Some kk -> 0 < kk -> V <> 0 -> (forall p, In p l -> pk_q p <> 0) ->
  total_scattering_cross_section Ei V l = Some (over_reached kk (fun p => cone_xs kk V (pk_q p) (pk_F_squared p) (pk_multiplicity p)) l).
Proof.
  intros E K NV Q. unfold total_scattering_cross_section. rewrite E, (proj2 (Reqb_f _ _)) by lra. rewrite (terms_some kk V l K NV Q). cbn [option_map]. f_equal. rewrite sum_left, Rplus_0_l. clear. induction l as [|p l IH]; [reflexivity|]. cbn. now rewrite IH.
Qed.
Lemma coefficient_total kk V l : (forall p, In p l -> damping p = 1) -> over_reached kk (cone_coefficient kk V) l = 100 * over_reached kk (fun p => cone_xs kk V (pk_q p) (pk_F_squared p) (pk_multiplicity p)) l / V.
Proof.
  intros H. replace (100 * over_reached kk (fun p => cone_xs kk V (pk_q p) (pk_F_squared p) (pk_multiplicity p)) l / V) with (over_reached kk (fun p => cone_xs kk V (pk_q p) (pk_F_squared p) (pk_multiplicity p)) l * (100 / V)) by (unfold Rdiv; ring).
  rewrite <- over_scale. apply over_ext. intros p I. unfold cone_coefficient. rewrite (H p I). unfold Rdiv. ring.
Qed.
