(** C74: radial collimators. *)
From Coq Require Import Reals Lra Psatz Sorting.
From Verif Require Import Base RotModel RotProofs ChanModel ChanProofs ShapeModel ShapeProofs ScatSpec UnitModel UnitProofs CollModel CollSpec CollProofs CollProofs2 CollProofs3.
Open Scope R_scope.

Theorem C74_even r1 h1 r2 h2 lo hi d osc c us l : new_coll r1 h1 r2 h2 (Some lo) (Some hi) (Some d) None osc = Ok c -> 0 < r1 -> 0 < r2 -> 0 < d ->
  exists out, collimate c us l = Ok out /\ those (fun u => through r1 h1 r2 h2 lo hi (at_blade_even lo d) (osc * u)) us l out.
Proof. exact (even_process r1 h1 r2 h2 lo hi d osc c us l). Qed.
Print Assumptions C74_even.
(** One metre off the axis a neutron gets through between blades 60 degrees apart, and not between blades 45 degrees apart. *)
Example C74_even_example :
  (exists c, new_coll (sqrt 2) 1 2 1 (Some 0) (Some PI) (Some (PI / 3)) None 0 = Ok c /\ collimate c [0] [off_axis 0] = Ok [off_axis 0]) /\
  (exists c, new_coll (sqrt 2) 1 2 1 (Some 0) (Some PI) (Some (PI / 4)) None 0 = Ok c /\ collimate c [0] [off_axis 0] = Ok []).
Proof.
  pose proof PI_RGT_0 as P. pose proof sqrt2_range as S. split.
  - eexists. split; [reflexivity|]. eapply one_kept; [apply even_process with (d := PI / 3); [reflexivity|lra|lra|lra]|]. apply off_through; [lra|lra|]. apply gap_even; [lra|].
    rewrite (floor_unique _ 0), (floor_unique _ 0); [reflexivity| |].
    + replace ((PI / 6 + 0 * 0 - 0) / (PI / 3)) with (1 / 2) by (field; lra). lra.
    + replace ((PI / 4 + 0 * 0 - 0) / (PI / 3)) with (3 / 4) by (field; lra). lra.
  - eexists. split; [reflexivity|]. eapply one_lost; [apply even_process with (d := PI / 4); [reflexivity|lra|lra|lra]|]. apply off_not_through. intros G. apply gap_even in G; [|lra].
    rewrite (floor_unique _ 1), (floor_unique _ 0) in G; [discriminate| |].
    + replace ((PI / 6 + 0 * 0 - 0) / (PI / 4)) with (2 / 3) by (field; lra). lra.
    + replace ((PI / 4 + 0 * 0 - 0) / (PI / 4)) with 1 by (field; lra). lra.
Qed.

Theorem C74_listed r1 h1 r2 h2 lo l hi osc c us ns : new_coll r1 h1 r2 h2 None None None (Some (lo :: l)) osc = Ok c -> last (lo :: l) 0 = hi -> 0 < r1 -> 0 < r2 -> in_order (lo :: l) ->
  exists out, collimate c us ns = Ok out /\ those (fun u => through r1 h1 r2 h2 lo hi (fun x => In x (lo :: l)) (osc * u)) us ns out.
Proof. exact (listed_process r1 h1 r2 h2 lo l hi osc c us ns). Qed.
Print Assumptions C74_listed.
Example C74_listed_example : in_order [0; PI / 5; PI] /\ exists c, new_coll (sqrt 2) 1 2 1 None None None (Some [0; PI / 5; PI]) 0 = Ok c /\ collimate c [0; 0] [off_axis 0; off_axis 1] = Ok [].
Proof.
  pose proof PI_RGT_0 as P. pose proof sqrt2_range as S. assert (IO : in_order [0; PI / 5; PI]).
  { constructor; [constructor; [constructor; [constructor|constructor]|constructor; [lra|constructor]]|constructor; [lra|constructor; [lra|constructor]]]. }
  split; [exact IO|]. eexists. split; [reflexivity|].
  destruct (listed_process (sqrt 2) 1 2 1 0 [PI / 5; PI] PI 0 _ [0; 0] [off_axis 0; off_axis 1] eq_refl eq_refl ltac:(lra) ltac:(lra) IO) as (out & E & T).
  assert (N : forall z0, ~ through (sqrt 2) 1 2 1 0 PI (fun x => In x [0; PI / 5; PI]) (0 * 0) (off_axis z0)).
  { intros z0. apply off_not_through. intros G. specialize (G (PI / 5) ltac:(right; left; reflexivity)). lra. }
  inversion T as [|? ? ? ? A B|? ? ? ? A B]; subst; [exfalso; exact (N _ A)|]. inversion B as [|? ? ? ? A' B'|? ? ? ? A' B']; subst; [exfalso; exact (N _ A')|]. inversion B'; subst. exact E.
Qed.

(** Neutrons that start inside leave the inner cylinder first, both after they start. *)
Theorem C74_outward ev r1 r2 : 0 < r1 < r2 -> dist2 (e_r ev) < r1 ^ 2 -> (vx (e_v ev) <> 0 \/ vz (e_v ev) <> 0) ->
  exists t1 t2, leaves ev r1 t1 /\ leaves ev r2 t2 /\ 0 < t1 < t2.
Proof.
  intros R I M. assert (A : qa ev <> 0) by (unfold qa; destruct M; nra). assert (I2 : dist2 (e_r ev) < r2 ^ 2) by nra.
  destruct (leaves_some ev r1 I A) as (t1 & L1). destruct (leaves_some ev r2 I2 A) as (t2 & L2). exists t1, t2. split; [exact L1|]. split; [exact L2|]. split; [exact (leaves_later _ _ _ I L1)|exact (leaves_in_turn _ _ _ _ _ R L1 L2)].
Qed.
Print Assumptions C74_outward.
Example C74_outward_example : 0 < sqrt 2 < 2 /\ dist2 (e_r (off_axis 0)) < sqrt 2 ^ 2 /\ leaves (off_axis 0) (sqrt 2) (1 - 0) /\ leaves (off_axis 0) 2 (sqrt 3 - 0).
Proof. split; [exact sqrt2_range|]. split; [rewrite pow2_sqrt by lra; unfold dist2, off_axis; cbn [RotModel.e_r vx vz]; lra|]. split; [apply off_first|apply off_second]. Qed.

(** Between the cylinders the path of a neutron that gets through is in one gap all the way. *)
Theorem C74_no_blade r1 h1 r2 h2 lo hi d osc c u ev t1 t2 phi1 : new_coll r1 h1 r2 h2 (Some lo) (Some hi) (Some d) None osc = Ok c -> 0 < r1 < r2 -> 0 < d <= PI ->
  collimate c [u] [ev] = Ok [ev] -> leaves ev r1 t1 -> leaves ev r2 t2 -> principal (where_at ev t1) phi1 ->
  forall t, t1 <= t <= t2 -> exists phi, azimuth (where_at ev t) phi /\ lo < phi + osc * u < hi /\ in_gap (at_blade_even lo d) (phi1 + osc * u) (phi + osc * u).
Proof.
  intros NC R D K L1 L2 P1 t T. destruct (even_process _ _ _ _ _ _ _ _ _ [u] [ev] NC ltac:(lra) ltac:(lra) ltac:(lra)) as (out & E & TH). apply one_those in TH.
  destruct TH as [[TH _]|[_ ->]]; [|rewrite E in K; discriminate]. pose proof TH as (u1 & u2 & a & b & M1 & M2 & _ & _ & Q1 & Q2 & A & B & G).
  assert (u1 = t1) by (apply (leaves_unique ev _ _ _ M1 L1)). assert (u2 = t2) by (apply (leaves_unique ev _ _ _ M2 L2)). subst u1 u2. pose proof (principal_unique _ _ _ Q1 P1) as ->.
  assert (W : Rabs (phi1 - b) < PI). { apply even_gap_width in G; [|lra]. replace (phi1 - b) with (phi1 + osc * u - (b + osc * u)) by ring. lra. }
  exact (through_path _ _ _ _ _ _ _ _ _ _ _ _ _ R TH L1 L2 P1 Q2 W t T).
Qed.
Print Assumptions C74_no_blade.
Example C74_no_blade_example : 0 < PI / 3 <= PI /\ exists phi, azimuth (where_at (off_axis 0) (sqrt 3 - 0)) phi /\ 0 < phi + 0 * 0 < PI /\ in_gap (at_blade_even 0 (PI / 3)) (PI / 4 + 0 * 0) (phi + 0 * 0).
Proof.
  pose proof PI_RGT_0 as P. split; [lra|]. destruct C74_even_example as [(c & NC & K) _].
  apply (C74_no_blade (sqrt 2) 1 2 1 0 PI (PI / 3) 0 c 0 (off_axis 0) (1 - 0) (sqrt 3 - 0) (PI / 4) NC sqrt2_range ltac:(lra) K (off_first 0) (off_second 0) (off_angle1 0)).
  split; [|lra]. left. apply (leaves_in_turn _ _ _ _ _ sqrt2_range (off_first 0) (off_second 0)).
Qed.
Theorem C74_no_listed_blade r1 h1 r2 h2 lo l hi osc c u ev t1 t2 phi1 phi2 : new_coll r1 h1 r2 h2 None None None (Some (lo :: l)) osc = Ok c -> last (lo :: l) 0 = hi -> 0 < r1 < r2 -> in_order (lo :: l) ->
  collimate c [u] [ev] = Ok [ev] -> leaves ev r1 t1 -> leaves ev r2 t2 -> principal (where_at ev t1) phi1 -> principal (where_at ev t2) phi2 -> Rabs (phi1 - phi2) < PI ->
  forall t, t1 <= t <= t2 -> exists phi, azimuth (where_at ev t) phi /\ lo < phi + osc * u < hi /\ in_gap (fun x => In x (lo :: l)) (phi1 + osc * u) (phi + osc * u).
Proof.
  intros NC EH R D K L1 L2 P1 P2 W t T. destruct (listed_process _ _ _ _ _ _ _ _ _ [u] [ev] NC EH ltac:(lra) ltac:(lra) D) as (out & E & TH). apply one_those in TH.
  destruct TH as [[TH _]|[_ ->]]; [|rewrite E in K; discriminate]. exact (through_path _ _ _ _ _ _ _ _ _ _ _ _ _ R TH L1 L2 P1 P2 W t T).
Qed.
Print Assumptions C74_no_listed_blade.
Example C74_no_listed_blade_example : in_order [0; PI] /\ (exists c, new_coll (sqrt 2) 1 2 1 None None None (Some [0; PI]) 0 = Ok c /\ collimate c [0] [off_axis 0] = Ok [off_axis 0]) /\ Rabs (PI / 4 - PI / 6) < PI.
Proof.
  pose proof PI_RGT_0 as P. pose proof sqrt2_range as S. assert (IO : in_order [0; PI]) by (constructor; [constructor; [constructor|constructor]|constructor; [lra|constructor]]).
  split; [exact IO|]. split; [|apply Rabs_def1; lra]. eexists. split; [reflexivity|]. eapply one_kept; [apply (listed_process (sqrt 2) 1 2 1 0 [PI] PI 0 _ [0] [off_axis 0] eq_refl eq_refl); [lra|lra|exact IO]|].
  apply off_through; [lra|lra|]. intros x [<-|[<-|[]]]; split; lra.
Qed.

(** A neutron that is lost though it goes out within the range and the heights meets a blade. *)
Theorem C74_blade_hit r1 h1 r2 h2 lo hi d osc c u ev t1 t2 phi1 phi2 : new_coll r1 h1 r2 h2 (Some lo) (Some hi) (Some d) None osc = Ok c -> 0 < r1 < r2 -> 0 < d ->
  collimate c [u] [ev] = Ok [] -> leaves ev r1 t1 -> leaves ev r2 t2 -> principal (where_at ev t1) phi1 -> principal (where_at ev t2) phi2 ->
  Rabs (vy (where_at ev t1)) < h1 / 2 -> Rabs (vy (where_at ev t2)) < h2 / 2 -> lo < phi1 + osc * u < hi -> lo < phi2 + osc * u < hi -> Rabs (phi1 - phi2) < PI ->
  exists x t, at_blade_even lo d x /\ lo < x < hi /\ t1 <= t <= t2 /\ azimuth (where_at ev t) (x - osc * u).
Proof.
  intros NC R D K L1 L2 P1 P2 H1 H2 A B W. destruct (even_process _ _ _ _ _ _ _ _ _ [u] [ev] NC ltac:(lra) ltac:(lra) D) as (out & E & TH). apply one_those in TH.
  destruct TH as [[_ ->]|[TH _]]; [rewrite E in K; discriminate|]. exact (refused_meets r1 h1 r2 h2 lo hi (at_blade_even lo d) (osc * u) ev t1 t2 phi1 phi2 R (fun x y => not_gap_even lo d x y D) L1 L2 P1 P2 H1 H2 A B W TH).
Qed.
Print Assumptions C74_blade_hit.
Example C74_blade_hit_example : exists x t, at_blade_even 0 (PI / 4) x /\ 0 < x < PI /\ 1 - 0 <= t <= sqrt 3 - 0 /\ azimuth (where_at (off_axis 0) t) (x - 0 * 0).
Proof.
  pose proof PI_RGT_0 as P. destruct C74_even_example as [_ (c & NC & K)].
  apply (C74_blade_hit (sqrt 2) 1 2 1 0 PI (PI / 4) 0 c 0 (off_axis 0) (1 - 0) (sqrt 3 - 0) (PI / 4) (PI / 6) NC sqrt2_range ltac:(lra) K (off_first 0) (off_second 0) (off_angle1 0) (off_angle2 0)); rewrite ?off_height, ?Rabs_R0; try lra. apply Rabs_def1; lra.
Qed.
Theorem C74_listed_blade_hit r1 h1 r2 h2 lo l hi osc c u ev t1 t2 phi1 phi2 : new_coll r1 h1 r2 h2 None None None (Some (lo :: l)) osc = Ok c -> last (lo :: l) 0 = hi -> 0 < r1 < r2 -> in_order (lo :: l) ->
  collimate c [u] [ev] = Ok [] -> leaves ev r1 t1 -> leaves ev r2 t2 -> principal (where_at ev t1) phi1 -> principal (where_at ev t2) phi2 ->
  Rabs (vy (where_at ev t1)) < h1 / 2 -> Rabs (vy (where_at ev t2)) < h2 / 2 -> lo < phi1 + osc * u < hi -> lo < phi2 + osc * u < hi -> Rabs (phi1 - phi2) < PI ->
  exists x t, In x (lo :: l) /\ lo < x < hi /\ t1 <= t <= t2 /\ azimuth (where_at ev t) (x - osc * u).
Proof.
  intros NC EH R D K L1 L2 P1 P2 H1 H2 A B W. destruct (listed_process _ _ _ _ _ _ _ _ _ [u] [ev] NC EH ltac:(lra) ltac:(lra) D) as (out & E & TH). apply one_those in TH.
  destruct TH as [[_ ->]|[TH _]]; [rewrite E in K; discriminate|]. exact (refused_meets r1 h1 r2 h2 lo hi (fun x => In x (lo :: l)) (osc * u) ev t1 t2 phi1 phi2 R (not_gap_listed (lo :: l)) L1 L2 P1 P2 H1 H2 A B W TH).
Qed.
Print Assumptions C74_listed_blade_hit.
Example C74_listed_blade_hit_example : exists x t, In x [0; PI / 5; PI] /\ 0 < x < PI /\ 1 - 0 <= t <= sqrt 3 - 0 /\ azimuth (where_at (off_axis 0) t) (x - 0 * 0).
Proof.
  pose proof PI_RGT_0 as P. pose proof sqrt2_range as S. destruct C74_listed_example as [IO _].
  assert (K : collimate (mkColl (sqrt 2) 1 2 1 (Listed 0 PI [0; PI / 5; PI]) 0) [0] [off_axis 0] = Ok []).
  { eapply one_lost; [apply (listed_process (sqrt 2) 1 2 1 0 [PI / 5; PI] PI 0 _ [0] [off_axis 0] eq_refl eq_refl); [lra|lra|exact IO]|]. apply off_not_through. intros G. specialize (G (PI / 5) ltac:(right; left; reflexivity)). lra. }
  apply (C74_listed_blade_hit (sqrt 2) 1 2 1 0 [PI / 5; PI] PI 0 _ 0 (off_axis 0) (1 - 0) (sqrt 3 - 0) (PI / 4) (PI / 6) eq_refl eq_refl S IO K (off_first 0) (off_second 0) (off_angle1 0) (off_angle2 0)); rewrite ?off_height, ?Rabs_R0; try lra. apply Rabs_def1; lra.
Qed.

(** With an oscillation over one gap, the mean transmission falls linearly with the angle between the two points, as for a triangle. *)
Theorem C74_mean r1 h1 r2 h2 lo hi d c ev t1 t2 phi1 phi2 : new_coll r1 h1 r2 h2 (Some lo) (Some hi) (Some d) None d = Ok c -> 0 < r1 -> 0 < r2 -> 0 < d ->
  leaves ev r1 t1 -> leaves ev r2 t2 -> principal (where_at ev t1) phi1 -> principal (where_at ev t2) phi2 -> Rabs (vy (where_at ev t1)) < h1 / 2 -> Rabs (vy (where_at ev t2)) < h2 / 2 ->
  lo < phi1 -> phi1 + d <= hi -> lo < phi2 -> phi2 + d <= hi ->
  mean1 (fun u => match collimate c [u] [ev] with Ok l => INR (List.length l) | Err _ => 0 end) (Rmax 0 (1 - Rabs (phi2 - phi1) / d)).
Proof. exact (mean_through r1 h1 r2 h2 lo hi d c ev t1 t2 phi1 phi2). Qed.
Print Assumptions C74_mean.
Example C74_mean_example : mean1 (fun u => match collimate (mkColl (sqrt 2) 1 2 1 (Even 0 PI (PI / 3)) (PI / 3)) [u] [off_axis 0] with Ok l => INR (List.length l) | Err _ => 0 end) (3 / 4).
Proof.
  pose proof PI_RGT_0 as P. pose proof sqrt2_range as S. replace (3 / 4) with (Rmax 0 (1 - Rabs (PI / 6 - PI / 4) / (PI / 3))).
  2:{ rewrite Rabs_left by lra. replace (- (PI / 6 - PI / 4) / (PI / 3)) with (1 / 4) by (field; lra). rewrite Rmax_right by lra. lra. }
  apply (C74_mean (sqrt 2) 1 2 1 0 PI (PI / 3) _ (off_axis 0) (1 - 0) (sqrt 3 - 0) (PI / 4) (PI / 6) eq_refl ltac:(lra) ltac:(lra) ltac:(lra) (off_first 0) (off_second 0) (off_angle1 0) (off_angle2 0)); rewrite ?off_height, ?Rabs_R0; lra.
Qed.

(** Lists of blades that are in no order are refused when there are neutrons; with a list in decreasing order nothing gets through. *)
Theorem C74_unordered r1 h1 r2 h2 l osc c us : new_coll r1 h1 r2 h2 None None None (Some l) osc = Ok c ->
  (forall ev ns, ~ in_order l -> ~ in_order (rev l) -> collimate c us (ev :: ns) = Err ValueError) /\ (forall ns, in_order (rev l) -> last l 0 < hd 0 l -> collimate c us ns = Ok []) /\ collimate c us [] = Ok [].
Proof. intros N. split; [intros ev ns A B; exact (unordered _ _ _ _ _ _ _ _ _ _ N A B)|]. split; [intros ns A B; exact (decreasing _ _ _ _ _ _ _ _ _ N A B)|reflexivity]. Qed.
Print Assumptions C74_unordered.
Example C74_unordered_example : ~ in_order [1; 3; 2] /\ ~ in_order (rev [1; 3; 2]) /\ in_order (rev [3; 2; 1]) /\ last [3; 2; 1] 0 < hd 0 [3; 2; 1].
Proof.
  split; [|split; [|split]]; try (intros H; apply ordered_test in H; cbn in H; apply andb_prop in H; destruct H as [A B]; apply Rleb_true in A; try (apply andb_prop in B; destruct B as [B _]; apply Rleb_true in B); lra).
  - apply test_ordered. cbn. rewrite !(proj2 (Rleb_true _ _)) by lra. reflexivity.
  - cbn. lra.
Qed.

(** Making collimators, with angles in radians or in degrees. *)
Theorem C74_new r1 h1 r2 h2 theta1 theta2 dtheta osc :
  ((theta1 = None \/ theta2 = None \/ dtheta = None) -> new_coll r1 h1 r2 h2 theta1 theta2 dtheta None osc = Err TypeError /\ new_coll r1 h1 r2 h2 theta1 theta2 dtheta (Some []) osc = Err IndexError /\
     forall x l, exists c, new_coll r1 h1 r2 h2 theta1 theta2 dtheta (Some (x :: l)) osc = Ok c /\ new_coll r1 h1 r2 h2 None None None (Some (x :: l)) osc = Ok c) /\
  (forall a b d l a' b' d' osc', radians a a' -> radians b b' -> radians d d' -> radians osc osc' -> pyre_coll r1 h1 r2 h2 (Some a) (Some b) (Some d) l osc = new_coll r1 h1 r2 h2 (Some a') (Some b') (Some d') None osc') /\
  (forall l l' osc', Forall2 radians l l' -> radians osc osc' -> pyre_coll r1 h1 r2 h2 None None None (Some l) osc = new_coll r1 h1 r2 h2 None None None (Some l') osc').
Proof.
  assert (K : forall x y, radians x y -> x / 180 * PI = y) by (unfold radians; intros x y H; lra). split; [|split].
  - intros H. assert (E : forall tl, new_coll r1 h1 r2 h2 theta1 theta2 dtheta tl osc = new_coll r1 h1 r2 h2 None None None tl osc).
    { intros tl. destruct H as [->|[->| ->]]; [reflexivity|destruct theta1; reflexivity|destruct theta1, theta2; reflexivity]. }
    rewrite !E. split; [reflexivity|]. split; [reflexivity|]. intros x l. rewrite E. eexists. split; reflexivity.
  - intros a b d l a' b' d' osc' A B D O. unfold pyre_coll. cbn [option_map]. rewrite (K _ _ A), (K _ _ B), (K _ _ D), (K _ _ O). reflexivity.
  - intros l l' osc' F O. unfold pyre_coll. cbn [option_map]. rewrite (K _ _ O). replace (map (fun x => x * (PI / 180)) l) with l'; [reflexivity|].
    induction F as [|x y l l' H F IH]; [reflexivity|]. cbn [map]. f_equal; [unfold radians in H; lra|exact IH].
Qed.
Print Assumptions C74_new.
Example C74_new_example : radians 180 PI /\ radians 30 (PI / 6) /\ exists c, new_coll 1 1 2 1 (Some 0) None (Some 1) (Some [0; 1]) 0 = Ok c /\ c_blades c = Listed 0 1 [0; 1].
Proof. split; [unfold radians; lra|]. split; [unfold radians; lra|]. eexists. split; reflexivity. Qed.

(** A neutron that has passed the collimator already can be lost in it. *)
Theorem C74_behind_refuted : exists c ev, new_coll (sqrt 2) 1 2 1 (Some 0) (Some PI) (Some (PI / 4)) None 0 = Ok c /\ (forall t, 0 <= t -> 2 ^ 2 < dist2 (where_at ev t)) /\ collimate c [0] [ev] = Ok [].
Proof.
  eexists. exists (off_axis 10). split; [reflexivity|]. split; [intros t T; rewrite off_dist; nra|]. pose proof PI_RGT_0 as P. pose proof sqrt2_range as S.
  eapply one_lost; [apply even_process with (d := PI / 4); [reflexivity|lra|lra|lra]|]. apply off_not_through. intros G. apply gap_even in G; [|lra].
  rewrite (floor_unique _ 1), (floor_unique _ 0) in G; [discriminate| |].
  + replace ((PI / 6 + 0 * 0 - 0) / (PI / 4)) with (2 / 3) by (field; lra). lra.
  + replace ((PI / 4 + 0 * 0 - 0) / (PI / 4)) with 1 by (field; lra). lra.
Qed.
Print Assumptions C74_behind_refuted.

(** Nothing gets through beyond 180 degrees, also when the blades go that far. *)
Theorem C74_back_refuted : exists c ev, new_coll 1 1 2 1 (Some (PI / 2)) (Some (3 * (PI / 2))) (Some PI) None 0 = Ok c /\
  (forall t, 0 < t -> azimuth (where_at ev t) (7 * (PI / 6))) /\ PI / 2 < 7 * (PI / 6) < 3 * (PI / 2) /\ leaves ev 1 1 /\ leaves ev 2 2 /\ (forall t, vy (where_at ev t) = 0) /\ collimate c [0] [ev] = Ok [].
Proof.
  pose proof PI_RGT_0 as P. eexists. exists backward. split; [reflexivity|]. split; [exact back_azimuth|]. split; [lra|]. split; [apply back_leaves; lra|]. split; [apply back_leaves; lra|].
  split; [intros t; unfold where_at, backward; cbn [RotModel.e_r RotModel.e_v vx vy vz]; ring|].
  eapply one_lost; [apply even_process with (d := PI); [reflexivity|lra|lra|lra]|].
  intros (u1 & u2 & a & b & M1 & _ & _ & _ & Q1 & _ & A & _). assert (u1 = 1) by (apply (leaves_unique _ _ _ _ M1 (back_leaves 1 ltac:(lra)))). subst u1.
  rewrite (principal_unique _ _ _ Q1 (back_principal 1 ltac:(lra))) in A. lra.
Qed.
Print Assumptions C74_back_refuted.
