(** C32 and C33: what monitors record. *)
From Coq Require Import Reals Lra Psatz.
From Verif Require Import Base RotModel DetModel DetSpec DetProofs ChanModel ChanSpec ChanProofs MonModel MonSpec MonProofs.
From Coq Require Import ZifyBool.
Open Scope R_scope.

(** ** C32: N-dimensional histogram monitors *)

(** Every beam has exactly one list of crossings of the monitor area. *)
Theorem C32_crossings : forall w h ns, exists! ms, crossings (on_monitor w h) ns ms.
Proof.
  intros w h ns. exists (propagated_rows (in_area w h) ns). pose proof (rows_crossings _ _ ns (in_area_spec w h)) as R.
  split; [exact R|]. intros ms C. exact (crossings_fun _ _ _ _ R C).
Qed.

(** One batch through a monitor: the dumped arrays have the shape given by the numbers of bins; each bin holds the weights (in the error
    array the squared weights) of the crossing neutrons that are in it; the totals are those of the crossing neutrons within all ranges; the neutrons are
    returned as they were, and the monitor is as new. *)
Theorem C32_monitor : forall axes w h ns ms,
  axes <> [] -> Forall axis_ok axes -> 0 < w -> 0 < h -> crossings (on_monitor w h) ns ms ->
  exists g I E2, new_engine axes w h = Ok g /\ monitor_process g ns = Ok (g, (I, E2), ns) /\
    g_shape g = map a_bins axes /\
    (forall idx, I idx = rsum (map e_p (filter (in_bins axes idx) ms))) /\
    (forall idx, E2 idx = rsum (map (fun m => e_p m * e_p m) (filter (in_bins axes idx) ms))) /\
    sum_bins (g_shape g) I = rsum (map e_p (filter (in_ranges axes) ms)) /\
    sum_bins (g_shape g) E2 = rsum (map (fun m => e_p m * e_p m) (filter (in_ranges axes) ms)).
Proof.
  intros axes w h ns ms N A W H C.
  set (g := mkEngine axes w h (map a_bins axes) (fun _ => 0) (fun _ => 0)).
  destruct (engine_process_ok g ns ms A N eq_refl W H C) as (g' & P & Ga & Gw & Gh & Gs & GI & GE).
  exists g, (g_I g'), (g_E2 g'). cbn in GI, GE.
  assert (EI : forall idx, g_I g' idx = histogramdd axes ms e_p idx) by (intros; rewrite GI; lra).
  assert (EE : forall idx, g_E2 g' idx = histogramdd axes ms (fun m => e_p m * e_p m) idx) by (intros; rewrite GE; lra).
  split; [apply new_engine_ok; exact A|]. split.
  { unfold monitor_process. rewrite P. cbn. rewrite (new_engine_ok axes w h A). reflexivity. }
  split; [reflexivity|]. split; [intros; rewrite EI; apply histogramdd_bin; exact A|].
  split; [intros; rewrite EE; apply histogramdd_bin; exact A|]. cbn [g_shape g]. unfold sum_bins. split.
  - rewrite (rsum_map_ext _ _ _ (fun idx _ => EI idx)). apply histogramdd_total; exact A.
  - rewrite (rsum_map_ext _ _ _ (fun idx _ => EE idx)). apply histogramdd_total; exact A.
Qed.

(** A neutron within all ranges is in exactly one bin of the array; any other neutron is in none. *)
Theorem C32_one_bin : forall axes m, Forall axis_ok axes ->
  (in_ranges axes m = true -> exists! idx, In idx (all_indices (map a_bins axes)) /\ in_bins axes idx m = true) /\
  (in_ranges axes m = false -> forall idx, in_bins axes idx m = false).
Proof.
  intros axes m A. split; [apply one_bin; exact A|]. intros R idx. apply no_bin; assumption.
Qed.

(** Several batches through one engine add up: the arrays are those of all the batches together. *)
Theorem C32_batches_add_up : forall axes w h g bs mss,
  axes <> [] -> Forall axis_ok axes -> 0 < w -> 0 < h -> new_engine axes w h = Ok g ->
  Forall2 (crossings (on_monitor w h)) bs mss ->
  exists g', fold_result (fun g b => let! r := engine_process g b in Ok (fst r)) bs g = Ok g' /\
    (forall idx, g_I g' idx = rsum (map e_p (filter (in_bins axes idx) (List.concat mss)))) /\
    (forall idx, g_E2 g' idx = rsum (map (fun m => e_p m * e_p m) (filter (in_bins axes idx) (List.concat mss)))).
Proof.
  intros axes w h g bs mss N A W H G C. rewrite (new_engine_ok axes w h A) in G. inversion G; subst g; clear G.
  set (f := fun g b => let! r := engine_process g b in Ok (fst r)).
  assert (Q : forall bs mss, Forall2 (crossings (on_monitor w h)) bs mss -> forall g,
     g_axes g = axes -> g_xwidth g = w -> g_yheight g = h -> g_shape g = map a_bins axes ->
     exists g', fold_result f bs g = Ok g' /\
       (forall idx, g_I g' idx = g_I g idx + rsum (map e_p (filter (in_bins axes idx) (List.concat mss)))) /\
       (forall idx, g_E2 g' idx = g_E2 g idx + rsum (map (fun m => e_p m * e_p m) (filter (in_bins axes idx) (List.concat mss))))).
  { clear C bs mss. induction 1 as [|b ms bs mss C _ IH]; intros g Ea Ew Eh Es.
    - exists g. split; [reflexivity|]. split; intros idx; cbn; lra.
    - destruct (engine_process_ok g b ms) as (g1 & P & Ga & Gw & Gh & Gs & GI & GE); try (rewrite ?Ea, ?Ew, ?Eh; assumption).
      destruct (IH g1) as (g' & P' & I' & E'); try congruence.
      exists g'. cbn [fold_result]. unfold f at 1. rewrite P. cbn. fold f. split; [exact P'|].
      split; intros idx; [rewrite I', GI|rewrite E', GE]; rewrite Ea, (histogramdd_bin axes ms _ idx A), filter_app, map_app, rsum_app; lra. }
  destruct (Q bs mss C (mkEngine axes w h (map a_bins axes) (fun _ => 0) (fun _ => 0))) as (g' & P & I & E); try reflexivity.
  exists g'. split; [exact P|]. cbn in I, E. split; intros idx; [rewrite I|rewrite E]; lra.
Qed.

(** A monitor without area raises on the first beam that is not empty; a bad axis raises when the monitor is made. *)
Theorem C32_bad_monitors :
  (forall g ns, ns <> [] -> g_xwidth g <= 0 \/ g_yheight g <= 0 -> engine_process g ns = Err AssertionError) /\
  (forall good a rest w h, Forall axis_ok good -> a_max a <= a_min a ->
     new_engine (good ++ a :: rest) w h = Err ValueError) /\
  (forall good a rest w h, Forall axis_ok good -> a_min a < a_max a -> a_bins a = 0%nat ->
     new_engine (good ++ a :: rest) w h = Err ZeroDivisionError).
Proof.
  assert (Q : forall good a rest e, Forall axis_ok good -> axis_shape a = Err e -> engine_shape (good ++ a :: rest) = Err e).
  { intros good a rest e G E. unfold engine_shape.
    set (f := fun (s : list nat) (a : axis) => match axis_shape a with Ok k => Ok (s ++ [k]) | Err e => Err e end).
    enough (H : forall s, fold_result f (good ++ a :: rest) s = Err e) by apply H. induction G as [|b good B _ IH]; intros s; cbn [app fold_result]; unfold f at 1.
    - rewrite E. reflexivity.
    - rewrite (axis_shape_ok b B). apply IH. }
  split; [|split].
  - intros g ns N H. unfold engine_process. destruct ns as [|n ns]; [contradiction|].
    replace (Rltb 0 (g_xwidth g) && Rltb 0 (g_yheight g))%bool with false; [reflexivity|]. symmetry. rewrite Bool.andb_false_iff, !Rltb_f. exact H.
  - intros good a rest w h G H. unfold new_engine. rewrite (Q good a rest ValueError G); [reflexivity|].
    unfold axis_shape. rewrite (proj2 (Rleb_true _ _) H). reflexivity.
  - intros good a rest w h G H B. unfold new_engine. rewrite (Q good a rest ZeroDivisionError G); [reflexivity|].
    unfold axis_shape. rewrite (proj2 (Rleb_false _ _) H), B. reflexivity.
Qed.

(** A monitor of x (two bins) and time (one bin) sees three neutrons: one in the middle, one at the right edge at the last instant, one beside it. *)
Definition mon_example_axes : list axis :=
  [mkAxis (fun m => Some (vx (e_r m))) 2 (-1) 1; mkAxis (fun m => Some (e_t m)) 1 0 3].
Definition mon_example_beam : list event :=
  [RotModel.mkE (mkV 0 0 (-1)) (mkV 0 0 1) 0 0 0 5; RotModel.mkE (mkV 0 0 (-2)) (mkV 1 0 2) 0 0 2 7;
   RotModel.mkE (mkV 9 0 (-2)) (mkV 1 0 2) 0 0 2 11].
Example C32_example :
  mon_example_axes <> [] /\ Forall axis_ok mon_example_axes /\
  crossings (on_monitor 2 2) mon_example_beam
    [RotModel.mkE (mkV 0 0 0) (mkV 0 0 1) 0 0 1 5; RotModel.mkE (mkV 1 0 0) (mkV 1 0 2) 0 0 3 7] /\
  forall g r, new_engine mon_example_axes 2 2 = Ok g -> monitor_process g mon_example_beam = Ok r ->
    snd r = mon_example_beam /\ fst (snd (fst r)) [1%nat; 0%nat] = 12 /\ fst (snd (fst r)) [0%nat; 0%nat] = 0 /\
    snd (snd (fst r)) [1%nat; 0%nat] = 74.
Proof.
  assert (A : Forall axis_ok mon_example_axes) by (repeat constructor; cbn; lra).
  assert (C : crossings (on_monitor 2 2) mon_example_beam
    [RotModel.mkE (mkV 0 0 0) (mkV 0 0 1) 0 0 1 5; RotModel.mkE (mkV 1 0 0) (mkV 1 0 2) 0 0 3 7]).
  { apply cr_take; [exists 1; cbn; unfold displaced; cbn; repeat split; try lra; f_equal; lra|unfold on_monitor; cbn; lra|].
    apply cr_take; [exists 1; cbn; unfold displaced; cbn; repeat split; try lra; f_equal; lra|unfold on_monitor; cbn; lra|].
    apply cr_skip; [|constructor]. intros m (dt & Z0 & _ & Rr & _) [[_ X] _]. cbn in Z0. rewrite Rr in X. cbn in X. lra. }
  split; [discriminate|]. split; [exact A|]. split; [exact C|].
  intros g r G P. destruct (C32_monitor mon_example_axes 2 2 mon_example_beam _ ltac:(discriminate) A ltac:(lra) ltac:(lra) C)
    as (g' & I & E2 & G' & P' & _ & HI & HE & _).
  assert (g' = g) by congruence. subst g'. assert (r = (g, (I, E2), mon_example_beam)) by congruence. subst r. cbn [fst snd].
  assert (B1 : in_bins mon_example_axes [1%nat; 0%nat] (RotModel.mkE (mkV 0 0 0) (mkV 0 0 1) 0 0 1 5) = true).
  { cbn. unfold in_bin; cbn. rewrite !Bool.andb_true_iff, !Bool.orb_true_iff, ?Bool.andb_true_iff, !Rleb_true, !Rltb_t. repeat split; try lra; left; lra. }
  assert (B2 : in_bins mon_example_axes [1%nat; 0%nat] (RotModel.mkE (mkV 1 0 0) (mkV 1 0 2) 0 0 3 7) = true).
  { cbn. unfold in_bin; cbn. rewrite !Bool.andb_true_iff, !Bool.orb_true_iff, ?Bool.andb_true_iff, !Rleb_true, !Rltb_t. repeat split; try lra; right; lra. }
  assert (B3 : forall m, in_bins mon_example_axes [1%nat; 0%nat] m = true -> in_bins mon_example_axes [0%nat; 0%nat] m = false).
  { intros m Hm. destruct (in_bins mon_example_axes [0%nat; 0%nat] m) eqn:E; [|reflexivity].
    apply multi_index_spec in Hm; [|exact A]. apply multi_index_spec in E; [|exact A]. congruence. }
  rewrite !HI, HE. cbn [filter]. rewrite (B3 _ B1), (B3 _ B2), B1, B2. cbn. split; [reflexivity|]. lra.
Qed.

(** ** C33: event area monitors *)

(** Every batch: with the detected neutrons [ms] (those that cross the window in the time range), in order, one event each, with
    the weight of the neutron, its time channel, and a pixel number. *)
Theorem C33_events : forall a st ns ms, area_ok a -> crossings (in_detector a) ns ms -> ms <> [] ->
  exists es, area_component a st ns = Ok (Some es, es) /\
    Forall2 (fun m e => a_p e = e_p m /\ in_cell (a_tofch e) (t_pos a m) /\ (0 <= a_tofch e < ntof a)%Z /\
               in_cell (a_pixel e) (x_pos a m * IZR (ny a) + y_pos a m)) ms es.
Proof.
  intros a st ns ms A C N.
  exists (map (fun m => mkA (floorZ (x_pos a m * IZR (ny a) + y_pos a m)) (floorZ (t_pos a m)) (e_p m)) ms). split.
  { unfold area_component. rewrite (area_process_ok a st ns ms A C). destruct ms; [contradiction|reflexivity]. }
  pose proof (crossings_all _ _ _ C) as D. clear C N. induction D as [|m ms D _ IH]; cbn [map]; constructor; [|exact IH].
  cbn. split; [reflexivity|]. split; [apply floor_bounds|]. split; [|apply floor_bounds].
  destruct A as (_ & _ & Tt & _ & _ & Nt & _), D as (_ & _ & Dt).
  assert (Rt : 0 < IZR (ntof a)) by (apply IZR_lt; lia). pose proof (pos_range _ _ _ _ Dt Rt) as Pt. fold (t_pos a m) in Pt.
  split; [apply floor_nonneg; lra|apply floor_lt; lra].
Qed.

(** The pixel number of a neutron in column i and row j: too large by the integer part of fx*ny + fy, where fx, fy are the fractional
    positions inside the pixel; so it is the documented number exactly if fx*ny + fy < 1. *)
Theorem C33_pixel : forall a m i j k, area_ok a -> in_detector a m -> in_cell i (x_pos a m) -> in_cell j (y_pos a m) ->
  in_cell k (x_pos a m * IZR (ny a) + y_pos a m) ->
  (0 <= i < nx a)%Z /\ (0 <= j < ny a)%Z /\
  in_cell (k - (i * ny a + j))%Z ((x_pos a m - IZR i) * IZR (ny a) + (y_pos a m - IZR j)) /\
  (i * ny a + j <= k <= i * ny a + j + ny a)%Z /\
  ((k = i * ny a + j)%Z <-> (x_pos a m - IZR i) * IZR (ny a) + (y_pos a m - IZR j) < 1).
Proof.
  intros a m i j k A D I J K. pose proof A as (X & Y & _ & Nx & Ny & _ & _). pose proof D as (Dx & Dy & _).
  assert (Rx : 0 < IZR (nx a)) by (apply IZR_lt; lia). assert (Ry : 0 < IZR (ny a)) by (apply IZR_lt; lia).
  pose proof (pos_range _ _ _ _ Dx Rx) as Px. fold (x_pos a m) in Px.
  pose proof (pos_range _ _ _ _ Dy Ry) as Py. fold (y_pos a m) in Py.
  split. { rewrite <- (floor_unique _ _ I). split; [apply floor_nonneg; lra|apply floor_lt; lra]. }
  split. { rewrite <- (floor_unique _ _ J). split; [apply floor_nonneg; lra|apply floor_lt; lra]. }
  pose proof (pixel_cells a m i j A D I J) as E. rewrite (floor_unique _ _ K) in E.
  set (fr := (x_pos a m - IZR i) * IZR (ny a) + (y_pos a m - IZR j)) in *.
  assert (F : (k - (i * ny a + j) = floorZ fr)%Z) by lia.
  unfold in_cell in I, J. assert (B : 0 <= fr < IZR (ny a + 1)) by (unfold fr; rewrite plus_IZR; nra).
  pose proof (floor_nonneg fr ltac:(lra)) as L. pose proof (floor_lt fr _ (proj2 B)) as U.
  split; [rewrite F; apply floor_bounds|]. split; [lia|]. split.
  - intros H. assert (floorZ fr = 0%Z) by lia. pose proof (floor_bounds fr) as [_ V]. rewrite H0 in V. lra.
  - intros H. assert (floorZ fr = 0%Z) by (apply floor_unique; lra). lia.
Qed.

(** The documented relation does not hold for all hits, not even with ny = 1, and the pixel number can be outside the detector. *)
Definition area_example (n : Z) : area := mkArea 0 (IZR n) 0 (IZR n) 0 1 n n 1.
Theorem C33_documented_relation_refuted :
  exists a m i j k, area_ok a /\ in_detector a m /\ in_cell i (x_pos a m) /\ in_cell j (y_pos a m) /\
    in_cell k (x_pos a m * IZR (ny a) + y_pos a m) /\ ny a = 1%Z /\ k <> (i * ny a + j)%Z /\ ~ (k < nx a * ny a)%Z.
Proof.
  exists (area_example 1), (RotModel.mkE (mkV (9 / 10) (9 / 10) 0) (mkV 0 0 1) 0 0 0 1), 0%Z, 0%Z, 1%Z.
  unfold area_ok, in_detector, in_interval, in_cell, x_pos, y_pos; cbn. repeat split; try lra; try lia.
Qed.

(** Batches without a detected neutron: the first one raises; a later one saves the events of the batch before it again. *)
Theorem C33_batch_without_hits : forall a ns, area_ok a -> crossings (in_detector a) ns [] ->
  area_component a None ns = Err AttributeError /\
  (forall es, area_component a (Some es) ns = Ok (Some es, es)).
Proof.
  intros a ns A C. unfold area_component. split; [|intros es]; rewrite (area_process_ok a _ ns [] A C); reflexivity.
Qed.
(** So a batch's file does not hold the events of that batch only. *)
Theorem C33_own_events_refuted :
  exists a st ns es, area_ok a /\ crossings (in_detector a) ns [] /\ es <> [] /\ area_component a st ns = Ok (st, es).
Proof.
  exists (area_example 2), (Some [mkA 0 0 1]), [], [mkA 0 0 1].
  split; [unfold area_ok; cbn; repeat split; try lra; lia|]. split; [constructor|]. split; [discriminate|]. reflexivity.
Qed.

(** A window without extent raises on the first beam that is not empty. *)
Theorem C33_empty_window : forall a st ns, ns <> [] -> xmax a <= xmin a \/ ymax a <= ymin a \/ tmax a <= tmin a ->
  area_process a st ns = Err AssertionError.
Proof.
  intros a st ns N H. unfold area_process. destruct ns as [|n ns]; [contradiction|].
  replace (Rltb (xmin a) (xmax a) && Rltb (ymin a) (ymax a) && Rltb (tmin a) (tmax a))%bool with false; [reflexivity|].
  symmetry. rewrite !Bool.andb_false_iff, !Rltb_f. tauto.
Qed.

(** A 4 by 4 detector: hits near the left edge of a pixel get the documented number, others do not; the last one is outside the range 0..15. *)
Example C33_example :
  area_ok (area_example 4) /\
  let beam := map (fun xy => RotModel.mkE (mkV (fst xy) (snd xy) (-1)) (mkV 0 0 10) 0 0 0 1) [(2 + /100, 1 + /2); (5 / 2, 3 / 2); (39 / 10, 39 / 10)] in
  let hits := map (fun xy => RotModel.mkE (mkV (fst xy) (snd xy) 0) (mkV 0 0 10) 0 0 (/ 10) 1) [(2 + /100, 1 + /2); (5 / 2, 3 / 2); (39 / 10, 39 / 10)] in
  crossings (in_detector (area_example 4)) beam hits /\
  Forall2 (fun m k => in_cell k (x_pos (area_example 4) m * IZR 4 + y_pos (area_example 4) m)) hits [9; 11; 19]%Z.
Proof.
  split; [unfold area_ok; cbn; repeat split; try lra; lia|]. cbn. split.
  - repeat (apply cr_take; [exists (/10); cbn; unfold displaced; cbn; repeat split; try lra; f_equal; lra|unfold in_detector, in_interval; cbn; lra|]). constructor.
  - repeat (constructor; [unfold in_cell, x_pos, y_pos; cbn; lra|]). constructor.
Qed.

Print Assumptions C32_crossings.
Print Assumptions C32_monitor.
Print Assumptions C32_one_bin.
Print Assumptions C32_batches_add_up.
Print Assumptions C32_bad_monitors.
Print Assumptions C33_events.
Print Assumptions C33_pixel.
Print Assumptions C33_documented_relation_refuted.
Print Assumptions C33_batch_without_hits.
Print Assumptions C33_own_events_refuted.
Print Assumptions C33_empty_window.
