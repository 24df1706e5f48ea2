(** Lemmas for C71: bodies. *)
From Coq Require Import Reals Lra Psatz.
From Verif Require Import Base RotModel RotSpec RotProofs ChanModel ChanProofs GridProofs ShapeModel ShapeSpec ShapeProofs RendModel RendSpec RendProofs.
Open Scope R_scope.

(** ** induction over descriptions *)
Section pshape_ind2.
Variable P : pshape -> Prop.
Hypothesis HB : forall b, P (PBlock b).
Hypothesis HS : forall r, P (PSphere r).
Hypothesis HC : forall r h, P (PCylinder r h).
Hypothesis HP : forall t w h, P (PPyramid t w h).
Hypothesis HK : forall r h, P (PCone r h).
Hypothesis HH : forall a b h, P (PHollowCylinder a b h).
Hypothesis HSS : forall a b, P (PSphereShell a b).
Hypothesis HU : forall l, Forall P l -> P (PUnion l).
Hypothesis HI : forall l, Forall P l -> P (PIntersection l).
Hypothesis HD : forall a b, P a -> P b -> P (PDifference a b).
Hypothesis HL : forall s k, P s -> P (PDilation s k).
Hypothesis HT : forall s v i, P s -> P (PTranslation s v i).
Hypothesis HR : forall s e x a i, P s -> P (PRotation s e x a i).
Fixpoint pshape_ind2 (s : pshape) : P s :=
  match s with
  | PBlock b => HB b | PSphere r => HS r | PCylinder r h => HC r h | PPyramid t w h => HP t w h | PCone r h => HK r h
  | PHollowCylinder a b h => HH a b h | PSphereShell a b => HSS a b
  | PUnion l => HU l ((fix go l := match l return Forall P l with [] => Forall_nil P | s :: l' => Forall_cons s (pshape_ind2 s) (go l') end) l)
  | PIntersection l => HI l ((fix go l := match l return Forall P l with [] => Forall_nil P | s :: l' => Forall_cons s (pshape_ind2 s) (go l') end) l)
  | PDifference a b => HD a b (pshape_ind2 a) (pshape_ind2 b)
  | PDilation b k => HL b k (pshape_ind2 b)
  | PTranslation b v i => HT b v i (pshape_ind2 b)
  | PRotation b e x a i => HR b e x a i (pshape_ind2 b)
  end.
End pshape_ind2.

(** ** the list of renderings *)
Definition render_all (cs : coordsys) := fix all (l : list pshape) : result (list shape) :=
  match l with [] => Ok [] | x :: l' => let! c := render cs x in let! cl := all l' in Ok (c :: cl) end.
Lemma render_union cs l : render cs (PUnion l) = let! cl := render_all cs l in Ok (Union cl).
Proof. reflexivity. Qed.
Lemma render_inter cs l : render cs (PIntersection l) = let! cl := render_all cs l in Ok (Intersection cl).
Proof. reflexivity. Qed.
Lemma render_all_cons cs s l : render_all cs (s :: l) = let! c := render cs s in let! cl := render_all cs l in Ok (c :: cl).
Proof. reflexivity. Qed.
Lemma render_all_ok cs l cl : render_all cs l = Ok cl <-> Forall2 (fun s c => render cs s = Ok c) l cl.
Proof.
  revert cl. induction l as [|s l IH]; intros cl; cbn [render_all].
  - split; [intros E; inversion E; constructor|intros F; inversion F; reflexivity].
  - destruct (render cs s) as [c|e] eqn:E; cbn.
    + destruct (render_all cs l) as [r|e] eqn:A; cbn.
      * split; [intros H; inversion H; subst; constructor; [exact E|apply IH; reflexivity]|].
        intros H. inversion H as [|? ? ? ? H1 H2]; subst. apply IH in H2. congruence.
      * split; [discriminate|]. intros H. inversion H as [|? ? ? ? H1 H2]; subst. apply IH in H2. discriminate.
    + split; [discriminate|]. intros H. inversion H; congruence.
Qed.
Lemma fold_and {A} (Q : A -> Prop) l : fold_right and True (map Q l) <-> Forall Q l.
Proof. induction l; cbn; [split; auto|]. rewrite IHl. split; [intros []; auto|intros F; inversion F; auto]. Qed.

(** ** quarter turns *)
Lemma rad_m90 : cos (rad (-90)) = 0 /\ sin (rad (-90)) = -1.
Proof.
  unfold rad. replace (-90 * PI / 180) with (- (PI / 2)) by field. rewrite cos_neg, sin_neg, cos_PI2, sin_PI2. split; reflexivity.
Qed.
Lemma rad_0 : cos (rad 0) = 1 /\ sin (rad 0) = 0.
Proof. unfold rad. replace (0 * PI / 180) with 0 by field. rewrite cos_0, sin_0. split; reflexivity. Qed.
Lemma inverse_point m p q : orthogonal m -> dot_mv m q = p -> dot_mv (transpose m) p = q.
Proof. intros O E. rewrite <- E. apply orth_left. exact O. Qed.
Lemma tilt_point p : dot_mv (transpose (orientation_of_angles (-90, 0, 0))) p = mkV (vx p) (- vz p) (vy p).
Proof.
  apply inverse_point; [apply angles_orthogonal|]. rewrite angles_turn, turn_x, turn_y, turn_z.
  destruct rad_m90 as [C1 S1], rad_0 as [C0 S0]. rewrite C0, S0, C1, S1. destruct p as [x y z]. cbn [vx vy vz]. apply mk_eq; ring.
Qed.
Lemma swing_point p : dot_mv (transpose (orientation_of_angles (0, -90, 0))) p = mkV (vz p) (vy p) (- vx p).
Proof.
  apply inverse_point; [apply angles_orthogonal|]. rewrite angles_turn, turn_x, turn_y, turn_z.
  destruct rad_m90 as [C1 S1], rad_0 as [C0 S0]. rewrite C0, S0, C1, S1. destruct p as [x y z]. cbn [vx vy vz]. apply mk_eq; ring.
Qed.
Lemma solid_tilt s p : solid (turned_by s (-90) 0 0) p <-> solid s (mkV (vx p) (- vz p) (vy p)).
Proof. unfold turned_by. rewrite solid_rot by apply angles_orthogonal. rewrite tilt_point. reflexivity. Qed.
Lemma core_tilt s p : core (turned_by s (-90) 0 0) p <-> core s (mkV (vx p) (- vz p) (vy p)).
Proof. unfold turned_by. rewrite core_rot by apply angles_orthogonal. rewrite tilt_point. reflexivity. Qed.
Lemma solid_swing s p : solid (turned_by s 0 (-90) 0) p <-> solid s (mkV (vz p) (vy p) (- vx p)).
Proof. unfold turned_by. rewrite solid_rot by apply angles_orthogonal. rewrite swing_point. reflexivity. Qed.
Lemma core_swing s p : core (turned_by s 0 (-90) 0) p <-> core s (mkV (vz p) (vy p) (- vx p)).
Proof. unfold turned_by. rewrite core_rot by apply angles_orthogonal. rewrite swing_point. reflexivity. Qed.

(** ** one description and its body *)
Definition agrees (s : pshape) (c : shape) : Prop :=
  wf c /\ (forall p, solid c p <-> closed_figure s p) /\ (forall p, core c p <-> open_figure s p).
Definition faithful (s : pshape) : Prop :=
  ((exists c, render McStas s = Ok c) <-> acceptable s) /\
  (forall c, render McStas s = Ok c -> sensible s -> agrees s c).

Ltac okerr T I :=
  destruct T as [?r|?e] eqn:?E; cbn [bind];
  [apply I in E; destruct E as [?U ->]|].
Lemma res_ok {A} (x : result A) (Q : Prop) v : (forall r, x = Ok r <-> Q /\ r = v) -> (Q -> x = Ok v) /\ (forall r, x = Ok r -> Q /\ r = v).
Proof. intros H. split; [intros q; apply H; auto|intros r E; apply H; exact E]. Qed.

Lemma f_block b : faithful (PBlock b).
Proof.
  unfold faithful. cbn [render acceptable values_ok sensible sizes_ok].
  assert (G : forall x y z,
    ((exists c, (let! v := three meter x y z in let '(X, Y, Z) := v in Ok (Box X Y Z)) = Ok c) <-> uniform Length [x; y; z]) /\
    (forall c, (let! v := three meter x y z in let '(X, Y, Z) := v in Ok (Box X Y Z)) = Ok c ->
       0 <= metres x /\ 0 <= metres y /\ 0 <= metres z ->
       wf c /\ (forall p, solid c p <-> prim Rle (Box (metres x) (metres y) (metres z)) p) /\
               (forall p, core c p <-> prim Rlt (Box (metres x) (metres y) (metres z)) p))).
  { intros x y z. pose proof (fun r => three_meter x y z r) as T. destruct (three meter x y z) as [[[X Y] Z]|e] eqn:E; cbn [bind].
    - destruct (proj1 (T (X, Y, Z)) eq_refl) as [U F]. injection F as -> -> ->. split.
      + split; [intros _; exact U|intros _; eexists; reflexivity].
      + intros c H S. inversion H; subst. split; [exact S|]. split; intros p; reflexivity.
    - split; [|discriminate]. split; [intros [c H]; discriminate|]. intros U. exfalso.
      pose proof (proj2 (T _) (conj U eq_refl)). discriminate. }
  destruct b as [[[x y] z]|w h t]; unfold onBlock; cbn [bind elems].
  - destruct (G x y z) as [A B]. split; [exact A|]. intros c H S. destruct (B c H S) as [W [S1 S2]]. split; [exact W|]. split; intros p.
    + rewrite S1. reflexivity.
    + rewrite S2. reflexivity.
  - destruct (G w h t) as [A B]. split; [exact A|]. intros c H S. destruct (B c H S) as [W [S1 S2]]. split; [exact W|]. split; intros p.
    + rewrite S1. reflexivity.
    + rewrite S2. reflexivity.
Qed.
Lemma onSphere_ok r c : onSphere r = Ok c <-> single Length r /\ c = Sphere (metres r).
Proof.
  unfold onSphere. pose proof (remove_meter r) as T. destruct (remove_unit r meter) as [x|e] eqn:E; cbn [bind].
  - destruct (proj1 (T x) eq_refl) as [U ->]. split; [intros H; inversion H; auto|intros [_ ->]; reflexivity].
  - split; [discriminate|]. intros [U _]. pose proof (proj2 (T _) (conj U eq_refl)). discriminate.
Qed.
Lemma onCylinder_ok cs r h c : onCylinder cs r h = Ok c <->
  uniform Length [r; h] /\ c = match cs with McStas => turned_by (Cylinder (metres r) (metres h)) (-90) 0 0 | _ => Cylinder (metres r) (metres h) end.
Proof.
  unfold onCylinder. pose proof (two_meter r h) as T. destruct (two meter r h) as [x|e] eqn:E; cbn [bind].
  - destruct (proj1 (T x) eq_refl) as [U ->]. cbn [fst snd]. split; [intros H; inversion H; auto|intros [_ ->]; reflexivity].
  - split; [discriminate|]. intros [U _]. pose proof (proj2 (T _) (conj U eq_refl)). discriminate.
Qed.
Lemma onCone_ok cs r h c : onCone cs r h = Ok c <->
  uniform Length [r; h] /\ c = match cs with McStas => turned_by (Cone (metres r) (metres h)) (-90) 0 0 | _ => Cone (metres r) (metres h) end.
Proof.
  unfold onCone. pose proof (two_meter r h) as T. destruct (two meter r h) as [x|e] eqn:E; cbn [bind].
  - destruct (proj1 (T x) eq_refl) as [U ->]. cbn [fst snd]. split; [intros H; inversion H; auto|intros [_ ->]; reflexivity].
  - split; [discriminate|]. intros [U _]. pose proof (proj2 (T _) (conj U eq_refl)). discriminate.
Qed.
Lemma onPyramid_ok cs t w h c : onPyramid cs t w h = Ok c <->
  uniform Length [t; w; h] /\ c = match cs with McStas => turned_by (turned_by (Pyramid (metres t) (metres w) (metres h)) (-90) 0 0) 0 (-90) 0
                                  | _ => Pyramid (metres t) (metres w) (metres h) end.
Proof.
  unfold onPyramid. pose proof (three_meter t w h) as T. destruct (three meter t w h) as [[[x y] z]|e] eqn:E; cbn [bind].
  - destruct (proj1 (T _) eq_refl) as [U F]. injection F as -> -> ->. split; [intros H; inversion H; auto|intros [_ ->]; reflexivity].
  - split; [discriminate|]. intros [U _]. pose proof (proj2 (T _) (conj U eq_refl)). discriminate.
Qed.
Lemma ex_iff {A} (P : A -> Prop) (Q : Prop) v : (forall c, P c <-> Q /\ c = v) -> (exists c, P c) <-> Q.
Proof. intros H. split; [intros [c E]; apply H in E; tauto|intros q; exists v; apply H; auto]. Qed.
Lemma f_sphere r : faithful (PSphere r).
Proof.
  split; cbn [render acceptable values_ok sensible sizes_ok].
  - apply (ex_iff _ _ (Sphere (metres r))). intros c. apply onSphere_ok.
  - intros c H S. apply onSphere_ok in H. destruct H as [_ ->]. split; [exact S|]. split; intros p; reflexivity.
Qed.
Lemma tilt_sq (z : R) : - z * - z = z * z. Proof. ring. Qed.
Lemma wf_tilt s x y z : wf s -> wf (turned_by s x y z).
Proof. intros W. split; [exact W|apply angles_orthogonal]. Qed.
Lemma cyl_agree r h p :
  (solid (turned_by (Cylinder r h) (-90) 0 0) p <-> vx p * vx p + vz p * vz p <= r * r /\ 2 * Rabs (vy p) <= h) /\
  (core (turned_by (Cylinder r h) (-90) 0 0) p <-> vx p * vx p + vz p * vz p < r * r /\ 2 * Rabs (vy p) < h).
Proof.
  rewrite solid_tilt, core_tilt. unfold solid, core. cbn [body fst snd prim vx vy vz]. rewrite tilt_sq. split; reflexivity.
Qed.
Lemma f_cylinder r h : faithful (PCylinder r h).
Proof.
  split; cbn [render acceptable values_ok sensible sizes_ok].
  - eapply ex_iff. intros c. apply onCylinder_ok.
  - intros c H S. apply onCylinder_ok in H. destruct H as [_ ->]. split; [apply wf_tilt; exact S|]. split; intros p; apply cyl_agree.
Qed.
Lemma f_cone r h : faithful (PCone r h).
Proof.
  split; cbn [render acceptable values_ok sensible sizes_ok].
  - eapply ex_iff. intros c. apply onCone_ok.
  - intros c H S. apply onCone_ok in H. destruct H as [_ ->]. split; [apply wf_tilt; exact S|].
    split; intros p; [rewrite solid_tilt; unfold solid|rewrite core_tilt; unfold core]; cbn [body fst snd prim vx vy vz]; rewrite tilt_sq; reflexivity.
Qed.
Lemma f_pyramid t w h : faithful (PPyramid t w h).
Proof.
  split; cbn [render acceptable values_ok sensible sizes_ok].
  - eapply ex_iff. intros c. apply onPyramid_ok.
  - intros c H S. apply onPyramid_ok in H. destruct H as [_ ->]. split; [apply wf_tilt, wf_tilt; exact S|].
    split; intros p; [rewrite solid_swing, solid_tilt; unfold solid|rewrite core_swing, core_tilt; unfold core];
      cbn [body fst snd prim vx vy vz]; unfold closed_figure, open_figure; cbn [figure fst snd upright];
      rewrite Ropp_involutive; tauto.
Qed.

(** hollow bodies *)
Lemma py_ge_ok a b v : py_ge a b = Ok v <-> ((bare a /\ bare b) \/ (exists d, d <> OtherDim /\ kind d a /\ kind d b)) /\ v = Rleb (metres b) (metres a).
Proof.
  destruct a as [x|d x|], b as [y|e y|]; cbn; split; try discriminate;
    try (intros [[[[? ?] [? ?]]|[? [? [[? ?] [? ?]]]]] _]; discriminate).
  - intros H; inversion H; subst. split; [left; split; eexists; reflexivity|reflexivity].
  - intros [_ ->]. reflexivity.
  - destruct (dim_eqb d e) eqn:D; [|discriminate]. intros H; inversion H; subst. split; [|reflexivity]. right. exists d.
    assert (d = e) by (destruct d, e; cbn in D; congruence). subst e. split; [intros ->; discriminate|]. split; eexists; reflexivity.
  - intros [[[[z E] _]|[k [N [[z E] [z' E']]]]] ->]; [discriminate|]. inversion E; inversion E'; subst.
    rewrite (proj2 (dim_eqb_iff k k N) eq_refl). reflexivity.
Qed.
Lemma uniform_two a b : uniform Length [a; b] <-> (bare a /\ bare b) \/ (kind Length a /\ kind Length b).
Proof.
  unfold uniform. split.
  - intros [F|F]; inversion F as [|? ? A F']; subst; inversion F'; subst; tauto.
  - intros [[A B]|[A B]]; [left|right]; repeat constructor; assumption.
Qed.
Lemma uniform_three a b c : uniform Length [a; b; c] <-> (bare a /\ bare b /\ bare c) \/ (kind Length a /\ kind Length b /\ kind Length c).
Proof.
  unfold uniform. split.
  - intros [F|F]; inversion F as [|? ? A F']; subst; inversion F' as [|? ? B F'']; subst; inversion F''; subst; tauto.
  - intros [[A [B C]]|[A [B C]]]; [left|right]; repeat constructor; assumption.
Qed.
Lemma bare_kind d v : bare v -> kind d v -> False.
Proof. intros [x ->] [y E]. discriminate. Qed.
Lemma kind_inj d e v : kind d v -> kind e v -> d = e.
Proof. intros [x ->] [y E]. congruence. Qed.
Lemma double_bare v : bare (py_double v) <-> bare v.
Proof. destruct v; cbn; split; intros [y E]; try discriminate; eexists; reflexivity. Qed.
Lemma double_kind d v : kind d (py_double v) <-> kind d v.
Proof. destruct v; cbn; split; intros [y E]; try discriminate; inversion E; subst; eexists; reflexivity. Qed.
Lemma double_metres v : metres (py_double v) = 2 * metres v.
Proof. destruct v; cbn; ring. Qed.
Lemma is_zero_iff v : v <> Other -> py_is_zero v = true <-> metres v = 0.
Proof. destruct v; cbn; intros N; try congruence; apply Reqb_t. Qed.
Lemma double_uniform r h : uniform Length [r; py_double h] <-> uniform Length [r; h].
Proof. rewrite !uniform_two, double_bare, double_kind. reflexivity. Qed.

Definition hollow_result (cs : coordsys) (r1 r2 h : pyval) : shape :=
  let t s := match cs with McStas => turned_by s (-90) 0 0 | _ => s end in
  if Reqb (metres r1) 0 then t (Cylinder (metres r2) (metres h))
  else Difference (t (Cylinder (metres r2) (metres h))) (t (Cylinder (metres r1) (2 * metres h))).
Lemma onHollow_ok cs r1 r2 h c : onHollowCylinder cs r1 r2 h = Ok c <->
  (uniform Length [r1; r2; h] /\ metres r1 < metres r2) /\ c = hollow_result cs r1 r2 h.
Proof.
  unfold onHollowCylinder, hollow_result. destruct (py_ge r1 r2) as [bad|e] eqn:G; cbn [bind].
  - apply py_ge_ok in G. destruct G as [K ->]. destruct (Rleb (metres r2) (metres r1)) eqn:L.
    + apply Rleb_true in L. split; [discriminate|]. intros [[_ N] _]. lra.
    + apply Rleb_false in L.
      assert (NO : r1 <> Other) by (destruct K as [[[x ->] _]|[d [_ [[x ->] _]]]]; discriminate).
      pose proof (is_zero_iff r1 NO) as ZI.
      assert (UC : uniform Length [r2; h] <-> uniform Length [r1; r2; h]).
      { rewrite uniform_two, uniform_three. split.
        - intros [[A B]|[A B]].
          + left. destruct K as [K|[d [N [K1 K2]]]]; [tauto|]. exfalso. exact (bare_kind _ _ A K2).
          + right. destruct K as [[K1 K2]|[d [N [K1 K2]]]]; [exfalso; exact (bare_kind _ _ K2 A)|]. rewrite (kind_inj _ _ _ K2 A) in K1. tauto.
        - tauto. }
      destruct (Reqb (metres r1) 0) eqn:Z.
      * apply Reqb_t in Z. rewrite (proj2 ZI Z). rewrite onCylinder_ok, UC. split; [intros [U ->]; auto|intros [[U _] ->]; auto].
      * assert (ZF : py_is_zero r1 = false) by (destruct (py_is_zero r1); [apply Reqb_f in Z; exfalso; apply Z, ZI; reflexivity|reflexivity]).
        rewrite ZF. pose proof (onCylinder_ok cs r2 h) as C1. destruct (onCylinder cs r2 h) as [c1|e1] eqn:E1; cbn [bind].
        -- destruct (proj1 (C1 c1) eq_refl) as [U1 ->].
           pose proof (onCylinder_ok cs r1 (py_double h)) as C2. rewrite double_metres in C2.
           destruct (onCylinder cs r1 (py_double h)) as [c2|e2] eqn:E2; cbn [bind].
           ++ destruct (proj1 (C2 c2) eq_refl) as [U2 ->]. split.
              { intros H. inversion H; subst. split; [split; [apply UC; exact U1|exact L]|]. destruct cs; reflexivity. }
              { intros [_ ->]. destruct cs; reflexivity. }
           ++ split; [discriminate|]. intros [[U _] _]. exfalso.
              assert (U2 : uniform Length [r1; py_double h]) by (rewrite double_uniform, uniform_two; apply uniform_three in U; tauto).
              pose proof (proj2 (C2 _) (conj U2 eq_refl)). discriminate.
        -- split; [discriminate|]. intros [[U _] _]. pose proof (proj2 (C1 _) (conj (proj2 UC U) eq_refl)). discriminate.
  - split; [discriminate|]. intros [[U _] _]. exfalso. apply uniform_three in U.
    assert (K : py_ge r1 r2 = Ok (Rleb (metres r2) (metres r1))).
    { apply py_ge_ok. split; [|reflexivity]. destruct U as [U|U]; [left; tauto|right; exists Length; split; [discriminate|tauto]]. }
    congruence.
Qed.
Lemma f_hollow r1 r2 h : faithful (PHollowCylinder r1 r2 h).
Proof.
  split; cbn [render acceptable values_ok sensible sizes_ok].
  - apply (ex_iff _ _ (hollow_result McStas r1 r2 h)). intros c. apply onHollow_ok.
  - intros c H [P1 PH]. apply onHollow_ok in H. destruct H as [[U LT] ->]. unfold hollow_result. destruct (Reqb (metres r1) 0) eqn:Z.
    + apply Reqb_t in Z. split; [apply wf_tilt; cbn; lra|].
      unfold closed_figure, open_figure. cbn [figure fst snd upright]. split; intros p; destruct (cyl_agree (metres r2) (metres h) p) as [S C].
      * rewrite S. tauto.
      * rewrite C. tauto.
    + apply Reqb_f in Z. split.
      { split; apply wf_tilt; cbn; lra. }
      unfold closed_figure, open_figure. cbn [figure fst snd upright].
      split; intros p; destruct (cyl_agree (metres r2) (metres h) p) as [S C]; destruct (cyl_agree (metres r1) (2 * metres h) p) as [S' C'].
      * rewrite solid_diff, S, C'. split.
        { intros [[A B] N]. split; [|auto]. intros _. destruct (Rle_lt_dec (metres r1 * metres r1) (vx p * vx p + vz p * vz p)); [assumption|].
          exfalso. apply N. split; [assumption|lra]. }
        { intros [A [B D]]. split; [auto|]. intros [E _]. specialize (A Z). lra. }
      * rewrite core_diff, C, S'. split.
        { intros [[A B] N]. split; [|auto]. intros _. destruct (Rlt_le_dec (metres r1 * metres r1) (vx p * vx p + vz p * vz p)); [assumption|].
          exfalso. apply N. split; [assumption|lra]. }
        { intros [A [B D]]. split; [auto|]. intros [E _]. specialize (A Z). lra. }
Qed.
Definition shell_result (r1 r2 : pyval) : shape :=
  if Reqb (metres r1) 0 then Sphere (metres r2) else Difference (Sphere (metres r2)) (Sphere (metres r1)).
Lemma onShell_ok r1 r2 c : onSphereShell r1 r2 = Ok c <-> (uniform Length [r1; r2] /\ metres r1 < metres r2) /\ c = shell_result r1 r2.
Proof.
  unfold onSphereShell, shell_result. destruct (py_ge r1 r2) as [bad|e] eqn:G; cbn [bind].
  - apply py_ge_ok in G. destruct G as [K ->]. destruct (Rleb (metres r2) (metres r1)) eqn:L.
    + apply Rleb_true in L. split; [discriminate|]. intros [[_ N] _]. lra.
    + apply Rleb_false in L.
      assert (NO : r1 <> Other) by (destruct K as [[[x ->] _]|[d [_ [[x ->] _]]]]; discriminate).
      pose proof (is_zero_iff r1 NO) as ZI.
      assert (UC : single Length r2 <-> uniform Length [r1; r2]).
      { rewrite uniform_two. unfold single. split.
        - intros [A|A].
          + left. destruct K as [K|[d [N [K1 K2]]]]; [tauto|]. exfalso. exact (bare_kind _ _ A K2).
          + right. destruct K as [[K1 K2]|[d [N [K1 K2]]]]; [exfalso; exact (bare_kind _ _ K2 A)|]. rewrite (kind_inj _ _ _ K2 A) in K1. tauto.
        - tauto. }
      destruct (Reqb (metres r1) 0) eqn:Z.
      * apply Reqb_t in Z. rewrite (proj2 ZI Z). rewrite onSphere_ok, UC. split; [intros [U ->]; auto|intros [[U _] ->]; auto].
      * assert (ZF : py_is_zero r1 = false) by (destruct (py_is_zero r1); [apply Reqb_f in Z; exfalso; apply Z, ZI; reflexivity|reflexivity]).
        rewrite ZF. pose proof (onSphere_ok r2) as C1. destruct (onSphere r2) as [c1|e1] eqn:E1; cbn [bind].
        -- destruct (proj1 (C1 c1) eq_refl) as [U1 ->].
           pose proof (onSphere_ok r1) as C2. destruct (onSphere r1) as [c2|e2] eqn:E2; cbn [bind].
           ++ destruct (proj1 (C2 c2) eq_refl) as [U2 ->]. split.
              { intros H. inversion H; subst. split; [split; [apply UC; exact U1|exact L]|reflexivity]. }
              { intros [_ ->]. reflexivity. }
           ++ split; [discriminate|]. intros [[U _] _]. exfalso. apply uniform_two in U.
              assert (U2 : single Length r1) by (unfold single; tauto).
              pose proof (proj2 (C2 _) (conj U2 eq_refl)). discriminate.
        -- split; [discriminate|]. intros [[U _] _]. pose proof (proj2 (C1 _) (conj (proj2 UC U) eq_refl)). discriminate.
  - split; [discriminate|]. intros [[U _] _]. exfalso. apply uniform_two in U.
    assert (K : py_ge r1 r2 = Ok (Rleb (metres r2) (metres r1))).
    { apply py_ge_ok. split; [|reflexivity]. destruct U as [U|U]; [left; tauto|right; exists Length; split; [discriminate|tauto]]. }
    congruence.
Qed.
Lemma f_shell r1 r2 : faithful (PSphereShell r1 r2).
Proof.
  split; cbn [render acceptable values_ok sensible sizes_ok].
  - eapply ex_iff. intros c. apply onShell_ok.
  - intros c H P1. apply onShell_ok in H. destruct H as [[U LT] ->]. unfold shell_result. destruct (Reqb (metres r1) 0) eqn:Z.
    + apply Reqb_t in Z. split; [cbn; lra|].
      unfold closed_figure, open_figure, solid, core. cbn [figure fst snd upright body prim]. split; intros p; tauto.
    + apply Reqb_f in Z. split.
      { split; cbn; lra. }
      unfold closed_figure, open_figure. cbn [figure fst snd upright].
      split; intros p.
      * rewrite solid_diff. unfold solid, core. cbn [body fst snd prim]. split.
        { intros [A N]. split; [|exact A]. intros _. apply Rnot_lt_le. exact N. }
        { intros [A B]. split; [exact B|]. specialize (A Z). lra. }
      * rewrite core_diff. unfold solid, core. cbn [body fst snd prim]. split.
        { intros [A N]. split; [|exact A]. intros _. apply Rnot_le_lt. exact N. }
        { intros [A B]. split; [exact B|]. specialize (A Z). lra. }
Qed.
