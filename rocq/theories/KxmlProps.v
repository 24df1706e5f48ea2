(** C84, C85, C86: kernels written in XML, and the engine made of them. *)
From Coq Require Import Reals ZArith Lra Lia.
From Verif Require Import Base RotModel KxmlModel KxmlSpec KxmlProofs KxmlProofs2 KxmlProofs3 KxmlProofs4.
Open Scope string_scope. Open Scope R_scope.

(** ** C84: the engine is what the XML says *)

Theorem C84_engine : forall e int m attrs child c st, e_meV e <> 0 -> well_formed (Elem "homogeneous_scatterer" attrs [child]) ->
  (engine e int m (Elem "homogeneous_scatterer" attrs [child]) = Ok (c, st) <-> kernel_means e m child c /\ settings_mean e int attrs st).
Proof. exact engine_iff. Qed.
Print Assumptions C84_engine.

(* a world in which texts are read as follows; the unit of energy is twice the SI unit to keep numbers small *)
Definition hist0 : hist := mkH [([0; 1; 2], [1 / 2; 3 / 2]); ([-10; 0; 10], [-5; 5])] [2; 2]%nat [1; 2; 3; 4].
Definition turn : mat3 := mkM 0 (-1) 0 1 0 0 0 0 1.
Definition env0 : env := mkEnv
  (fun t => if String.eqb t "0*angstrom**-1" then Ok (Sc (Quant (-1, 0, 0)%Z 0))
            else if String.eqb t "3" then Ok (Sc (Plain 3))
            else if String.eqb t "7/meter" then Ok (Sc (Quant (-1, 0, 0)%Z 7))
            else if String.eqb t "8/meter" then Ok (Sc (Quant (-1, 0, 0)%Z 8))
            else if String.eqb t "0, 12" then Ok (Tup [Plain 0; Plain 12])
            else if String.eqb t "-60*meV, 60*meV" then Ok (Tup [Quant (2, 1, -2)%Z (-120); Quant (2, 1, -2)%Z 120])
            else if String.eqb t "0.1, 0.9, 0.2" then Ok (Tup [Plain (1 / 10); Plain (9 / 10); Plain (2 / 10)])
            else Err ValueError)
  (fun t => if String.eqb t "2.5" then Ok (25 / 10) else if String.eqb t "0.6" then Ok (6 / 10) else Err ValueError)
  (fun t => if String.eqb t "turn" then Ok turn else Err ValueError)
  (fun t => Err IOError) (fun t => if String.eqb t "sqe.h5" then Ok hist0 else Err IOError) 2.
Definition int0 : py_int := fun t => if String.eqb t "9" then Ok 9%Z else Err ValueError.
Definition mat0 : material := mkMat (10, 20, 30) (11, 21, 31) (12, 22, 32) 64.
Definition eq_xml : xml := Elem "E_Q_Kernel" [("E_Q", "Q*Q"); ("S_Q", "1"); ("Qmin", "0*angstrom**-1"); ("Qmax", "3")] [].
Definition iso_xml : xml :=
  Elem "IsotropicKernel" [("absorption_coefficient", "7/meter"); ("scattering_coefficient", "8/meter"); ("weight", "2.5"); ("orientation", "turn")] [].
Definition sqe_xml : xml :=
  Elem "SQEkernel" [("Q-range", "0, 12"); ("energy-range", "-60*meV, 60*meV")] [Elem "GridSQE" [("histogram-hdf-path", "sqe.h5")] []].
Definition all_xml : xml := Elem "KernelContainer" [("average", "Yes")] [eq_xml; iso_xml; sqe_xml].
Definition attrs0 : list (string * string) := [("mcweights", "0.1, 0.9, 0.2"); ("max_multiplescattering_loops", "9"); ("packing_factor", "0.6")].

Ltac nodup := repeat (constructor; [cbn; intuition discriminate|]); constructor.
Ltac away := let t := fresh in let H := fresh in intros t H; cbn in H; intuition discriminate.
Lemma wf0 : well_formed (Elem "homogeneous_scatterer" attrs0 [all_xml]).
Proof. repeat (constructor; [first [nodup; fail | idtac]|] || constructor); try (cbn; intuition discriminate). Qed.
Lemma eq_means : kernel_means env0 mat0 eq_xml (CEQ "Q*Q" "1" 0 3 11 52).
Proof.
  apply M_leaf with 1 (mkM 1 0 0 0 1 0 0 0 1).
  - apply L_EQ; try (cbn; tauto).
    + exists "0*angstrom**-1", (Quant (-1, 0, 0)%Z 0). split; [cbn; tauto|]. split; [reflexivity|]. right. f_equal. lra.
    + exists "3", (Plain 3). split; [cbn; tauto|]. auto.
    + split; [left; away|]. split; [left; away|]. left. split; [left; away|]. exists 21, 31. split; [reflexivity|lra].
  - left. split; [left; away|reflexivity].
  - left. split; [away|reflexivity].
Qed.
Lemma iso_means : kernel_means env0 mat0 iso_xml (CIso 7 8).
Proof.
  apply M_leaf with (25 / 10) turn.
  - apply L_iso. split; [right; right; exists "7/meter", (Sc (Quant (-1, 0, 0)%Z 7)); cbn; repeat split; (tauto || discriminate)|].
    split; [right; right; exists "8/meter", (Sc (Quant (-1, 0, 0)%Z 8)); cbn; repeat split; (tauto || discriminate)|]. right.
    exists "7/meter", "8/meter", (Quant (-1, 0, 0)%Z 7), (Quant (-1, 0, 0)%Z 8). cbn. repeat split; try tauto; try discriminate.
    right. cbn. rewrite !Rmult_1_r. reflexivity.
  - right. exists "2.5". cbn. repeat split; try tauto; try discriminate. lra.
  - right. exists "turn". cbn. split; [tauto|reflexivity].
Qed.
Lemma sqe_means : kernel_means env0 mat0 sqe_xml (CSQE 12 54 (64 / 10 ^ 30) (CGrid [(0, 2 + 1 / 2, 1); (-10, 10 + 1 / 2 * 10, 10)] [1; 2; 3; 4]) 0 12 (-60) 60).
Proof.
  apply M_leaf with 1 (mkM 1 0 0 0 1 0 0 0 1).
  - apply (L_SQE env0 mat0 [("Q-range", "0, 12"); ("energy-range", "-60*meV, 60*meV")]).
    + exists "0, 12", [Plain 0; Plain 12]. split; [cbn; tauto|]. split; [reflexivity|left; reflexivity].
    + exists "-60*meV, 60*meV", [Quant (2, 1, -2)%Z (-120); Quant (2, 1, -2)%Z 120]. split; [cbn; tauto|]. split; [reflexivity|]. right. cbn. repeat (f_equal; try lra).
    + exists [], (FGrid hist0). split.
      * constructor; [|constructor]. apply r_gridsqe with hist0; [cbn; tauto| |].
        -- exists "sqe.h5". right. split; [left; away|]. split; [split; [cbn; tauto|discriminate]|reflexivity].
        -- left. split; [left; away|reflexivity].
      * change [1; 2; 3; 4] with (h_data hist0). eapply p_grid; [reflexivity|reflexivity|]. cbn [hist0 h_axes h_shape map fst].
        constructor; [|constructor; [|constructor]].
        -- exists 0, 1, [2]. cbn [last]. split; [reflexivity|]. split; [lra|]. split; [repeat (f_equal; try lra)|]. right. split; [discriminate|]. cbn. lra.
        -- exists (-10), 0, [10]. cbn [last]. split; [reflexivity|]. split; [lra|]. split; [repeat (f_equal; try lra)|]. right. split; [discriminate|]. cbn. lra.
    + exists 22, 32. split; [reflexivity|lra].
  - left. split; [left; away|reflexivity].
  - left. split; [away|reflexivity].
Qed.
Example C84_engine_applies :
  engine env0 int0 mat0 (Elem "homogeneous_scatterer" attrs0 [all_xml]) =
  Ok (CComp [CEQ "Q*Q" "1" 0 3 11 52; CIso 7 8;
             CSQE 12 54 (64 / 10 ^ 30) (CGrid [(0, 2 + 1 / 2, 1); (-10, 10 + 1 / 2 * 10, 10)] [1; 2; 3; 4]) 0 12 (-60) 60]
        [1; 25 / 10; 1] [mkM 1 0 0 0 1 0 0 0 1; turn; mkM 1 0 0 0 1 0 0 0 1] true,
      mkCS (1 / 10) (9 / 10) (2 / 10) 9 0 (6 / 10)).
Proof.
  apply C84_engine; [cbn; lra|exact wf0|]. split.
  - apply M_container with 1.
    + intros name t H. cbn in H. left. intuition congruence.
    + right. exists "Yes". split; [cbn; tauto|]. split; [discriminate|]. split; [intros _; cbn; tauto|reflexivity].
    + left. split; [left; away|reflexivity].
    + constructor; [exact eq_means|]. constructor; [exact iso_means|]. constructor; [exact sqe_means|constructor].
    + constructor; [left; split; [left; away|reflexivity]|]. constructor; [|constructor; [left; split; [left; away|reflexivity]|constructor]].
      right. exists "2.5". cbn. repeat split; try tauto; try discriminate. lra.
    + constructor; [left; split; [away|reflexivity]|]. constructor; [|constructor; [left; split; [away|reflexivity]|constructor]].
      right. exists "turn". cbn. split; [tauto|reflexivity].
  - split; [right; exists "0.1, 0.9, 0.2"; cbn; repeat split; try tauto; discriminate|].
    split; [right; exists "9"; cbn; repeat split; try tauto; discriminate|]. split; [left; split; [away|reflexivity]|].
    right. exists "0.6". cbn. repeat split; try tauto; discriminate.
Qed.

(* the same description never gives two engines *)
Theorem C84_unique : forall e m x c c', e_meV e <> 0 -> well_formed x -> kernel_means e m x c -> kernel_means e m x c' -> c = c'.
Proof.
  intros e m x c c' M W H H'. apply (kernel_iff e m M x W) in H, H'. destruct H as (cl & k & P & R), H' as (cl' & k' & P' & R'). congruence.
Qed.
Print Assumptions C84_unique.
Example C84_unique_applies : forall c, kernel_means env0 mat0 iso_xml c -> c = CIso 7 8.
Proof.
  intros c H. apply (C84_unique env0 mat0 iso_xml); [cbn; lra| |exact H|exact iso_means].
  constructor; [nodup|constructor].
Qed.

(* a coefficient that is given would be expected to be used; with only one of the two given it is not *)
Theorem C84_single_coefficient_refuted : exists e int m attrs st, e_meV e <> 0 /\ number e attrs "absorption_coefficient" inverse_length 1 7 /\
  exists a s, engine e int m (Elem "homogeneous_scatterer" [] [Elem "IsotropicKernel" attrs []]) = Ok (CIso a s, st) /\ a <> 7.
Proof.
  exists env0, int0, mat0, [("absorption_coefficient", "7/meter")], (mkCS 0 1 (5 / 100) 5 0 1). split; [cbn; lra|]. split.
  - exists "7/meter", (Quant (-1, 0, 0)%Z 7). split; [cbn; tauto|]. split; [reflexivity|right; f_equal; lra].
  - exists 11, 52. split; [|lra]. apply engine_iff; [cbn; lra|constructor; [constructor|constructor; [constructor; [nodup|constructor]|constructor]]|]. split.
    + apply M_leaf with 1 (mkM 1 0 0 0 1 0 0 0 1); [|left; split; [left; away|reflexivity]|left; split; [away|reflexivity]].
      apply L_iso. split; [right; right; exists "7/meter", (Sc (Quant (-1, 0, 0)%Z 7)); cbn; repeat split; (tauto || discriminate)|].
      split; [left; away|]. left. split; [right; away|]. exists 21, 31. split; [reflexivity|lra].
    + split; [left; split; [left; away|auto]|]. split; [left; split; [away|reflexivity]|]. split; left; (split; [away|reflexivity]).
Qed.
Print Assumptions C84_single_coefficient_refuted.

(* ... and S(Q,E) kernels take no notice of coefficients: only the attributes named below count *)
Theorem C84_sqe_attributes : forall e m attrs attrs' children c, e_meV e <> 0 ->
  well_formed (Elem "SQEkernel" attrs children) -> NoDup (map fst attrs') ->
  (forall name, In name ["Q-range"; "energy-range"; "weight"; "orientation"] -> forall t, has attrs name t <-> has attrs' name t) ->
  kernel_means e m (Elem "SQEkernel" attrs children) c -> kernel_means e m (Elem "SQEkernel" attrs' children) c.
Proof.
  intros e m attrs attrs' children c M W D' Same H. inversion H as [tg at_ ch c0 w r L Wt O|]; subst. inversion L as [| | | | | | | |ch a s f Qmin Qmax Emin Emax T1 T2 F Om| | | |]; subst.
  assert (A : forall name, In name ["Q-range"; "energy-range"; "weight"; "orientation"] -> absent attrs name -> absent attrs' name).
  { intros name I N t Ht. apply (Same name I) in Ht. exact (N t Ht). }
  apply M_leaf with w r.
  - apply L_SQE; try assumption.
    + destruct T1 as (t & l & Ht & P). exists t, l. split; [apply (Same "Q-range"); [cbn; tauto|exact Ht]|exact P].
    + destruct T2 as (t & l & Ht & P). exists t, l. split; [apply (Same "energy-range"); [cbn; tauto|exact Ht]|exact P].
  - destruct Wt as [([N|N] & ->)|(t & Ht & P)].
    + left. split; [left; apply A; [cbn; tauto|exact N]|reflexivity].
    + left. split; [right; apply (Same "weight"); [cbn; tauto|exact N]|reflexivity].
    + right. exists t. split; [apply (Same "weight"); [cbn; tauto|exact Ht]|exact P].
  - destruct O as [(N & ->)|(t & Ht & P)]; [left; split; [apply A; [cbn; tauto|exact N]|reflexivity]|].
    right. exists t. split; [apply (Same "orientation"); [cbn; tauto|exact Ht]|exact P].
Qed.
Print Assumptions C84_sqe_attributes.
Example C84_sqe_attributes_applies :
  kernel_means env0 mat0 (Elem "SQEkernel" [("Q-range", "0, 12"); ("energy-range", "-60*meV, 60*meV"); ("absorption_cross_section", "7*barn")]
                            [Elem "GridSQE" [("histogram-hdf-path", "sqe.h5")] []])
    (CSQE 12 54 (64 / 10 ^ 30) (CGrid [(0, 2 + 1 / 2, 1); (-10, 10 + 1 / 2 * 10, 10)] [1; 2; 3; 4]) 0 12 (-60) 60).
Proof.
  apply C84_sqe_attributes with [("Q-range", "0, 12"); ("energy-range", "-60*meV, 60*meV")]; [cbn; lra| |nodup| |exact sqe_means].
  - constructor; [nodup|]. constructor; [constructor; [nodup|constructor]|constructor].
  - intros name I t. cbn in I |- *. unfold has. cbn. intuition congruence.
Qed.

(* the momentum transfer of a ConstantvQEKernel cannot have units, though all others can *)
Theorem C84_vector_units : forall e int m attrs kattrs children t d x rest r, e_meV e <> 0 ->
  well_formed (Elem "homogeneous_scatterer" attrs [Elem "ConstantvQEKernel" kattrs children]) ->
  has kattrs "momentum-transfer" t -> e_parse e t = Ok (Tup (Quant d x :: rest)) ->
  engine e int m (Elem "homogeneous_scatterer" attrs [Elem "ConstantvQEKernel" kattrs children]) <> Ok r.
Proof.
  intros e int m attrs kattrs children t d x rest (c, st) M W H P E. inversion W as [t0 a0 c0 D F]; subst. inversion F as [|x0 l0 Wc _]; subst.
  inversion Wc as [t1 a1 c1 D1 F1]; subst. apply engine_iff in E; try assumption. destruct E as (K & _).
  inversion K as [tg at_ ch c2 w rr L|]; subst. inversion L as [ | | |t' x' y' z' rest' E' dE' a' s' N1 N2 H' P'| | | | | | | | |]; subst.
  assert (t = t') by (eapply has_fun; eassumption). subst. congruence.
Qed.
Print Assumptions C84_vector_units.
Definition env1 : env := mkEnv (fun t => if String.eqb t "Q" then Ok (Tup [Quant (-1, 0, 0)%Z 1; Quant (-1, 0, 0)%Z 2; Quant (-1, 0, 0)%Z 3]) else Ok (Sc (Plain 1)))
  (fun _ => Ok 1) (fun _ => Ok turn) (fun _ => Err IOError) (fun _ => Err IOError) 2.
Example C84_vector_units_applies : forall r,
  engine env1 int0 mat0 (Elem "homogeneous_scatterer" [] [Elem "ConstantvQEKernel" [("momentum-transfer", "Q"); ("energy-transfer", "1"); ("dE", "1")] []]) <> Ok r.
Proof.
  intros r. eapply C84_vector_units with (t := "Q"); [cbn; lra| |cbn; tauto|reflexivity].
  constructor; [constructor|]. constructor; [constructor; [nodup|constructor]|constructor].
Qed.

(** ** C85: scatterers whose description is not as it should be *)

(* of several kernels the last is taken, whatever the others are *)
Theorem C85_last_kernel : forall e int m attrs front child r, e_meV e <> 0 -> Forall well_formed front ->
  Forall (fun x => exists c, kernel_means e m x c) front ->
  (engine e int m (Elem "homogeneous_scatterer" attrs (front ++ [child])%list) = Ok r <->
   engine e int m (Elem "homogeneous_scatterer" attrs [child]) = Ok r).
Proof. exact engine_last. Qed.
Print Assumptions C85_last_kernel.
Example C85_last_kernel_applies : engine env0 int0 mat0 (Elem "homogeneous_scatterer" [] [eq_xml; sqe_xml; iso_xml]) = Ok (CIso 7 8, mkCS 0 1 (5 / 100) 5 0 1).
Proof.
  apply (C85_last_kernel env0 int0 mat0 [] [eq_xml; sqe_xml] iso_xml).
  - cbn; lra.
  - constructor; [constructor; [nodup|constructor]|]. constructor; [|constructor]. constructor; [nodup|]. constructor; [constructor; [nodup|constructor]|constructor].
  - constructor; [eexists; exact eq_means|]. constructor; [eexists; exact sqe_means|constructor].
  - apply engine_iff; [cbn; lra|constructor; [constructor|constructor; [constructor; [nodup|constructor]|constructor]]|]. split; [exact iso_means|].
    split; [left; split; [left; away|auto]|]. split; [left; split; [away|reflexivity]|]. split; left; (split; [away|reflexivity]).
Qed.

(* without a kernel there is no engine *)
Theorem C85_no_kernel : forall e int m attrs r, engine e int m (Elem "homogeneous_scatterer" attrs []) <> Ok r.
Proof. exact engine_none. Qed.
Print Assumptions C85_no_kernel.
Example C85_no_kernel_applies : engine env0 int0 mat0 (Elem "homogeneous_scatterer" attrs0 []) = Err AttributeError.
Proof. reflexivity. Qed.

(* a setting that is there but empty, or that cannot be read, makes the whole description fail *)
Theorem C85_empty_setting : forall e int m attrs child name r, e_meV e <> 0 -> well_formed (Elem "homogeneous_scatterer" attrs [child]) ->
  In name ["max_multiplescattering_loops"; "min_neutron_probability"; "packing_factor"] -> has attrs name "" ->
  engine e int m (Elem "homogeneous_scatterer" attrs [child]) <> Ok r.
Proof.
  intros e int m attrs child name (c, st) M W I H E. inversion W as [t a cc D F]; subst. apply engine_iff in E; try assumption.
  destruct E as (_ & _ & L & N & P). cbn in I.
  assert (X : forall (A : Type) (conv : string -> result A) n d x, has attrs n "" -> setting_means conv attrs n d x -> False).
  { intros A conv n d x Hn [(Ab & _)|(t & Ht & Nt & _)]; [exact (Ab _ Hn)|]. apply Nt. eapply has_fun; eassumption. }
  destruct I as [<-|[<-|[<-|[]]]]; eapply X; eassumption.
Qed.
Print Assumptions C85_empty_setting.
Example C85_empty_setting_applies : forall r, engine env0 int0 mat0 (Elem "homogeneous_scatterer" [("packing_factor", "")] [iso_xml]) <> Ok r.
Proof.
  intros r. apply C85_empty_setting with "packing_factor"; try (cbn; tauto); [cbn; lra|].
  constructor; [nodup|]. constructor; [constructor; [nodup|constructor]|constructor].
Qed.

(* a container cannot be oriented, nor take any attribute but average and weight *)
Theorem C85_container_attributes : forall e int m attrs cattrs children name t r, e_meV e <> 0 ->
  well_formed (Elem "homogeneous_scatterer" attrs [Elem "KernelContainer" cattrs children]) -> has cattrs name t -> name <> "average" -> name <> "weight" ->
  engine e int m (Elem "homogeneous_scatterer" attrs [Elem "KernelContainer" cattrs children]) <> Ok r.
Proof.
  intros e int m attrs cattrs children name t (c, st) M W H N1 N2 E. apply engine_iff in E; try assumption. destruct E as (K & _).
  inversion K as [tg at_ ch c0 w rr L|at_ ch ks ws rs b w A]; subst; [inversion L|]. destruct (A name t H); contradiction.
Qed.
Print Assumptions C85_container_attributes.
Example C85_container_attributes_applies : forall r,
  engine env0 int0 mat0 (Elem "homogeneous_scatterer" [] [Elem "KernelContainer" [("orientation", "turn")] [eq_xml; iso_xml]]) <> Ok r.
Proof.
  intros r. apply C85_container_attributes with "orientation" "turn"; [cbn; lra| |cbn; tauto|discriminate|discriminate].
  constructor; [constructor|]. constructor; [|constructor]. constructor; [nodup|]. constructor; [constructor; [nodup|constructor]|].
  constructor; [constructor; [nodup|constructor]|constructor].
Qed.

(* a weight must be positive, wherever the kernel is *)
Theorem C85_weight_positive : forall e m x c, e_meV e <> 0 -> well_formed x -> kernel_means e m x c ->
  (exists w, weight e (attrs_of x) w /\ 0 < w)
  /\ (forall ks ws rs b, c = CComp ks ws rs b -> Forall (fun w => 0 < w) ws /\ List.length ws = List.length ks /\ List.length rs = List.length ks).
Proof.
  intros e m x c M W H. inversion H as [tg at_ ch c0 w r L Wt O|at_ ch ks ws rs b w A1 A2 Wt K1 K2 K3]; subst; cbn [attrs_of].
  - split; [exists w; split; [assumption|eapply weight_pos; eassumption]|]. intros ks ws rs b ->. inversion L.
  - split; [exists w; split; [assumption|eapply weight_pos; eassumption]|]. intros ks' ws' rs' b' [= -> -> -> ->].
    assert (Len : forall (A B : Type) (R : A -> B -> Prop) l l', Forall2 R l l' -> List.length l = List.length l').
    { intros A B R l l' F. induction F; cbn; congruence. }
    split; [|split; [rewrite <- (Len _ _ _ _ _ K2); apply (Len _ _ _ _ _ K1)|rewrite <- (Len _ _ _ _ _ K3); apply (Len _ _ _ _ _ K1)]].
    clear - K2. induction K2 as [|x w xs ws Hw K IH]; constructor; [eapply weight_pos; eassumption|exact IH].
Qed.
Print Assumptions C85_weight_positive.
Example C85_weight_positive_applies : exists w, weight env0 (attrs_of iso_xml) w /\ 0 < w.
Proof.
  apply (C85_weight_positive env0 mat0 iso_xml (CIso 7 8)); [cbn; lra| |exact iso_means]. constructor; [nodup|constructor].
Qed.

(** ** C86: grids *)

(* a uniform histogram is always accepted, and arrives with its boundaries, its step and its values *)
Theorem C86_uniform : forall k h axes n margin shift, axes_margin_shift k = (n, margin, shift) -> List.length axes = n -> uniform_hist h axes ->
  render_functor k (Some (FGrid h)) = Ok (CGrid (map (engine_axis margin) axes) (h_data h)).
Proof. exact uniform_ok. Qed.
Print Assumptions C86_uniform.
Lemma hist0_uniform : uniform_hist hist0 [(0, 1, 2%nat); (-10, 10, 2%nat)].
Proof.
  split; [|split; [reflexivity|]].
  - cbn. unfold uniform. cbn. repeat (f_equal; try lra).
  - constructor; [split; [lra|lia]|]. constructor; [split; [lra|lia]|constructor].
Qed.
Example C86_uniform_applies : render_functor FSQE (Some (FGrid hist0)) =
  Ok (CGrid [(0, 0 + INR 2 * 1 + 1 / 2 * 1, 1); (-10, -10 + INR 2 * 10 + 1 / 2 * 10, 10)] [1; 2; 3; 4]).
Proof. exact (C86_uniform FSQE hist0 [(0, 1, 2%nat); (-10, 10, 2%nat)] 2 (1 / 2) 0 eq_refl eq_refl hist0_uniform). Qed.

(* a grid that is accepted has the right number of axes, and each is as long as that number of its first steps, to within a step *)
Theorem C86_accepted : forall k h c, render_functor k (Some (FGrid h)) = Ok c ->
  forall margin shift d, axes_margin_shift k = (d, margin, shift) ->
  List.length (h_axes h) = d /\ (exists axs, c = CGrid axs (h_data h)) /\
  Forall2 (fun bb n => exists b0 b1 rest, bb = b0 :: b1 :: rest /\ b1 <> b0 /\
     ((1 <= n)%nat -> INR n - (margin + shift) <= (last bb 0 - b0) / (b1 - b0) < INR n + 1 - (margin + shift))) (map fst (h_axes h)) (h_shape h).
Proof. exact accepted_width. Qed.
Print Assumptions C86_accepted.
Example C86_accepted_applies : List.length (h_axes hist0) = 2%nat.
Proof. exact (proj1 (C86_accepted FSQE hist0 _ C86_uniform_applies (1 / 2) 0 2%nat eq_refl)). Qed.

(* one would expect that only uniform grids are accepted; they are not checked beyond their ends *)
Theorem C86_only_uniform_refuted : exists h c, render_functor FSQ (Some (FGrid h)) = Ok c /\ List.length (h_data h) = 2%nat /\
  forall b st n, map fst (h_axes h) <> [uniform b st n].
Proof.
  exists (mkH [([0; 1; 23 / 10], [1 / 2; 165 / 100])] [2%nat] [1; 2]), (CGrid [(0, 23 / 10 + 1 / 100 * (1 - 0), 1 - 0)] [1; 2]).
  split; [|split; [reflexivity|]].
  - apply render_functor_ok. eexists; split; [reflexivity|]. change [1; 2] with (h_data (mkH [([0; 1; 23 / 10], [1 / 2; 165 / 100])] [2%nat] [1; 2])).
    eapply p_grid; [reflexivity|reflexivity|]. cbn [h_axes h_shape map fst]. constructor; [|constructor].
    exists 0, 1, [23 / 10]. cbn [last]. split; [reflexivity|]. split; [lra|]. split; [reflexivity|]. right. split; [discriminate|]. cbn. lra.
  - intros b st n H. cbn [h_axes map fst] in H. unfold uniform in H. destruct n as [|[|[|n]]]; cbn in H; try discriminate. injection H as H0 H1 H2. lra.
Qed.
Print Assumptions C86_only_uniform_refuted.

(* auto-normalization: the mean of Q S becomes 1, unless it was within 0.2 of it; a mean of zero is an error *)
Theorem C86_normalized : forall bq qs axe nq ne rows, List.length qs = List.length rows -> Forall (fun r => List.length r = ne) rows ->
  (1 <= List.length qs)%nat -> (1 <= ne)%nat ->
  let h := mkH [(bq, qs); axe] [nq; ne] (List.concat rows) in
  let M := mean_QS qs rows ne in
  (Rabs (M - 1) <= 2 / 10 -> normalized h = Ok h)
  /\ (2 / 10 < Rabs (M - 1) -> M <> 0 -> exists rows', normalized h = Ok (mkH [(bq, qs); axe] [nq; ne] (List.concat rows'))
        /\ rows' = map (map (fun x => x / M)) rows /\ mean_QS qs rows' ne = 1)
  /\ (M = 0 -> exists x, normalized h = Err x).
Proof. exact normalized_ok. Qed.
Print Assumptions C86_normalized.
Example C86_normalized_applies : exists rows', normalized hist0 = Ok (mkH (h_axes hist0) [2%nat; 2%nat] (List.concat rows')) /\ mean_QS [1 / 2; 3 / 2] rows' 2 = 1.
Proof.
  assert (E : mean_QS [1 / 2; 3 / 2] [[1; 2]; [3; 4]] 2 = 3) by (unfold mean_QS, sum; cbn; lra).
  destruct (C86_normalized [0; 1; 2] [1 / 2; 3 / 2] ([-10; 0; 10], [-5; 5]) 2%nat 2%nat [[1; 2]; [3; 4]]) as (_ & H & _);
    [reflexivity|repeat constructor|cbn; lia|lia|]. rewrite E in H. destruct H as (rows' & N & _ & Mn); [rewrite Rabs_right; lra|lra|]. eauto.
Qed.
