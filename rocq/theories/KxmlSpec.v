(** What the XML description of a scatterer stands for, said without the functions of the model. *)
From Coq Require Import Reals ZArith.
From Verif Require Import Base RotModel KxmlModel.
Open Scope string_scope. Open Scope R_scope.

(* the attributes of an element, and elements whose attribute names are all different, as XML demands *)
Definition attrs_of (x : xml) : list (string * string) := match x with Elem _ a _ => a end.
Inductive well_formed : xml -> Prop :=
| wf_elem tag attrs children : NoDup (map fst attrs) -> Forall well_formed children -> well_formed (Elem tag attrs children).
Definition has (attrs : list (string * string)) (name t : string) : Prop := In (name, t) attrs.
Definition absent (attrs : list (string * string)) (name : string) : Prop := forall t, ~ In (name, t) attrs.

(* numbers written with units or without: [xs] in the unit of kind [d] that is [s] SI units *)
Definition numbers (d : dims) (s : R) (l : list pyval) (xs : list R) : Prop :=
  l = map Plain xs \/ l = map (fun x => Quant d (x * s)) xs.
Definition number (e : env) (attrs : list (string * string)) (name : string) (d : dims) (s x : R) : Prop :=
  exists t v, has attrs name t /\ e_parse e t = Ok (Sc v) /\ (v = Plain x \/ v = Quant d (x * s)).
Definition tuple (e : env) (attrs : list (string * string)) (name : string) (d : dims) (s : R) (xs : list R) : Prop :=
  exists t l, has attrs name t /\ e_parse e t = Ok (Tup l) /\ numbers d s l xs.

(* the kinds of quantities *)
Definition inverse_length : dims := (-1, 0, 0)%Z.
Definition area : dims := (2, 0, 0)%Z.
Definition length_ : dims := (1, 0, 0)%Z.
Definition time_ : dims := (0, 0, 1)%Z.
Definition energy : dims := (2, 1, -2)%Z.

(* an attribute that may be left out, be empty, or be something the parser of units can read *)
Definition readable (e : env) (attrs : list (string * string)) (name : string) : Prop :=
  absent attrs name \/ has attrs name "" \/ exists t v, has attrs name t /\ t <> "" /\ e_parse e t = Ok v.
Definition both_given (e : env) (attrs : list (string * string)) (na ns : string) (d : dims) (a s : R) : Prop :=
  exists ta ts va vs, has attrs na ta /\ ta <> "" /\ e_parse e ta = Ok (Sc va)
    /\ has attrs ns ts /\ ts <> "" /\ e_parse e ts = Ok (Sc vs) /\ numbers d 1 [va; vs] [a; s].
Definition of_material (x : R * R * R) (a s : R) : Prop := exists inc coh, x = (a, inc, coh) /\ s = inc + coh.
(* coefficients: as given if there are both, otherwise both those of the material *)
Definition coefs (e : env) (mat : R * R * R) (attrs : list (string * string)) (na ns : string) (d : dims) (a s : R) : Prop :=
  readable e attrs na /\ readable e attrs ns
  /\ (((absent attrs na \/ absent attrs ns) /\ of_material mat a s) \/ both_given e attrs na ns d a s).
(* ... both or none of them *)
Definition coefs_strict (e : env) (mat : R * R * R) (attrs : list (string * string)) (na ns : string) (d : dims) (a s : R) : Prop :=
  (absent attrs na /\ absent attrs ns /\ of_material mat a s) \/ both_given e attrs na ns d a s.

(* weight: 1 unless given, and positive.  orientation: the identity unless given *)
Definition weight (e : env) (attrs : list (string * string)) (w : R) : Prop :=
  ((absent attrs "weight" \/ has attrs "weight" "") /\ w = 1)
  \/ (exists t, has attrs "weight" t /\ t <> "" /\ e_float e t = Ok w /\ 0 < w).
Definition orientation (e : env) (attrs : list (string * string)) (m : mat3) : Prop :=
  (absent attrs "orientation" /\ m = mkM 1 0 0 0 1 0 0 0 1) \/ (exists t, has attrs "orientation" t /\ e_orientation e t = Ok m).

(* reading of a functor from an element without children, and how it reaches the engine *)
Definition tags_of (k : fkind) : list string :=
  match k with FSQE => ["SQE_fromexpression"; "GridSQE"] | FSQ => ["SQ_fromexpression"; "GridSQ"] | FSvQ => ["GridSvQ"] end.
(* an attribute left out or empty *)
Definition void (attrs : list (string * string)) (name : string) : Prop := absent attrs name \/ has attrs name "".
Definition given (attrs : list (string * string)) (name t : string) : Prop := has attrs name t /\ t <> "".
Inductive reads_functor (e : env) (k : fkind) : xml -> functor -> Prop :=
| r_expr tag attrs s : In tag (tags_of k) -> tag = "SQE_fromexpression" \/ tag = "SQ_fromexpression" ->
    (has attrs "expression" s \/ (absent attrs "expression" /\ s = "None")) ->
    reads_functor e k (Elem tag attrs []) (FExpr s)
| r_grid tag attrs p h : In tag (tags_of k) -> tag = "GridSQ" \/ tag = "GridSvQ" ->
    has attrs "histogram-hdf-path" p -> e_hdf e p = Ok h -> reads_functor e k (Elem tag attrs []) (FGrid h)
| r_gridsqe attrs h h' : In "GridSQE" (tags_of k) ->
    (exists p, (given attrs "idf-data-path" p /\ e_idf e p = Ok h)
               \/ (void attrs "idf-data-path" /\ given attrs "histogram-hdf-path" p /\ e_hdf e p = Ok h)) ->
    ((void attrs "auto-normalization" /\ h' = h)
     \/ (exists t, given attrs "auto-normalization" t
           /\ ((In (lower t) ["on"; "yes"; "1"; "true"] /\ normalized h = Ok h') \/ (In (lower t) ["off"; "no"; "0"; "false"] /\ h' = h)))) ->
    reads_functor e k (Elem "GridSQE" attrs []) (FGrid h').
(* the integer part, towards 0, of z is n *)
Definition integer_part (z : R) (n : nat) : Prop := (n = O /\ -1 < z < 1) \/ (n <> O /\ INR n <= z < INR n + 1).
(* an axis with [n] bins between boundaries [bb]: it goes on to the engine with the first step and an end moved by a fraction of it, if the number of
   steps is right *)
Definition axis_passes (margin shift : R) (bb : list R) (n : nat) (ax : R * R * R) : Prop :=
  exists b0 b1 rest, bb = b0 :: b1 :: rest /\ b1 - b0 <> 0
    /\ ax = (b0, last bb 0 + margin * (b1 - b0), b1 - b0)
    /\ integer_part ((last bb 0 + margin * (b1 - b0) - b0) / (b1 - b0) + shift) n.
Inductive grid_passes (margin shift : R) : list (list R) -> list nat -> list (R * R * R) -> Prop :=
| gp_nil : grid_passes margin shift [] [] []
| gp_cons bb n ax bbs ns axs : axis_passes margin shift bb n ax -> grid_passes margin shift bbs ns axs ->
    grid_passes margin shift (bb :: bbs) (n :: ns) (ax :: axs).
Definition axes_margin_shift (k : fkind) : nat * R * R :=
  match k with FSQE => (2%nat, 1 / 2, 0) | FSQ => (1%nat, 1 / 100, 1 / 2) | FSvQ => (3%nat, 1 / 10, 1 / 2) end.
Inductive passes (k : fkind) : functor -> cfunctor -> Prop :=
| p_expr s : passes k (FExpr s) (CExpr s)
| p_grid h axs n margin shift : axes_margin_shift k = (n, margin, shift) -> List.length (h_axes h) = n ->
    grid_passes margin shift (map fst (h_axes h)) (h_shape h) axs -> passes k (FGrid h) (CGrid axs (h_data h)).
(* of several functors the last counts *)
Definition functor_of (e : env) (k : fkind) (children : list xml) (c : cfunctor) : Prop :=
  exists fs f, Forall2 (reads_functor e k) children (fs ++ [f])%list /\ passes k f c.

(* the kernels, one by one *)
Inductive leaf_means (e : env) (m : material) (attrs : list (string * string)) : string -> list xml -> ckernel -> Prop :=
| L_iso a s : coefs e (m_with_density m) attrs "absorption_coefficient" "scattering_coefficient" inverse_length a s ->
    leaf_means e m attrs "IsotropicKernel" [] (CIso a s)
| L_constE E a s : number e attrs "energy-transfer" energy (e_meV e) E ->
    coefs e (m_coeffs m) attrs "absorption_coefficient" "scattering_coefficient" inverse_length a s ->
    leaf_means e m attrs "ConstantEnergyTransferKernel" [] (CConstE E a s)
| L_constQE Q E a s : number e attrs "energy-transfer" energy (e_meV e) E ->
    number e attrs "momentum-transfer" inverse_length (10 ^ 10) Q ->
    coefs e (m_coeffs m) attrs "absorption_coefficient" "scattering_coefficient" inverse_length a s ->
    leaf_means e m attrs "ConstantQEKernel" [] (CConstQE Q E a s)
| L_constvQE t x y z rest E dE a s : number e attrs "energy-transfer" energy (e_meV e) E -> number e attrs "dE" energy (e_meV e) dE ->
    has attrs "momentum-transfer" t -> e_parse e t = Ok (Tup (Plain x :: Plain y :: Plain z :: rest)) ->
    coefs e (m_coeffs m) attrs "absorption_coefficient" "scattering_coefficient" inverse_length a s ->
    leaf_means e m attrs "ConstantvQEKernel" [] (CConstvQE (mkV x y z) E dE a s)
| L_EQ E_Q S_Q Qmin Qmax a s : has attrs "E_Q" E_Q -> has attrs "S_Q" S_Q ->
    number e attrs "Qmin" inverse_length (10 ^ 10) Qmin -> number e attrs "Qmax" inverse_length (10 ^ 10) Qmax ->
    coefs e (m_with_density m) attrs "absorption_coefficient" "scattering_coefficient" inverse_length a s ->
    leaf_means e m attrs "E_Q_Kernel" [] (CEQ E_Q S_Q Qmin Qmax a s)
| L_broad E_Q S_Q sigma_Q Qmin Qmax a s : has attrs "E_Q" E_Q -> has attrs "S_Q" S_Q -> has attrs "sigma_Q" sigma_Q ->
    number e attrs "Qmin" inverse_length (10 ^ 10) Qmin -> number e attrs "Qmax" inverse_length (10 ^ 10) Qmax ->
    coefs e (m_with_density m) attrs "absorption_coefficient" "scattering_coefficient" inverse_length a s ->
    leaf_means e m attrs "Broadened_E_Q_Kernel" [] (CBroad E_Q S_Q sigma_Q Qmin Qmax a s)
| L_lor E_Q S_Q gamma_Q Qmin Qmax a s : has attrs "E_Q" E_Q -> has attrs "S_Q" S_Q -> has attrs "gamma_Q" gamma_Q ->
    number e attrs "Qmin" inverse_length (10 ^ 10) Qmin -> number e attrs "Qmax" inverse_length (10 ^ 10) Qmax ->
    coefs e (m_with_density m) attrs "absorption_coefficient" "scattering_coefficient" inverse_length a s ->
    leaf_means e m attrs "LorentzianBroadened_E_Q_Kernel" [] (CLor E_Q S_Q gamma_Q Qmin Qmax a s)
| L_EvQ E_Q S_Q Emax a s : has attrs "E_Q" E_Q -> has attrs "S_Q" S_Q -> number e attrs "Emax" energy (e_meV e) Emax ->
    coefs e (m_with_density m) attrs "absorption_coefficient" "scattering_coefficient" inverse_length a s ->
    leaf_means e m attrs "E_vQ_Kernel" [] (CEvQ E_Q S_Q Emax a s)
| L_SQE children a s f Qmin Qmax Emin Emax : tuple e attrs "Q-range" inverse_length (10 ^ 10) [Qmin; Qmax] ->
    tuple e attrs "energy-range" energy (e_meV e) [Emin; Emax] -> functor_of e FSQE children f -> of_material (m_areas m) a s ->
    leaf_means e m attrs "SQEkernel" children (CSQE a s (m_volume m / 10 ^ 30) f Qmin Qmax Emin Emax)
| L_SQEF children a s f Qmin Qmax Emin Emax Ef dEf : tuple e attrs "Q-range" inverse_length (10 ^ 10) [Qmin; Qmax] ->
    tuple e attrs "energy-range" energy (e_meV e) [Emin; Emax] ->
    number e attrs "Ef" energy (e_meV e) Ef -> number e attrs "dEf" energy (e_meV e) dEf -> functor_of e FSQE children f ->
    coefs_strict e (m_areas m) attrs "absorption_cross_section" "scattering_cross_section" area a s ->
    leaf_means e m attrs "SQE_EnergyFocusing_Kernel" children (CSQEF a s (m_volume m / 10 ^ 30) f Qmin Qmax Emin Emax Ef dEf)
| L_SQ children a s f Qmin Qmax : tuple e attrs "Q-range" inverse_length (10 ^ 10) [Qmin; Qmax] ->
    functor_of e FSQ children f -> of_material (m_coeffs m) a s ->
    leaf_means e m attrs "SQkernel" children (CSQ a s f Qmin Qmax)
| L_SvQ children a s f : functor_of e FSvQ children f -> of_material (m_coeffs m) a s ->
    leaf_means e m attrs "SvQkernel" children (CSvQ a s f)
| L_DGS x y z r tof dtof a s : tuple e attrs "target-position" length_ 1 [x; y; z] -> number e attrs "target-radius" length_ 1 r ->
    number e attrs "tof-at-target" time_ 1 tof -> number e attrs "dtof" time_ 1 dtof -> of_material (m_with_density m) a s ->
    leaf_means e m attrs "DGSSXResKernel" [] (CDGS (mkV x y z) r tof dtof a s).

(* the attribute average *)
Definition averages (attrs : list (string * string)) (b : bool) : Prop :=
  (absent attrs "average" /\ b = false)
  \/ (exists t, has attrs "average" t /\ t <> "" /\ (b = true <-> In (lower t) ["1"; "on"; "yes"; "true"])).

(* an element stands for a kernel *)
Inductive kernel_means (e : env) (m : material) : xml -> ckernel -> Prop :=
| M_leaf tag attrs children c w r : leaf_means e m attrs tag children c -> weight e attrs w -> orientation e attrs r ->
    kernel_means e m (Elem tag attrs children) c
| M_container attrs children cs ws rs b w :
    (forall name t, has attrs name t -> name = "average" \/ name = "weight") -> averages attrs b -> weight e attrs w ->
    Forall2 (kernel_means e m) children cs ->
    Forall2 (fun x w => weight e (attrs_of x) w) children ws ->
    Forall2 (fun x r => orientation e (attrs_of x) r) children rs ->
    kernel_means e m (Elem "KernelContainer" attrs children) (CComp cs ws rs b).

(* the settings of the scatterer *)
Definition setting_means {A : Type} (convert : string -> result A) (attrs : list (string * string)) (name : string) (d x : A) : Prop :=
  (absent attrs name /\ x = d) \/ (exists t, has attrs name t /\ t <> "" /\ convert t = Ok x).
Definition settings_mean (e : env) (int : py_int) (attrs : list (string * string)) (c : csettings) : Prop :=
  (((absent attrs "mcweights" \/ has attrs "mcweights" "") /\ cs_abs c = 0 /\ cs_sct c = 1 /\ cs_trans c = 5 / 100)
   \/ (exists t, has attrs "mcweights" t /\ t <> "" /\ e_parse e t = Ok (Tup [Plain (cs_abs c); Plain (cs_sct c); Plain (cs_trans c)])))
  /\ setting_means int attrs "max_multiplescattering_loops" 5%Z (cs_loops c)
  /\ setting_means (e_float e) attrs "min_neutron_probability" 0 (cs_min c)
  /\ setting_means (e_float e) attrs "packing_factor" 1 (cs_packing c).

(* bin boundaries of [n] bins of one width *)
Definition uniform (b st : R) (n : nat) : list R := map (fun i => b + INR i * st) (seq 0 (S n)).
(* a histogram whose axes are uniform: begin, width of the bins, number of bins for each *)
Definition uniform_hist (h : hist) (axes : list (R * R * nat)) : Prop :=
  map fst (h_axes h) = map (fun a => match a with (b, st, n) => uniform b st n end) axes
  /\ h_shape h = map (fun a => match a with (b, st, n) => n end) axes
  /\ Forall (fun a => match a with (b, st, n) => st <> 0 /\ (1 <= n)%nat end) axes.
(* what reaches the engine: begin, end and step of an axis; the end is past the last boundary by the fraction [margin] of a step *)
Definition engine_axis (margin : R) (a : R * R * nat) : R * R * R := match a with (b, st, n) => (b, b + INR n * st + margin * st, st) end.
(* the mean of Q S(Q,E): one row for each value of Q, all as long *)
Definition sum (l : list R) : R := fold_right Rplus 0 l.
Definition mean_QS (qs : list R) (rows : list (list R)) (ne : nat) : R :=
  sum (map (fun p => fst p * sum (snd p)) (combine qs rows)) / (INR (List.length qs) * INR ne).
