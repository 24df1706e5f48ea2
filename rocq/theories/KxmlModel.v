(** From the XML description of a scatterer to the kernels of the engine.
    Paths are relative to packages/mccomponents/python/mccomponents/: sample/kernelxml/parser/, homogeneous_scatterer/hsxml/parser/,
    sample/ComputationEngineRendererExtension.py (RE below), sample/bindings/BoostPythonBinding.py (BP below), sample/sampleassembly_support.py,
    homogeneous_scatterer/{CompositeKernel,Kernel,HomogeneousScatterer,KernelComputationEngineRenderer}.py.  units_utils.py is
    packages/mccomposite/python/mccomposite/units_utils.py.

    Numbers are real numbers.  What other packages do is an argument (record [env]) or follows their documentation: pyre.xml makes a node at each
    start tag, calls its notify at the end tag, which calls the method of the parent named after the class of the element; pyre.units gives
    quantities that can be added when they have the same kind and whose quotient is then a float; Boost.Python takes a float for a double and
    raises for a quantity or a tuple; the histogram package gives bin boundaries and an array.  A value that is a tuple within a tuple, and a
    string where a number is needed, are [Other].  Kernels of the subpackages phonon, diffraction and sans are not modelled. *)
From Coq Require Import Reals ZArith.
From Verif Require Import Base RotModel ChanModel ShapeModel GridModel.
Open Scope string_scope. Open Scope R_scope.

(** ** Values and units *)

(* the derivation of a pyre unit: powers of length, mass and time; equal derivations can be added, units_utils.py:87, 106 *)
Definition dims := (Z * Z * Z)%type.
(* equality of derivations: units_utils.py:87, 106 *)
Definition dims_eqb (a b : dims) : bool :=
  match a, b with ((l1, m1), t1), ((l2, m2), t2) => (Z.eqb l1 l2 && Z.eqb m1 m2 && Z.eqb t1 t2)%bool end.
(* quotient of derivations: units_utils.py:88, 108 *)
Definition dims_over (a b : dims) : dims :=
  match a, b with ((l1, m1), t1), ((l2, m2), t2) => ((l1 - l2)%Z, (m1 - m2)%Z, (t1 - t2)%Z) end.
(* an element of a value: a float or int; a quantity with its value in SI units; anything else.  units_utils.py:67, 82-83 *)
Inductive pyval := Plain (x : R) | Quant (d : dims) (x : R) | Other.
(* what the parser of pyre.units returns for an attribute: sample/kernelxml/parser/AbstractNode.py:63-64 (_parse) *)
Inductive val := Sc (v : pyval) | Tup (l : list pyval).
(* a unit: its derivation and its value in SI units *)
Definition punit := (dims * R)%type.

(* s+unit does not raise: units_utils.py:87, 106 *)
Definition compatible (s : pyval) (u : punit) : bool := match s with Quant d _ => dims_eqb d (fst u) | _ => false end.
(* s/unit: units_utils.py:88, 108 *)
Definition over (s : pyval) (u : punit) : pyval :=
  match s with
  | Quant d x => if dims_eqb d (fst u) then Plain (x / snd u) else Quant (dims_over d (fst u)) (x / snd u)
  | Plain x => Quant (dims_over (0, 0, 0)%Z (fst u)) (x / snd u)
  | Other => Other
  end.
(* is_unitless_scalar: units_utils.py:82-83 *)
Definition unitless (s : pyval) : bool := match s with Plain _ => true | _ => false end.
(* the loop over v: units_utils.py:112-118 *)
Fixpoint all_floats (v : list pyval) : result (list R) :=
  match v with
  | [] => Ok []
  | Plain x :: v' => let! l := all_floats v' in Ok (x :: l)
  | _ :: _ => Err ValueError
  end.
(* remove_unit of a tuple: units_utils.py:70-72, 77, 93-98 and remove_unit_of_vector: 101-118.  array(v)*1.0 raises TypeError for elements that
   cannot be multiplied *)
Definition remove_units (v : list pyval) (u : punit) : result (list R) :=
  if forallb unitless v then all_floats v
  else if existsb (fun s => match s with Other => true | _ => false end) v then Err TypeError
  else match v with
       | [] => Err ValueError
       | s :: _ => all_floats (if compatible s u then map (fun s' => over s' u) v else v)
       end.
(* remove_unit of a value that becomes a double of the engine: units_utils.py:67-77 and remove_unit_of_scalar: 85-90.  A tuple or an array for a
   double is refused by Boost.Python *)
Definition scalar (v : val) (u : punit) : result R :=
  match v with
  | Sc (Plain x) => Ok x
  | Sc s => if compatible s u then match over s u with Plain x => Ok x | _ => Err TypeError end else Err ValueError
  | Tup l => let! _ := remove_units l u in Err TypeError
  end.
(* remove_unit of a value that is unpacked into two: units_utils.py:67-77, BP 87-88, 175 *)
Definition pair_of (v : val) (u : punit) : result (R * R) :=
  match v with
  | Tup l => let! r := remove_units l u in match r with [a; b] => Ok (a, b) | _ => Err ValueError end
  | Sc s => let! _ := scalar (Sc s) u in Err TypeError
  end.
(* remove_unit of a value that becomes the three arguments of a vector: units_utils.py:67-77, BP 209 *)
Definition vector_of (v : val) (u : punit) : result vec3 :=
  match v with
  | Tup l => let! r := remove_units l u in match r with [a; b; c] => Ok (mkV a b c) | _ => Err TypeError end
  | Sc s => let! _ := scalar (Sc s) u in Err TypeError
  end.

(** ** What comes from elsewhere *)

(* a histogram read from a file: for each axis, in the order of the data, its bin boundaries and bin centres, and the data with its shape, flattened *)
Record hist := mkH { h_axes : list (list R * list R); h_shape : list nat; h_data : list R }.
(* what is known of the material of a scatterer (package sampleassembly; arguments at RE 55-56, 65-66, 97-98, 107-108, 192-193, 216-217, 297-298,
   440-441): (absorption, incoherent, coherent) from compute_absorption_and_scattering_coeffs, from cross_sections with density (all in 1/m) and
   without (in m^2), and the volume of the unit cell in angstrom^3 *)
Record material := mkMat { m_coeffs : R * R * R; m_with_density : R * R * R; m_areas : R * R * R; m_volume : R }.
(* parser of pyre.units (AbstractNode.py:63-66), float() (KernelNode.py:27), eval and reshape of an orientation (KernelNode.py:34-38), readSQE
   (GridSQE.py:25-26), histogram.hdf.load (GridSQE.py:29-31), and the value of units.energy.meV in SI units (RE 37) *)
Record env := mkEnv { e_parse : string -> result val; e_float : string -> result R; e_orientation : string -> result mat3;
                      e_idf : string -> result hist; e_hdf : string -> result hist; e_meV : R }.

(* 1./units.length.meter: RE 162 *)
Definition per_meter : punit := ((-1, 0, 0)%Z, 1).
(* units.length.meter**2: RE 60 *)
Definition square_meter : punit := ((2, 0, 0)%Z, 1).
(* 1./units.length.angstrom: RE 40 *)
Definition per_angstrom : punit := ((-1, 0, 0)%Z, 10 ^ 10).
(* units.energy.meV: RE 37 *)
Definition meV (e : env) : punit := ((2, 1, -2)%Z, e_meV e).
(* units.length.meter: RE 224 *)
Definition meter : punit := ((1, 0, 0)%Z, 1).
(* units.time.second: RE 228 *)
Definition second : punit := ((0, 0, 1)%Z, 1).

(** ** Descriptions *)

(* kwds.get(name), then parsed if it is not empty: IsotropicKernel.py:21-26 *)
Inductive coeff := NoAttr | Empty | Given (v : val).
(* a functor S(Q,E), S(Q) or S(vector Q): GridSQE.py, SQE_fromexpression.py, GridSQ.py, SQ_fromexpression.py, GridSvQ.py of sample/ *)
Inductive functor := FExpr (expression : string) | FGrid (h : hist).
(* the kernels of sample/, with the arguments of their constructors: IsotropicKernel.py, ConstantEnergyTransferKernel.py, ConstantQEKernel.py,
   ConstantvQEKernel.py, E_Q_Kernel.py, Broadened_E_Q_Kernel.py, LorentzianBroadened_E_Q_Kernel.py, E_vQ_Kernel.py, SQEkernel.py,
   SQE_EnergyFocusing_Kernel.py, SQkernel.py, SvQkernel.py, DGSSXResKernel.py.  [a] and [s] are the coefficients (cross sections in
   KSQEF) for absorption and scattering; the kernels without them are made without them by the XML nodes *)
Inductive leaf :=
| KIso (a s : coeff)
| KConstE (E : val) (a s : coeff)
| KConstQE (Q E : val) (a s : coeff)
| KConstvQE (Q E dE : val) (a s : coeff)
| KEQ (E_Q S_Q : string) (Qmin Qmax : val) (a s : coeff)
| KBroad (E_Q S_Q sigma_Q : string) (Qmin Qmax : val) (a s : coeff)
| KLor (E_Q S_Q gamma_Q : string) (Qmin Qmax : val) (a s : coeff)
| KEvQ (E_Q S_Q : string) (Emax : val) (a s : coeff)
| KSQE (Qrange Erange : val) (SQE : option functor)
| KSQEF (a s : coeff) (Qrange Erange Ef dEf : val) (SQE : option functor)
| KSQ (Qrange : val) (SQ : option functor)
| KSvQ (SvQ : option functor)
| KDGS (position radius tof dtof : val).
(* the argument average of CompositeKernel: KernelContainer.py:42-45 *)
Inductive average := ANone | AEmpty | ABool (b : bool).
(* a kernel with its attributes weight, rotmat and scatterer_origin: KernelNode.py:24-40, Kernel.py:20-22; CompositeKernel.py:20-44 *)
Inductive pkernel :=
| Leaf (weight : option R) (rotmat : option mat3) (origin : option material) (k : leaf)
| Comp (weight : option R) (rotmat : option mat3) (a : average) (elements : list pkernel).

(** ** The XML nodes *)

(* an XML element; text is ignored *)
Inductive xml := Elem (tag : string) (attrs : list (string * string)) (children : list xml).
(* attributes.items() as keyword arguments: AbstractNode.py:28-33; the names in an element are different *)
Fixpoint get (name : string) (attrs : list (string * string)) : option string :=
  match attrs with
  | [] => None
  | (k, v) :: l => if String.eqb k name then Some v else get name l
  end.
(* kwds.get(name); if x: x = self._parse(x): IsotropicKernel.py:21-26 *)
Definition optional (e : env) (attrs : list (string * string)) (name : string) : result coeff :=
  match get name attrs with
  | None => Ok NoAttr
  | Some s => if String.eqb s "" then Ok Empty else let! v := e_parse e s in Ok (Given v)
  end.
(* self._parse(kwds[name]): ConstantEnergyTransferKernel.py:25 *)
Definition needed (e : env) (attrs : list (string * string)) (name : string) : result val :=
  match get name attrs with None => Err KeyError | Some s => e_parse e s end.
(* str(kwds[name]): E_Q_Kernel.py:27-28 *)
Definition text (attrs : list (string * string)) (name : string) : result string :=
  match get name attrs with None => Err KeyError | Some s => Ok s end.

(* the methods createKernel of the nodes: IsotropicKernel.py:19-33 and the files named as the tags, in sample/kernelxml/parser/ *)
Definition createKernel (e : env) (tag : string) (attrs : list (string * string)) : result leaf :=
  let coefs := let! a := optional e attrs "absorption_coefficient" in let! s := optional e attrs "scattering_coefficient" in Ok (a, s) in
  if String.eqb tag "IsotropicKernel" then
    let! c := coefs in Ok (KIso (fst c) (snd c))
  else if String.eqb tag "ConstantEnergyTransferKernel" then
    let! E := needed e attrs "energy-transfer" in let! c := coefs in Ok (KConstE E (fst c) (snd c))
  else if String.eqb tag "ConstantQEKernel" then
    let! E := needed e attrs "energy-transfer" in let! Q := needed e attrs "momentum-transfer" in
    let! c := coefs in Ok (KConstQE Q E (fst c) (snd c))
  else if String.eqb tag "ConstantvQEKernel" then
    let! E := needed e attrs "energy-transfer" in let! dE := needed e attrs "dE" in let! Q := needed e attrs "momentum-transfer" in
    let! c := coefs in Ok (KConstvQE Q E dE (fst c) (snd c))
  else if String.eqb tag "E_Q_Kernel" then
    let! E_Q := text attrs "E_Q" in let! S_Q := text attrs "S_Q" in
    let! Qmin := needed e attrs "Qmin" in let! Qmax := needed e attrs "Qmax" in
    let! c := coefs in Ok (KEQ E_Q S_Q Qmin Qmax (fst c) (snd c))
  else if String.eqb tag "Broadened_E_Q_Kernel" then
    let! E_Q := text attrs "E_Q" in let! S_Q := text attrs "S_Q" in let! sigma_Q := text attrs "sigma_Q" in
    let! Qmin := needed e attrs "Qmin" in let! Qmax := needed e attrs "Qmax" in
    let! c := coefs in Ok (KBroad E_Q S_Q sigma_Q Qmin Qmax (fst c) (snd c))
  else if String.eqb tag "LorentzianBroadened_E_Q_Kernel" then
    let! E_Q := text attrs "E_Q" in let! S_Q := text attrs "S_Q" in let! gamma_Q := text attrs "gamma_Q" in
    let! Qmin := needed e attrs "Qmin" in let! Qmax := needed e attrs "Qmax" in
    let! c := coefs in Ok (KLor E_Q S_Q gamma_Q Qmin Qmax (fst c) (snd c))
  else if String.eqb tag "E_vQ_Kernel" then
    let! E_Q := text attrs "E_Q" in let! S_Q := text attrs "S_Q" in let! Emax := needed e attrs "Emax" in
    let! c := coefs in Ok (KEvQ E_Q S_Q Emax (fst c) (snd c))
  else if String.eqb tag "SQEkernel" then
    let! Qr := needed e attrs "Q-range" in let! Er := needed e attrs "energy-range" in Ok (KSQE Qr Er None)
  else if String.eqb tag "SQE_EnergyFocusing_Kernel" then
    let! a := optional e attrs "absorption_cross_section" in let! s := optional e attrs "scattering_cross_section" in
    let! Qr := needed e attrs "Q-range" in let! Er := needed e attrs "energy-range" in
    let! Ef := needed e attrs "Ef" in let! dEf := needed e attrs "dEf" in Ok (KSQEF a s Qr Er Ef dEf None)
  else if String.eqb tag "SQkernel" then
    let! Qr := needed e attrs "Q-range" in Ok (KSQ Qr None)
  else if String.eqb tag "SvQkernel" then Ok (KSvQ None)
  else if String.eqb tag "DGSSXResKernel" then
    let! pos := needed e attrs "target-position" in let! r := needed e attrs "target-radius" in
    let! tof := needed e attrs "tof-at-target" in let! dtof := needed e attrs "dtof" in Ok (KDGS pos r tof dtof)
  else Err KeyError.
(* the weight of KernelNode: KernelNode.py:27-29 *)
Definition node_weight (e : env) (attrs : list (string * string)) : result R :=
  let! w := match get "weight" attrs with
            | None => Ok 1
            | Some s => if String.eqb s "" then Ok 1 else e_float e s
            end in
  if Rleb w 0 then Err ValueError else Ok w.
(* the orientation of KernelNode: KernelNode.py:32-38 *)
Definition node_rotmat (e : env) (attrs : list (string * string)) : result (option mat3) :=
  match get "orientation" attrs with
  | None => Ok None
  | Some s => let! m := e_orientation e s in Ok (Some m)
  end.
(* s.lower() for letters: KernelContainer.py:44, GridSQE.py:46 *)
Definition lower (s : string) : string :=
  let low c := let n := Ascii.nat_of_ascii c in
               if (Nat.leb 65 n && Nat.leb n 90)%bool then Ascii.ascii_of_nat (n + 32) else c in
  (fix go s := match s with EmptyString => EmptyString | String c s => String (low c) (go s) end) s.
(* membership in a list of words: KernelContainer.py:44, GridSQE.py:47-50 *)
Definition word_in (s : string) (l : list string) : bool := existsb (String.eqb s) l.
(* KernelContainer.createKernel and CompositeKernel.__init__: KernelContainer.py:41-47, CompositeKernel.py:20-24.  Any other keyword raises *)
Definition container (attrs : list (string * string)) : result average :=
  if forallb (fun kv => word_in (fst kv) ["average"; "weight"]) attrs then
    match get "average" attrs with
    | None => Ok ANone
    | Some s => if String.eqb s "" then Ok AEmpty else Ok (ABool (word_in (lower s) ["1"; "on"; "yes"; "true"]))
    end
  else Err TypeError.

(* _calcNorm: GridSQE.py:69-77; average of S times Q over the array; rows of the array belong to the bins of Q *)
Fixpoint weigh_rows (qs : list R) (n : nat) (data : list R) : list R :=
  match qs with
  | [] => []
  | q :: l => (map (fun x => x * q) (firstn n data) ++ weigh_rows l n (skipn n data))%list
  end.
(* numpy.average: GridSQE.py:77.  An empty array gives nan: an error here *)
Definition calcNorm (h : hist) : result R :=
  match h_axes h, h_shape h with
  | [(_, qs); _], [_; ne] =>
      let l := weigh_rows qs ne (h_data h) in
      match l with [] => Err ValueError | _ => Ok (fold_left Rplus l 0 / INR (List.length l)) end
  | _, _ => Err TypeError
  end.
(* sqe.I /= norm: GridSQE.py:56-59; a norm of 0 gives nan and inf: an error here *)
Definition normalized (h : hist) : result hist :=
  let! norm := calcNorm h in
  if Rltb (2 / 10) (Rabs (norm - 1)) then
    if Reqb norm 0 then Err ZeroDivisionError else Ok (mkH (h_axes h) (h_shape h) (map (fun x => x / norm) (h_data h)))
  else Ok h.
(* GridSQE.elementFactory: GridSQE.py:21-62; both failures to load are errors.  Missing paths of the other grids make load raise: GridSQ.py:14-24 *)
Definition grid_sqe (e : env) (attrs : list (string * string)) : result functor :=
  let present := fun o => match o with Some s => if String.eqb s "" then None else Some s | None => None end in
  let! h := match present (get "idf-data-path" attrs) with
            | Some p => e_idf e p
            | None => match present (get "histogram-hdf-path" attrs) with Some p => e_hdf e p | None => Err ValueError end
            end in
  let! auto := match present (get "auto-normalization" attrs) with
               | None => Ok false
               | Some s => if word_in (lower s) ["on"; "yes"; "1"; "true"] then Ok true
                           else if word_in (lower s) ["off"; "no"; "0"; "false"] then Ok false else Err ValueError
               end in
  if (auto : bool) then let! h := normalized h in Ok (FGrid h) else Ok (FGrid h).
(* elementFactory of the nodes for functors: SQE_fromexpression.py:24-27, SQ_fromexpression.py:14-17, GridSQ.py:14-27, GridSvQ.py:11-23.
   str(None) is "None", here or in BP 55, 160 *)
Definition createFunctor (e : env) (tag : string) (attrs : list (string * string)) : result functor :=
  if word_in tag ["SQE_fromexpression"; "SQ_fromexpression"] then
    Ok (FExpr (match get "expression" attrs with Some s => s | None => "None" end))
  else if String.eqb tag "GridSQE" then grid_sqe e attrs
  else let! h := match get "histogram-hdf-path" attrs with Some p => e_hdf e p | None => Err TypeError end in Ok (FGrid h).

(* what a node is building; the class of the element decides which method of the parent is called *)
Inductive item := IKernel (cls : string) (k : pkernel) | IFunctor (cls : string) (f : functor).
(* the tags of kernels that are leaves: sample/kernelxml/parser/Document.py:15-26 *)
Definition leaf_tags : list string :=
  ["SQEkernel"; "SQE_EnergyFocusing_Kernel"; "SQkernel"; "SvQkernel"; "ConstantEnergyTransferKernel"; "ConstantQEKernel"; "ConstantvQEKernel";
   "E_Q_Kernel"; "Broadened_E_Q_Kernel"; "LorentzianBroadened_E_Q_Kernel"; "E_vQ_Kernel"; "IsotropicKernel"; "DGSSXResKernel"].
(* the tags of functors: Document.py:15, 17, 18 *)
Definition functor_tags : list string := ["GridSQE"; "SQE_fromexpression"; "GridSQ"; "SQ_fromexpression"; "GridSvQ"].
(* the constructor of a node: AbstractNode.py:25-35, KernelNode.py:24-40; a tag for which there is no node is an error *)
Definition start (e : env) (tag : string) (attrs : list (string * string)) : result item :=
  if word_in tag leaf_tags then
    let! k := createKernel e tag attrs in
    let! w := node_weight e attrs in
    let! m := node_rotmat e attrs in
    Ok (IKernel tag (Leaf (Some w) m None k))
  else if String.eqb tag "KernelContainer" then
    let! a := container attrs in
    let! w := node_weight e attrs in
    let! m := node_rotmat e attrs in
    Ok (IKernel "CompositeKernel" (Comp (Some w) m a []))
  else if word_in tag functor_tags then let! f := createFunctor e tag attrs in Ok (IFunctor tag f)
  else Err KeyError.
(* the methods on... of the nodes: SQEkernel.py:34-38, SQE_EnergyFocusing_Kernel.py:38-42, SQkernel.py:20-24, SvQkernel.py:17-23,
   KernelContainer.py:23-38 (methods missing end in a bare raise: RuntimeError); the other nodes have none: AttributeError *)
Definition receive (it child : item) : result item :=
  match it, child with
  | IKernel cls (Comp w m a es), IKernel _ k => Ok (IKernel cls (Comp w m a (es ++ [k])%list))
  | IKernel cls (Comp w m a es), IFunctor _ _ => Err RuntimeError
  | IKernel cls (Leaf w m o (KSQE Qr Er f)), IFunctor c f' =>
      if word_in c ["SQE_fromexpression"; "GridSQE"] then Ok (IKernel cls (Leaf w m o (KSQE Qr Er (Some f')))) else Err AttributeError
  | IKernel cls (Leaf w m o (KSQEF a s Qr Er Ef dEf f)), IFunctor c f' =>
      if word_in c ["SQE_fromexpression"; "GridSQE"] then Ok (IKernel cls (Leaf w m o (KSQEF a s Qr Er Ef dEf (Some f'))))
      else Err AttributeError
  | IKernel cls (Leaf w m o (KSQ Qr f)), IFunctor c f' =>
      if word_in c ["SQ_fromexpression"; "GridSQ"] then Ok (IKernel cls (Leaf w m o (KSQ Qr (Some f')))) else Err AttributeError
  | IKernel cls (Leaf w m o (KSvQ f)), IFunctor c f' =>
      if word_in c ["GridSvQ"] then Ok (IKernel cls (Leaf w m o (KSvQ (Some f')))) else Err AttributeError
  | _, _ => Err AttributeError
  end.
(* an element and what is inside it: pyre.xml *)
Fixpoint parse_elem (e : env) (x : xml) : result item :=
  match x with
  | Elem tag attrs children =>
      let! it := start e tag attrs in
      (fix inside (it : item) (cs : list xml) : result item :=
         match cs with
         | [] => Ok it
         | c :: cs => let! i := parse_elem e c in let! it := receive it i in inside it cs
         end) it children
  end.

(** ** The scatterer *)

(* the node homogeneous_scatterer: _mcweights, _max_multiplescattering_loops, _min_neutron_probability, _packing_factor as arguments of the
   scatterer, and _kernel: hsxml/parser/HomogeneousScatterer.py:25-87.  An attribute that is empty stays an empty string *)
Inductive setting (A : Type) := Unset | EmptyText | Set_ (x : A).
Arguments Unset {A}. Arguments EmptyText {A}. Arguments Set_ {A} x.
(* x = attributes.get(name); if x: x = convert(x): hsxml/parser/HomogeneousScatterer.py:40-53 *)
Definition setting_of {A : Type} (convert : string -> result A) (attrs : list (string * string)) (name : string) : result (setting A) :=
  match get name attrs with
  | None => Ok Unset
  | Some s => if String.eqb s "" then Ok EmptyText else let! x := convert s in Ok (Set_ x)
  end.
(* mcweights: hsxml/parser/HomogeneousScatterer.py:29-37; mcweights[2] of a tuple that is too short raises IndexError, of a number TypeError *)
Definition mcweights_of (e : env) (attrs : list (string * string)) : result (list pyval) :=
  let default := [Plain 0; Plain 1; Plain (5 / 100)] in
  match get "mcweights" attrs with
  | None => Ok default
  | Some s =>
      if String.eqb s "" then Ok default
      else let! v := e_parse e s in
           match v with
           | Sc _ => Err TypeError
           | Tup l => match nth_error l 2 with None => Err IndexError | Some _ => Ok l end
           end
  end.
(* int() as an argument of its own: hsxml/parser/HomogeneousScatterer.py:41 *)
Definition py_int := string -> result Z.
(* a homogeneous scatterer: HomogeneousScatterer.py:20-44; a setting that is None gets its default *)
Record pscatterer := mkPS { ps_kernel : pkernel; ps_weights : list pyval; ps_loops : setting Z; ps_min : setting R; ps_packing : setting R }.
(* 5 if x is None else x: HomogeneousScatterer.py:40-42 *)
Definition or_default {A : Type} (x : setting A) (d : A) : setting A := match x with Unset => Set_ d | _ => x end.
(* the children of the node: onKernel and its aliases: hsxml/parser/HomogeneousScatterer.py:90-96, kernelxml/parser/HomogeneousScatterer.py:19-27.
   A functor has no method there *)
Fixpoint scatterer_children (e : env) (kernel : option pkernel) (cs : list xml) : result (option pkernel) :=
  match cs with
  | [] => Ok kernel
  | c :: cs =>
      let! i := parse_elem e c in
      match i with IKernel _ k => scatterer_children e (Some k) cs | IFunctor _ _ => Err AttributeError end
  end.
(* a document with a root homogeneous_scatterer: hsxml/parser/HomogeneousScatterer.py:25-87.  Elements for shapes and for the absorption are left
   out.  Without a kernel self._kernel raises AttributeError *)
Definition parse_scatterer (e : env) (int : py_int) (x : xml) : result pscatterer :=
  match x with
  | Elem tag attrs children =>
      if negb (String.eqb tag "homogeneous_scatterer") then Err KeyError
      else
        let! w := mcweights_of e attrs in
        let! mml := setting_of int attrs "max_multiplescattering_loops" in
        let! mnp := setting_of (e_float e) attrs "min_neutron_probability" in
        let! pf := setting_of (e_float e) attrs "packing_factor" in
        let! k := scatterer_children e None children in
        match k with
        | None => Err AttributeError
        | Some k => Ok (mkPS k w (or_default mml 5%Z) (or_default mnp 0) (or_default pf 1))
        end
  end.
(* setScattererOrigin: Kernel.py:20-22, CompositeKernel.py:38-42 *)
Fixpoint set_origin (o : material) (k : pkernel) : pkernel :=
  match k with
  | Leaf w m _ k => Leaf w m (Some o) k
  | Comp w m a es => Comp w m a (map (set_origin o) es)
  end.
(* FindKernelsFromXMLs.onHomogeneousScatterer: sampleassembly_support.py:108-135; the settings of the scatterer are taken over *)
Definition findkernel (e : env) (int : py_int) (o : material) (x : xml) : result pscatterer :=
  let! s := parse_scatterer e int x in
  Ok (mkPS (set_origin o (ps_kernel s)) (ps_weights s) (ps_loops s) (ps_min s) (ps_packing s)).

(** ** The engine *)

(* the functors of the engine: SQE_fromexpression, GridSQE and so on, BP 25-56, 95-161.  Of a grid, for each axis begin, end and step, and the values *)
Inductive cfunctor := CExpr (expression : string) | CGrid (axes : list (R * R * R)) (values : list R).
(* the kernels of the engine, with the arguments of their constructors: BP 58-92, 164-334; homogeneous_scatterer/bindings/BoostPythonBinding.py:35-37 *)
Inductive ckernel :=
| CIso (a s : R)
| CConstE (E a s : R)
| CConstQE (Q E a s : R)
| CConstvQE (Q : vec3) (E dE a s : R)
| CEQ (E_Q S_Q : string) (Qmin Qmax a s : R)
| CBroad (E_Q S_Q sigma_Q : string) (Qmin Qmax a s : R)
| CLor (E_Q S_Q gamma_Q : string) (Qmin Qmax a s : R)
| CEvQ (E_Q S_Q : string) (Emax a s : R)
| CSQE (a s vol : R) (f : cfunctor) (Qmin Qmax Emin Emax : R)
| CSQEF (a s vol : R) (f : cfunctor) (Qmin Qmax Emin Emax Ef dEf : R)
| CSQ (a s : R) (f : cfunctor) (Qmin Qmax : R)
| CSvQ (a s : R) (f : cfunctor)
| CDGS (position : vec3) (radius tof dtof a s : R)
| CComp (kernels : list ckernel) (weights : list R) (rotmats : list mat3) (average : bool).

(* origin = t.scatterer_origin: RE 54, 439 *)
Definition origin_of (o : option material) : result material := match o with Some m => Ok m | None => Err AttributeError end.
(* abs, sctt = inc + coh: RE 56-57, 441-442 *)
Definition abs_sctt (x : R * R * R) : R * R := match x with (abs, inc, coh) => (abs, inc + coh) end.
(* the coefficients of a kernel: those given when there are both, otherwise all from the material: RE 156-162 and the like; [pick] is what is taken
   of the material *)
Definition coefficients (o : option material) (pick : material -> R * R * R) (a s : coeff) (u : punit) : result (R * R) :=
  match a, s with
  | NoAttr, _ | _, NoAttr => let! m := origin_of o in Ok (abs_sctt (pick m))
  | _, _ =>
      let elem := fun c => match c with Given (Sc v) => v | _ => Other end in
      let! l := remove_units [elem a; elem s] u in
      match l with [x; y] => Ok (x, y) | _ => Err TypeError end
  end.
(* abs is None and sctt is None ... elif: RE 85-103 *)
Definition both_or_none (o : option material) (a s : coeff) : result (R * R) :=
  match a, s with
  | NoAttr, NoAttr => let! m := origin_of o in Ok (abs_sctt (m_areas m))
  | NoAttr, _ | _, NoAttr => Err RuntimeError
  | _, _ => coefficients o m_areas a s square_meter
  end.
(* unitcell_vol: RE 62-68 *)
Definition cell_volume (o : option material) : result R := let! m := origin_of o in Ok (m_volume m * / 10 ^ 30).

(* binBoundaries()[0], [-1], [1]-[0]: RE 12-13 *)
Definition begin_end_step (bb : list R) : result (R * R * R) :=
  match bb with
  | b0 :: b1 :: _ => Ok (b0, last bb 0, b1 - b0)
  | _ => Err IndexError
  end.
(* shape[i] == int((end-begin)/step + shift), with end moved by [margin] steps: RE 23-26, 127-129, 142, BP 36-39, 108-111, 141.  A step of 0 gives inf
   or nan, for which int raises *)
Definition axis_ok (margin shift : R) (ax : R * R * R) (n : nat) : result bool :=
  match ax with
  | (b, e, st) => if Reqb st 0 then Err ValueError else Ok (Z.eqb (Z.of_nat n) (truncZ ((e + margin * st - b) / st + shift)))
  end.
(* all axes of a grid: RE 9-26, 117-143, BP 25-50, 95-131, 133-154; [margin] and [shift] as above *)
Fixpoint grid_axes (margin shift : R) (axes : list (list R)) (shape : list nat) : result (list (R * R * R)) :=
  match axes, shape with
  | [], [] => Ok []
  | bb :: axes, n :: shape =>
      let! ax := begin_end_step bb in
      let! ok := axis_ok margin shift ax n in
      if (ok : bool) then
        let! l := grid_axes margin shift axes shape in
        match ax with (b, e, st) => Ok ((b, e + margin * st, st) :: l) end
      else Err AssertionError
  | _, _ => Err AssertionError
  end.
(* which functor: the number of axes, the margin and the shift: GridSQE RE 9-26, BP 34-39; GridSQ RE 133-143, BP 139-141; GridSvQ RE 117-130, BP 106-111 *)
Inductive fkind := FSQE | FSQ | FSvQ.
(* number of axes, margin, shift: as above *)
Definition fdim (k : fkind) : nat := match k with FSQE => 2 | FSQ => 1 | FSvQ => 3 end.
(* GridSQE RE 9-26, BP 34-39; GridSQ RE 133-143, BP 139-141; GridSvQ RE 117-130, BP 106-111 *)
Definition fmargin (k : fkind) : R := match k with FSQE => 5 / 10 | FSQ => 1 / 100 | FSvQ => 1 / 10 end.
(* GridSQE RE 9-26, BP 34-39; GridSQ RE 133-143, BP 139-141; GridSvQ RE 117-130, BP 106-111 *)
Definition fshift (k : fkind) : R := match k with FSQE => 0 | FSQ | FSvQ => 5 / 10 end.
(* onGridSQE and the like: RE 9-30, 117-148; None has no identify *)
Definition render_functor (k : fkind) (f : option functor) : result cfunctor :=
  match f with
  | None => Err AttributeError
  | Some (FExpr s) => Ok (CExpr s)
  | Some (FGrid h) =>
      if negb (Nat.eqb (List.length (h_axes h)) (fdim k)) then Err AssertionError
      else let! l := grid_axes (fmargin k) (fshift k) (map fst (h_axes h)) (h_shape h) in Ok (CGrid l (h_data h))
  end.
(* Q[0], Q[1], Q[2] without removal of units: RE 275, BP 332-334; a quantity is refused by Boost.Python *)
Definition plain_vector (v : val) : result vec3 :=
  match v with
  | Tup (Plain a :: Plain b :: Plain c :: _) => Ok (mkV a b c)
  | Tup (_ :: _ :: _ :: _) => Err TypeError
  | Tup _ => Err IndexError
  | Sc _ => Err TypeError
  end.

(* the methods on... for the kernels: RE 32-419, and of the binding: BP 58-92, 164-334 *)
Definition render_leaf (e : env) (o : option material) (k : leaf) : result ckernel :=
  match k with
  | KIso a s => let! c := coefficients o m_with_density a s per_meter in Ok (CIso (fst c) (snd c))
  | KConstE E a s =>
      let! c := coefficients o m_coeffs a s per_meter in
      let! E := scalar E (meV e) in Ok (CConstE E (fst c) (snd c))
  | KConstQE Q E a s =>
      let! c := coefficients o m_coeffs a s per_meter in
      let! Q := scalar Q per_angstrom in let! E := scalar E (meV e) in Ok (CConstQE Q E (fst c) (snd c))
  | KConstvQE Q E dE a s =>
      let! c := coefficients o m_coeffs a s per_meter in
      let! E := scalar E (meV e) in let! dE := scalar dE (meV e) in
      let! Q := plain_vector Q in Ok (CConstvQE Q E dE (fst c) (snd c))
  | KEQ E_Q S_Q Qmin Qmax a s =>
      let! c := coefficients o m_with_density a s per_meter in
      let! Qmin := scalar Qmin per_angstrom in let! Qmax := scalar Qmax per_angstrom in Ok (CEQ E_Q S_Q Qmin Qmax (fst c) (snd c))
  | KBroad E_Q S_Q sigma_Q Qmin Qmax a s =>
      let! c := coefficients o m_with_density a s per_meter in
      let! Qmin := scalar Qmin per_angstrom in let! Qmax := scalar Qmax per_angstrom in
      Ok (CBroad E_Q S_Q sigma_Q Qmin Qmax (fst c) (snd c))
  | KLor E_Q S_Q gamma_Q Qmin Qmax a s =>
      let! c := coefficients o m_with_density a s per_meter in
      let! Qmin := scalar Qmin per_angstrom in let! Qmax := scalar Qmax per_angstrom in
      Ok (CLor E_Q S_Q gamma_Q Qmin Qmax (fst c) (snd c))
  | KEvQ E_Q S_Q Emax a s =>
      let! c := coefficients o m_with_density a s per_meter in
      let! Emax := scalar Emax (meV e) in Ok (CEvQ E_Q S_Q Emax (fst c) (snd c))
  | KSQE Qr Er f =>
      let! Er := pair_of Er (meV e) in let! Qr := pair_of Qr per_angstrom in
      let! f := render_functor FSQE f in
      let! c := coefficients o m_areas NoAttr NoAttr square_meter in
      let! vol := cell_volume o in
      Ok (CSQE (fst c) (snd c) vol f (fst Qr) (snd Qr) (fst Er) (snd Er))
  | KSQEF a s Qr Er Ef dEf f =>
      let! Er := pair_of Er (meV e) in let! Qr := pair_of Qr per_angstrom in
      let! Ef := scalar Ef (meV e) in let! dEf := scalar dEf (meV e) in
      let! f := render_functor FSQE f in
      let! c := both_or_none o a s in
      let! vol := cell_volume o in
      Ok (CSQEF (fst c) (snd c) vol f (fst Qr) (snd Qr) (fst Er) (snd Er) Ef dEf)
  | KSQ Qr f =>
      let! Qr := pair_of Qr per_angstrom in
      let! f := render_functor FSQ f in
      let! c := coefficients o m_coeffs NoAttr NoAttr per_meter in
      Ok (CSQ (fst c) (snd c) f (fst Qr) (snd Qr))
  | KSvQ f =>
      let! f := render_functor FSvQ f in
      let! c := coefficients o m_coeffs NoAttr NoAttr per_meter in
      Ok (CSvQ (fst c) (snd c) f)
  | KDGS pos r tof dtof =>
      let! c := coefficients o m_with_density NoAttr NoAttr per_meter in
      let! pos := vector_of pos meter in let! r := scalar r meter in
      let! tof := scalar tof second in let! dtof := scalar dtof second in
      Ok (CDGS pos r tof dtof (fst c) (snd c))
  end.
(* w or 1.: KernelComputationEngineRenderer.py:41-52 *)
Definition render_weight (w : option R) : R := match w with None => 1 | Some w => if Reqb w 0 then 1 else w end.
(* the identity unless there is a matrix: KernelComputationEngineRenderer.py:54-59 *)
Definition render_rotmat (m : option mat3) : mat3 := match m with Some m => m | None => mkM 1 0 0 0 1 0 0 0 1 end.
(* weight and rotmat of a kernel: KernelNode.py:30, 39 *)
Definition weight_of (k : pkernel) : option R := match k with Leaf w _ _ _ | Comp w _ _ _ => w end.
(* in the group above: KernelNode.py:30, 39 *)
Definition rotmat_of (k : pkernel) : option mat3 := match k with Leaf _ m _ _ | Comp _ m _ _ => m end.
(* render a kernel; onCompositeKernel: KernelComputationEngineRenderer.py:30-62.  For the argument average Boost.Python takes None as false and
   refuses a string *)
Fixpoint render (e : env) (k : pkernel) : result ckernel :=
  match k with
  | Leaf _ _ o k => render_leaf e o k
  | Comp _ _ a es =>
      let! cs := (fix each (es : list pkernel) : result (list ckernel) :=
                    match es with [] => Ok [] | k :: es => let! c := render e k in let! l := each es in Ok (c :: l) end) es in
      let! b := match a with ANone => Ok false | ABool b => Ok b | AEmpty => Err TypeError end in
      Ok (CComp cs (map (fun k => render_weight (weight_of k)) es) (map (fun k => render_rotmat (rotmat_of k)) es) b)
  end.
(* the settings of the engine: KernelComputationEngineRenderer.py:72-84, homogeneous_scatterer/bindings/BoostPythonBinding.py:44-58.  A string or a
   quantity is refused, and so is any other number of weights than three *)
Record csettings := mkCS { cs_abs : R; cs_sct : R; cs_trans : R; cs_loops : Z; cs_min : R; cs_packing : R }.
(* a value for a property of the engine: bindings/BoostPythonBinding.py:54-56 *)
Definition set_value {A : Type} (x : setting A) : result A := match x with Set_ v => Ok v | _ => Err TypeError end.
(* homogeneousscatterer of the binding: bindings/BoostPythonBinding.py:44-58 *)
Definition settings_of (s : pscatterer) : result csettings :=
  match ps_weights s with
  | [Plain a; Plain b; Plain c] =>
      let! mml := set_value (ps_loops s) in
      let! mnp := set_value (ps_min s) in
      let! pf := set_value (ps_packing s) in
      Ok (mkCS a b c mml mnp pf)
  | _ => Err TypeError
  end.
(* the engine of a scatterer whose material is [o], from its XML file: sampleassembly_support.py:108-135,
   KernelComputationEngineRenderer.py:65-84; without the shape and the calculator of absorption *)
Definition engine (e : env) (int : py_int) (o : material) (x : xml) : result (ckernel * csettings) :=
  let! s := findkernel e int o x in
  let! k := render e (ps_kernel s) in
  let! c := settings_of s in
  Ok (k, c).
