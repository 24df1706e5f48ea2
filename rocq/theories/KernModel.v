(** Model of composite scattering kernels (packages/mccomponents/): lib/homogeneous_scatterer/CompositeScatteringKernel.cc,
    python/mccomponents/homogeneous_scatterer/KernelComputationEngineRenderer.py.

    Doubles are reals.  The random number of select_kernel is an argument [x], in [0,1] with both ends (lib/math/random.cc:34-48);
    [n] is the state of the generator when the sub-kernel is called. *)
From Coq Require Import Reals.
From Verif Require Import Base RotModel ChanModel ShapeModel ScatModel.
Open Scope R_scope.

(* data of CompositeScatteringKernel: CompositeScatteringKernel.h:66-71, CompositeScatteringKernel.cc:22-35; the last is total_scattering_ind, None for -1 *)
Record ckernel := mkC { c_kernels : list kernel; c_average : bool; c_weights : list R; c_rotmats : list mat3; c_total : option nat }.

(* the loop of select_kernel: CompositeScatteringKernel.cc:52-56; [i] is the index reached and [t] the weight so far *)
Fixpoint select_loop (x t : R) (i : nat) (weights : list R) : option nat :=
  match weights with
  | [] => None
  | w :: l => let t := t + w in if Rltb x t then Some i else select_loop x t (S i) l
  end.
(* select_kernel: CompositeScatteringKernel.cc:44-59.  Without kernels the index is -1 and vectors are read there: undefined *)
Definition select_kernel (c : ckernel) (x : R) : result nat :=
  match List.length (c_kernels c) with
  | O => Err UndefinedBehaviour
  | S O => Ok O
  | S n => match select_loop x 0 0 (c_weights c) with Some i => Ok i | None => Ok n end
  end.

(* the loop of the constructor over total_scattering: CompositeScatteringKernel.cc:99-108; [totals] are the answers of the kernels *)
Fixpoint find_total (n_total : nat) (ind : option nat) (i : nat) (totals : list bool) : result (option nat) :=
  match totals with
  | [] => Ok ind
  | b :: l =>
      let n_total := if b then S n_total else n_total in
      let ind := if b then Some i else ind in
      if Nat.ltb 1 n_total then Err CppException else find_total n_total ind (S i) l
  end.
(* x/y for the elements of a vector: CompositeScatteringKernel.cc:116-117 *)
Fixpoint divide_all (ws : list R) (tw : R) : result (list R) :=
  match ws with
  | [] => Ok []
  | w :: l => let! a := divide w tw in let! r := divide_all l tw in Ok (a :: r)
  end.
(* the constructor: CompositeScatteringKernel.cc:83-118; each kernel comes with the answer of its method total_scattering.
   Assertions are taken to be compiled in *)
Definition composite_kernel (kernels : list (kernel * bool)) (weights : list R) (rotmats : list mat3) (average : bool) : result ckernel :=
  if negb (Nat.eqb (List.length kernels) (List.length weights)) then Err AssertionError
  else if negb (Nat.eqb (List.length rotmats) (List.length weights)) then Err AssertionError
  else
    let! total := find_total 0 None 0 (map snd kernels) in
    let tw := fold_left Rplus weights 0 in
    let! ws := divide_all weights tw in
    Ok (mkC (map fst kernels) average ws rotmats total).

(* absorption_coefficient: CompositeScatteringKernel.cc:126-140 *)
Definition composite_absorption (c : ckernel) (ev : event) : result R :=
  divide (fold_left Rplus (map (fun k => k_absorption k ev) (c_kernels c)) 0) (INR (List.length (c_kernels c))).
(* scattering_coefficient: CompositeScatteringKernel.cc:142-160 *)
Definition composite_scattering (c : ckernel) (ev : event) : result R :=
  match c_total c with
  | Some i => match nth_error (c_kernels c) i with Some k => Ok (k_scattering k ev) | None => Err UndefinedBehaviour end
  | None =>
      let ret := fold_left Rplus (map (fun k => k_scattering k ev) (c_kernels c)) 0 in
      if c_average c then divide ret (INR (List.length (c_kernels c))) else Ok ret
  end.

(* tosubkernel and tohostkernel: CompositeScatteringKernel.cc:65-78; only the velocity is turned *)
Definition tosubkernel (ev : event) (m : mat3) : event := mkE (e_r ev) (dot_mv (transpose m) (e_v ev)) (e_s1 ev) (e_s2 ev) (e_t ev) (e_p ev).
(* in the group above: CompositeScatteringKernel.cc:65-78 *)
Definition tohostkernel (ev : event) (m : mat3) : event := mkE (e_r ev) (dot_mv m (e_v ev)) (e_s1 ev) (e_s2 ev) (e_t ev) (e_p ev).
(* the common body of scatter and absorb: CompositeScatteringKernel.cc:162-182; [act] is the method of the sub-kernel that is called *)
Definition delegate (act : kernel -> nat -> event -> event) (c : ckernel) (x : R) (n : nat) (ev : event) : result event :=
  let! index := select_kernel c x in
  match nth_error (c_weights c) index, nth_error (c_rotmats c) index, nth_error (c_kernels c) index with
  | Some w, Some rotmat, Some k =>
      let! p := divide (e_p ev) w in
      let ev1 := tosubkernel (set_p ev p) rotmat in
      Ok (tohostkernel (act k n ev1) rotmat)
  | _, _, _ => Err UndefinedBehaviour
  end.
(* scatter: CompositeScatteringKernel.cc:162-171 *)
Definition composite_scatter : ckernel -> R -> nat -> event -> result event := delegate k_scatter.
(* absorb: CompositeScatteringKernel.cc:173-182 *)
Definition composite_absorb : ckernel -> R -> nat -> event -> result event := delegate k_absorb.

(* the weight handed on for an element, [w or 1.]: KernelComputationEngineRenderer.py:40-51; None when the element has no weight or it is None *)
Definition render_weight (w : option R) : R :=
  match w with None => 1 | Some w => if Req_EM_T w 0 then 1 else w end.
(* the rotation matrix handed on, the identity by default: KernelComputationEngineRenderer.py:54-58 *)
Definition render_rotmat (m : option mat3) : mat3 := match m with Some m => m | None => mkM 1 0 0 0 1 0 0 0 1 end.
(* an element of a CompositeKernel: its kernel rendered, with its total_scattering, the attributes weight and rotmat *)
Record element := mkEl { el_kernel : kernel; el_total : bool; el_weight : option R; el_rotmat : option mat3 }.
(* onCompositeKernel: KernelComputationEngineRenderer.py:30-62; average None counts as false *)
Definition onCompositeKernel (elements : list element) (average : option bool) : result ckernel :=
  composite_kernel (map (fun e => (el_kernel e, el_total e)) elements) (map (fun e => render_weight (el_weight e)) elements)
    (map (fun e => render_rotmat (el_rotmat e)) elements) (match average with Some b => b | None => false end).
