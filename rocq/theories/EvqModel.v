(** A kernel with an excitation at every wave vector: packages/mccomponents/lib/kernels/sample/E_vQ_Kernel.icc.

    Doubles are reals.  Random numbers are arguments in [0,1].  The two functors of the template are functions that throw nothing.  A weight
    that would be inf or nan, from a division by zero, is the error value ZeroDivisionError; the code goes on with such a weight. *)
From Coq Require Import Reals.
From Verif Require Import Base RotModel ChanModel ShapeModel ScatModel UnitModel KinModel PowdModel RootModel.
Open Scope R_scope.

(* ksq2e: E_vQ_Kernel.icc:32 *)
Definition ksq2e : R := k2v * k2v * vsq2e.
(* members: packages/mccomponents/lib/kernels/sample/E_vQ_Kernel.h:61-67, constructor E_vQ_Kernel.icc:98-113 *)
Record evq := mkEvq { q_E : vec3 -> R; q_S : vec3 -> R; q_Emax : R; q_abs : R; q_scatt : R }.
(* the functor E_vq_minus_deltaE, its method evaluate: E_vQ_Kernel.icc:78-90 *)
Definition E_vq_minus_deltaE (E : vec3 -> R) (ukf : vec3) (Ei : R) (vki : vec3) (kf : R) : R :=
  let vkf := vscale kf ukf in
  let vQ := vsub vki vkf in
  let Ef := k2E kf in
  Ei - Ef - E vQ.
(* absorption_coefficient: E_vQ_Kernel.icc:116-123 *)
Definition evq_absorption_coefficient (k : evq) (ev : event) : result R := let! x := divide 2200 (vnorm (e_v ev)) in Ok (q_abs k * x).
(* scattering_coefficient: E_vQ_Kernel.icc:126-134 *)
Definition evq_scattering_coefficient (k : evq) (ev : event) : R := q_scatt k.
(* df_dkf: E_vQ_Kernel.icc:207-208 *)
Definition df_dkf (f : R -> R) (kf dkf : R) : result R :=
  divide (Rabs (- f (kf + 2 * dkf) + 8 * f (kf + dkf) - 8 * f (kf - dkf) + f (kf - 2 * dkf)) / 12) dkf.
(* the list of kf: E_vQ_Kernel.icc:181-185; root_finder(1e-3) and roots_finder(root_finder, 1000): E_vQ_Kernel.icc:48-49.  Ei is not negative, so
   that E2k is not nan *)
Definition kf_list (f : R -> R) (Ei Emax : R) : list R :=
  match E2k (Rmax 0 (Ei - Emax)), E2k Ei with
  | Some min_kf, Some max_kf => find_roots_evenly (ZRidd_solve (1 / 1000)) 1000 min_kf max_kf f
  | _, _ => []
  end.
(* S: E_vQ_Kernel.icc:146-239 *)
Definition evq_scatter (k : evq) (u1 u2 u3 : R) (ev : event) : result kevent :=
  let vvi := e_v ev in
  let vi := vnorm vvi in
  let vki := vscale v2k vvi in
  let ki := vnorm vki in
  let Ei := v2E vi in
  let ukf := choose_direction u1 u2 in
  let eqmd := E_vq_minus_deltaE (q_E k) ukf Ei vki in
  let l := kf_list eqmd Ei (q_Emax k) in
  let nkf := List.length l in
  if Nat.ltb nkf 1 then Ok (as_is ev)
  else
    let index := if Nat.ltb 1 nkf then random_index u3 nkf else 0%nat in
    let kf := nth index l 0 in
    let p := e_p ev * INR nkf in
    let dkf := ki / 200 in
    let! df := df_dkf eqmd kf dkf in
    let! fac := divide (2 * ksq2e * kf) df in
    let p := p * fac in
    let vkf := vscale kf ukf in
    let vQ := vsub vki vkf in
    let E := Ei - k2E kf in
    if Rltb (q_Emax k * (1 / 100000)) (Rabs (E - q_E k vQ)) then Ok (with_pv ev p (Some vvi))
    else
      let vvf := vscale k2v vkf in
      let! kf_over_ki := divide kf (vnorm vki) in
      Ok (with_pv ev (p * (q_S k vQ * kf_over_ki)) (Some vvf)).
