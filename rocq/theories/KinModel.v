(** Model of scattering kernels (packages/mccomponents/lib/kernels/): KernelBase.h, sample/{SQEkernel,SQkernel,SQE_EnergyFocusing_Kernel,
    ConstantEnergyTransferKernel,ConstantQEKernel,ConstantvQEKernel,SvQkernel}.cc, sample/{E_Q_Kernel,Broadened_E_Q_Kernel,
    LorentzianBroadened_E_Q_Kernel}.icc, sample/phonon/IncoherentElastic.cc; and of mccomponents/lib/math/random/geometry.cc.

    Doubles are reals; mcni::PI is pi.  Random numbers are arguments in [0,1], both ends included (see ScatModel).  A velocity that is nan is
    None; a weight that would be inf or nan is an error value of the model. *)
From Coq Require Import Reals.
From Verif Require Import Base RotModel ChanModel ShapeModel ScatModel UnitModel.
Open Scope R_scope.

(* the event after a method S: what is written are the velocity and the probability; None is a velocity with nan *)
Record kevent := mkKE { k_r : vec3; k_v : option vec3; k_s1 : R; k_s2 : R; k_t : R; k_p : R }.
(* the event as it was *)
Definition as_is (ev : event) : kevent := mkKE (e_r ev) (Some (e_v ev)) (e_s1 ev) (e_s2 ev) (e_t ev) (e_p ev).
(* new velocity and probability: ev.probability = ..., ev.state.velocity = ... *)
Definition with_pv (ev : event) (p : R) (v : option vec3) : kevent := mkKE (e_r ev) v (e_s1 ev) (e_s2 ev) (e_t ev) p.

(* scatter: KernelBase.h:41-62; [sigma] is scattering_coefficient, called after S has changed the event *)
Definition base_scatter (sigma : kevent -> R) (S : event -> result kevent) (ev : event) : result kevent :=
  let! o := S ev in
  let o := match k_v o with
           | None => if Rleb 0 (k_p o) then mkKE (k_r o) None (k_s1 o) (k_s2 o) (k_t o) (-1) else o
           | Some _ => o
           end in
  Ok (if Rltb 0 (k_p o) then mkKE (k_r o) (k_v o) (k_s1 o) (k_s2 o) (k_t o) (k_p o * sigma o) else o).

(* Vector3::normalize: packages/mcni/lib/geometry/Vector3.icc:52-58; nan for the zero vector *)
Definition normalize (v : vec3) : option vec3 := if Req_EM_T (vnorm v) 0 then None else Some (vscale (1 / vnorm v) v).
(* axes around the incident direction e1, kernels with e2 = (1,0,0) for directions near the z axis: SQEkernel.cc:124-138, SQkernel.cc:101-115,
   SQE_EnergyFocusing_Kernel.cc:112-125, E_Q_Kernel.icc:185-197, IncoherentElastic.cc:148-160 *)
Definition axes_fixed (eps : R) (v : vec3) : option (vec3 * vec3 * vec3) :=
  match normalize v with
  | None => None
  | Some e1 =>
      match (if (Rltb eps (Rabs (vx e1)) || Rltb eps (Rabs (vy e1)))%bool then normalize (vcross (mkV 0 0 1) e1) else Some (mkV 1 0 0)) with
      | None => None
      | Some e2 => Some (e1, e2, vcross e1 e2)
      end
  end.
(* the same, kernels with e2 = (1,0,0) x e1 there: ConstantQEKernel.cc:106-118, Broadened_E_Q_Kernel.icc:210-222 *)
Definition axes_cross (eps : R) (v : vec3) : option (vec3 * vec3 * vec3) :=
  match normalize v with
  | None => None
  | Some e1 =>
      match (if (Rltb eps (Rabs (vx e1)) || Rltb eps (Rabs (vy e1)))%bool then normalize (vcross (mkV 0 0 1) e1) else normalize (vcross (mkV 1 0 0) e1)) with
      | None => None
      | Some e2 => Some (e1, e2, vcross e1 e2)
      end
  end.
(* the direction with polar angle cost, sint and azimuth phi: SQEkernel.cc:115-121, 140 and the same lines of the other kernels *)
Definition turned (axes : option (vec3 * vec3 * vec3)) (cost sint phi : R) : option vec3 :=
  match axes with
  | None => None
  | Some (e1, e2, e3) => Some (vadd (vadd (vscale cost e1) (vscale (cos phi) (vscale sint e2))) (vscale (sin phi) (vscale sint e3)))
  end.
(* sint is sqrt(1-cost*cost), nan if this is negative: SQEkernel.cc:117, ConstantQEKernel.cc:92 *)
Definition turned_by (axes : option (vec3 * vec3 * vec3)) (cost phi : R) : option vec3 :=
  match fsqrt (1 - cost * cost) with None => None | Some sint => turned axes cost sint phi end.

(* pi of physics/constants.h:26 *)
Definition physics_pi : R := 31415926535897 / 10 ^ 13.
(* members of SQEkernel, SQE_EnergyFocusing_Kernel: SQEkernel.h:50-58, SQE_EnergyFocusing_Kernel.h:42-49 *)
Record sqe := mkSQE { m_sqe : R -> R -> R; m_Qmin : R; m_Qmax : R; m_Emin : R; m_Emax : R }.
(* from the choice of the energy transfer on: SQEkernel.cc:92-141, SQE_EnergyFocusing_Kernel.cc:84-127; m_epsilon is 1e-10.
   E2k gives nan only for random numbers above 1 *)
Definition sqe_body (m : sqe) (Emin Emax ki Ei : R) (u1 u2 u3 : R) (ev : event) : result kevent :=
  let E := random u1 Emin Emax in
  let Ef := Ei - E in
  match E2k Ef with
  | None => Err UndefinedBehaviour
  | Some kf =>
      let Qmin := Rmax (m_Qmin m) (Rabs (ki - kf)) in
      let Qmax := Rmin (m_Qmax m) (ki + kf) in
      if Rltb Qmax Qmin then Ok (as_is ev)
      else
        let Q := random u2 Qmin Qmax in
        let! f := divide (m_sqe m Q E * Q * (Qmax - Qmin) * (Emax - Emin)) (2 * ki * ki) in
        let v := if Req_EM_T kf 0 then None
                 else match turned_by (axes_fixed (1 / 10 ^ 10) (e_v ev)) ((kf * kf + ki * ki - Q * Q) / 2 / kf / ki) (random u3 0 (2 * physics_pi)) with
                      | None => None
                      | Some ekf => Some (vscale (kf * k2v) ekf)
                      end in
        Ok (with_pv ev (e_p ev * f) v)
  end.
(* SQEkernel::S: SQEkernel.cc:75-143 *)
Definition SQE_S (m : sqe) (u1 u2 u3 : R) (ev : event) : result kevent :=
  let vi := vnorm (e_v ev) in
  let Ei := v2E vi in let ki := v2k * vi in
  if Rltb Ei (m_Emin m) then Ok (as_is ev)
  else sqe_body m (m_Emin m) (Rmin Ei (m_Emax m)) ki Ei u1 u2 u3 ev.
(* SQE_EnergyFocusing_Kernel::S: SQE_EnergyFocusing_Kernel.cc:64-128 *)
Definition SQE_focusing_S (m : sqe) (m_Ef m_dEf : R) (u1 u2 u3 : R) (ev : event) : result kevent :=
  let vi := vnorm (e_v ev) in
  let Ei := v2E vi in let ki := v2k * vi in
  let Emin1 := Ei - (m_Ef + m_dEf) in let Emax1 := Ei - (m_Ef - m_dEf) in
  if Rltb Ei (m_Emin m) then Ok (as_is ev)
  else sqe_body m (Rmax (m_Emin m) Emin1) (Rmin Emax1 (Rmin Ei (m_Emax m))) ki Ei u1 u2 u3 ev.
(* SQkernel::S: SQkernel.cc:59-118 *)
Definition SQ_S (m_sq : R -> R) (m_Qmin m_Qmax : R) (u1 u2 : R) (ev : event) : result kevent :=
  let vi := vnorm (e_v ev) in
  let ki := v2k * vi in let kf := ki in
  let Qmin := Rmax m_Qmin 0 in
  let Qmax := Rmin m_Qmax (ki + kf) in
  if Rltb Qmax Qmin then Ok (as_is ev)
  else
    let Q := random u1 Qmin Qmax in
    let! f := divide (m_sq Q * Q * (Qmax - Qmin)) (2 * ki * ki) in
    let v := match turned_by (axes_fixed (1 / 10 ^ 10) (e_v ev)) ((kf * kf + ki * ki - Q * Q) / 2 / kf / ki) (random u2 0 (2 * physics_pi)) with
             | None => None
             | Some ekf => Some (vscale (kf * k2v) ekf)
             end in
    Ok (with_pv ev (e_p ev * f) v).

(* choose_direction: geometry.cc:64-78 *)
Definition choose_direction (u1 u2 : R) : vec3 :=
  let costheta := random u1 (-1) 1 in
  let theta := acos costheta in
  let sintheta := sin theta in
  let phi := random u2 0 (2 * PI) in
  mkV (sintheta * cos phi) (sintheta * sin phi) costheta.
(* ConstantEnergyTransferKernel::S: ConstantEnergyTransferKernel.cc:75-108 *)
Definition ConstantE_S (m_E : R) (u1 u2 : R) (ev : event) : result kevent :=
  let Ef := v2E (vnorm (e_v ev)) - m_E in
  match E2v Ef with
  | None => Ok (with_pv ev (-1) (Some (e_v ev)))
  | Some vf => Ok (with_pv ev (e_p ev) (option_map (vscale vf) (normalize (choose_direction u1 u2))))
  end.
(* ConstantQEKernel::S: ConstantQEKernel.cc:75-126; m_epsilon is 0.1.  With 2*ki*kf = 0 cost is inf or nan, sint nan *)
Definition ConstantQE_S (m_Q m_E : R) (u : R) (ev : event) : result kevent :=
  let vi := vnorm (e_v ev) in
  let Ef := v2E vi - m_E in
  let v := match E2v Ef with
           | None => None
           | Some vf =>
               let ki := v2k * vi in let kf := v2k * vf in
               if Req_EM_T (2 * ki * kf) 0 then None
               else option_map (vscale vf) (turned_by (axes_cross (1 / 10) (e_v ev)) ((ki * ki + kf * kf - m_Q * m_Q) / (2 * ki * kf)) (random u 0 (PI * 2)))
           end in
  Ok (with_pv ev (e_p ev) v).
(* ConstantvQEKernel::S: ConstantvQEKernel.cc:70-98; m_dE = 0 gives weight 0, or nan at the exact energy *)
Definition ConstantvQE_S (m_Q : vec3) (m_E m_dE : R) (ev : event) : result kevent :=
  let Ei := v2E (vnorm (e_v ev)) in
  let ki := vscale v2k (e_v ev) in
  let kf := vsub ki m_Q in
  let vf := vscale k2v kf in
  let Ef := v2E (vnorm vf) in
  let E := Ei - Ef in
  let! t := divide (E - m_E) m_dE in
  Ok (with_pv ev (e_p ev * exp (- t * t / 2)) (Some vf)).
(* SvQkernel::S: SvQkernel.cc:47-81 *)
Definition SvQ_S (m_sq : vec3 -> R) (u1 u2 : R) (ev : event) : result kevent :=
  let vi := vnorm (e_v ev) in
  let ki := vscale v2k (e_v ev) in
  let costheta := random u1 (-1) 1 in
  let t := 1 - costheta * costheta in
  let sintheta := if Rltb t 0 then 0 else sqrt t in
  let phi := random u2 0 (2 * PI) in
  let vf := mkV (vi * sintheta * cos phi) (vi * sintheta * sin phi) (vi * costheta) in
  let Q := vsub ki (vscale v2k vf) in
  Ok (with_pv ev (e_p ev * m_sq Q) (Some vf)).
(* IncoherentElastic::S: phonon/IncoherentElastic.cc:131-170; m_epsilon is 1e-4 *)
Definition IncoherentElastic_S (m_dw_core : R) (u1 u2 : R) (ev : event) : result kevent :=
  let vi := vnorm (e_v ev) in
  let theta := random u1 0 PI in
  let phi := random u2 0 (PI * 2) in
  let Q := v2k * vi * 2 * sin (theta / 2) in
  let dw := exp (- m_dw_core * Q * Q) in
  Ok (with_pv ev (e_p ev * (sin theta * (PI / 2) * dw)) (option_map (vscale vi) (turned (axes_fixed (1 / 10 ^ 4) (e_v ev)) (cos theta) (sin theta) phi))).

(* members of E_Q_Kernel: E_Q_Kernel.h:52-60 *)
Record eqkernel := mkEQ { q_E : R -> R; q_S : R -> R; q_Qmin : R; q_Qmax : R }.
(* what a pass of the loop leaves in Q, vf, kf, cost; cost None is nan *)
Record pass := mkPass { a_Q : R; a_vf : R; a_kf : R; a_cost : option R }.
(* one pass, from the choice of E on: E_Q_Kernel.icc:131-172; None is continue.  With 2*ki*kf = 0 cost is nan if the numerator is zero, which
   passes the test, and inf if not *)
Definition eq_pass (ki Ei Q E : R) : option pass :=
  match E2v (Ei - E) with
  | None => None
  | Some vf =>
      let kf := v2k * vf in
      let num := ki * ki + kf * kf - Q * Q in
      if Req_EM_T (2 * ki * kf) 0 then (if Req_EM_T num 0 then Some (mkPass Q vf kf None) else None)
      else let cost := num / (2 * ki * kf) in if Rltb 1 (cost * cost) then None else Some (mkPass Q vf kf (Some cost))
  end.
(* the loop: E_Q_Kernel.icc:127-174; [us] are the random numbers, [counter] the value during the pass.  None: counter ends above 100 *)
Fixpoint eq_loop (m : eqkernel) (ki Ei : R) (passes counter : nat) (us : nat -> R) : option (pass * nat) :=
  match passes with
  | O => None
  | S n => let Q := random (us O) (q_Qmin m) (q_Qmax m) in
           match eq_pass ki Ei Q (q_E m Q) with
           | Some a => Some (a, counter)
           | None => eq_loop m ki Ei n (S counter) (fun i => us (S i))
           end
  end.
(* E_Q_Kernel::S: E_Q_Kernel.icc:109-211; m_epsilon is 1e-4; [u] is the random number for phi *)
Definition E_Q_S (m : eqkernel) (us : nat -> R) (u : R) (ev : event) : result kevent :=
  let vi := vnorm (e_v ev) in
  let Ei := v2E vi in
  let ki := v2k * vi in
  match eq_loop m ki Ei 100 1 us with
  | None => Ok (with_pv ev 0 (Some (e_v ev)))
  | Some (a, counter) =>
      let v := match a_cost a with
               | None => None
               | Some cost => option_map (vscale (a_vf a)) (turned_by (axes_fixed (1 / 10 ^ 4) (e_v ev)) cost (random u 0 (PI * 2)))
               end in
      let! f1 := divide (a_vf a) vi in
      let! f2 := divide (a_Q a * (q_Qmax m - q_Qmin m) / INR counter) (a_kf a * ki) in
      Ok (with_pv ev (e_p ev * (q_S m (a_Q a) * f1) * (f2 / 2)) v)
  end.

(* Q values at which the constructor of Broadened_E_Q_Kernel looks for the least energy: Broadened_E_Q_Kernel.icc:90-101 *)
Definition broadened_Emin (m : eqkernel) (m_sigma : R -> R) : R :=
  let dQ := (q_Qmax m - q_Qmin m) / 100 in
  let Emin := map (fun i => let Q := q_Qmin m + dQ * INR i in q_E m Q - m_sigma Q * 3) (seq 0 100) in
  fold_left Rmin Emin (nth 0 Emin 0).
(* the loop: Broadened_E_Q_Kernel.icc:150-178, LorentzianBroadened_E_Q_Kernel.icc:130-158; [ds] are the numbers from normal_distrib_rand
   (lorentzian_distrib_rand).  A pass with Ef = 0 is refused as well *)
Fixpoint broadened_loop (m : eqkernel) (m_sigma : R -> R) (ki Ei : R) (passes count : nat) (us ds : nat -> R) : option (pass * nat) :=
  match passes with
  | O => None
  | S n => let Q := random (us O) (q_Qmin m) (q_Qmax m) in
           let E := q_E m Q + ds O * m_sigma Q in
           match (if Rleb (Ei - E) 0 then None else eq_pass ki Ei Q E) with
           | Some a => Some (a, count)
           | None => broadened_loop m m_sigma ki Ei n (S count) (fun i => us (S i)) (fun i => ds (S i))
           end
  end.
(* Broadened_E_Q_Kernel::S: Broadened_E_Q_Kernel.icc:135-243; m_epsilon is 0.1 *)
Definition Broadened_S (m : eqkernel) (m_sigma : R -> R) (us ds : nat -> R) (u : R) (ev : event) : result kevent :=
  let vi := vnorm (e_v ev) in
  let Ei := v2E vi in
  let ki := v2k * vi in
  if Rltb Ei (broadened_Emin m m_sigma) then Ok (as_is ev)
  else match broadened_loop m m_sigma ki Ei 100 1 us ds with
       | None => Ok (as_is ev)
       | Some (a, count) =>
           if Nat.leb 100 count then Ok (as_is ev)
           else
             let v := match a_cost a with
                      | None => None
                      | Some cost => option_map (vscale (a_vf a)) (turned_by (axes_cross (1 / 10) (e_v ev)) cost (random u 0 (PI * 2)))
                      end in
             let! f1 := divide (a_vf a) vi in
             let! f2 := divide (a_Q a * (q_Qmax m - q_Qmin m)) (a_kf a * ki) in
             Ok (with_pv ev (e_p ev * (q_S m (a_Q a) * f1) / (4 * PI) * (f2 * 2 * PI)) v)
       end.
