(** Model of single-crystal diffraction: packages/mccomponents/lib/kernels/sample/diffraction/SingleCrystalDiffractionKernel.cc (cited as Kernel.cc),
    packages/mccomponents/lib/kernels/sample/diffraction/SingleCrystalDiffractionData.h, packages/mccomponents/lib/kernels/sample/crystal.h,
    packages/mccomponents/python/mccomponents/sample/diffraction/bindings/BoostPythonBinding.py (cited as Binding.py).

    Doubles are reals; mcni::PI is pi.  The uniform random number in [0,1] and the two normal deviates are arguments.  None stands for numbers that are
    inf or nan. *)
From Coq Require Import Reals.
From Verif Require Import Base RotModel ChanModel ShapeModel ScatModel UnitModel KinModel.
Open Scope R_scope.

(* Lattice: crystal.h:21-41; of the members those that are used *)
Record lattice := mkLat { ra : vec3; rb : vec3; rc : vec3; V0 : R }.
(* the constructor: crystal.h:27-40 *)
Definition new_lattice (a b c : vec3) : option lattice :=
  let V := vdot a (vcross b c) in
  if Reqb V 0 then None
  else let f := 2 * PI / V in Some (mkLat (vscale f (vcross b c)) (vscale f (vcross c a)) (vscale f (vcross a b)) (Rabs V)).
(* HKL: crystal.h:43-52 *)
Record hkl := mkHKL { hh : R; hk : R; hl : R; F2 : R }.

(* FWHM2RMS: Kernel.cc:29 *)
Definition FWHM2RMS : R := 424660900144 / 10 ^ 12.
(* normal_vec: Kernel.cc:35-76 *)
Definition normal_vec (v : vec3) : vec3 :=
  let ax := Rabs (vx v) in let ay := Rabs (vy v) in let az := Rabs (vz v) in
  let use_x := let l := sqrt (vz v * vz v + vy v * vy v) in mkV 0 (vz v / l) (- vy v / l) in
  let use_y := let l := sqrt (vz v * vz v + vx v * vx v) in mkV (vz v / l) 0 (- vx v / l) in
  let use_z := let l := sqrt (vy v * vy v + vx v * vx v) in mkV (vy v / l) (- vx v / l) 0 in
  if (Reqb (vx v) 0 && Reqb (vy v) 0 && Reqb (vz v) 0)%bool then mkV 0 0 0
  else if Rltb ax ay then (if Rltb ax az then use_x else use_z)
  else (if Rltb ay az then use_y else use_z).

(* HKLData: SingleCrystalDiffractionData.h:20-29; uT is the transpose of u; [hd_finite]: no member is inf or nan *)
Record hkldata := mkHD {
  hd_hkl : hkl; hd_tau : vec3; hd_tau_length : R; hd_u1 : vec3; hd_u2 : vec3; hd_u3 : vec3; hd_sig : vec3; hd_sig123 : R;
  hd_m1 : R; hd_m2 : R; hd_m3 : R; hd_cutoff : R; hd_finite : bool }.
(* tau: Kernel.cc:128 *)
Definition tau_of (lat : lattice) (x : hkl) : vec3 := vadd (vadd (vscale (hh x) (ra lat)) (vscale (hk x) (rb lat))) (vscale (hl x) (rc lat)).
(* one pass of the constructor of Details: Kernel.cc:125-147 *)
Definition new_hkldata (lat : lattice) (mosaic delta_d_d : R) (x : hkl) : hkldata :=
  let tau := tau_of lat x in
  let tau_length := vnorm tau in
  let u1 := vscale (1 / tau_length) tau in
  let sigx := FWHM2RMS * delta_d_d * tau_length in
  let u2 := normal_vec u1 in
  let u3 := vcross u1 u2 in
  let sigy := FWHM2RMS * tau_length * mosaic in
  mkHD x tau tau_length u1 u2 u3 (mkV sigx sigy sigy) (sigx * sigy * sigy)
       (1 / (2 * sigx * sigx)) (1 / (2 * sigy * sigy)) (1 / (2 * sigy * sigy)) (5 * Rmax sigx (Rmax sigy sigy))
       (negb (Reqb sigx 0) && negb (Reqb sigy 0))%bool.

(* TauData: SingleCrystalDiffractionData.h:32-46; sigma_1, sigma_2, ki, n, det_L and rho_length are not used later *)
Record taudata := mkTD {
  td_index : nat; td_refl : R; td_xs : R; td_rho : vec3; td_o : vec3; td_b1 : vec3; td_b2 : vec3;
  td_l11 : R; td_l12 : R; td_l22 : R; td_y0x : R; td_y0y : R }.
(* transformation to local coordinates: Kernel.cc:139-141, 209 *)
Definition to_local (h : hkldata) (k : vec3) : vec3 :=
  let uT1 := mkV (vx (hd_u1 h)) (vx (hd_u2 h)) (vx (hd_u3 h)) in
  let uT2 := mkV (vy (hd_u1 h)) (vy (hd_u2 h)) (vy (hd_u3 h)) in
  let uT3 := mkV (vz (hd_u1 h)) (vz (hd_u2 h)) (vz (hd_u3 h)) in
  vadd (vadd (vscale (vx k) uT1) (vscale (vy k) uT2)) (vscale (vz k) uT3).
(* sums with the diagonal matrix: Kernel.cc:221-223, 236-237, 241 *)
Definition mdot (h : hkldata) (a b : vec3) : R := hd_m1 h * vx a * vx b + hd_m2 h * vy a * vy b + hd_m3 h * vz a * vz b.
(* what is stored for a reflection: Kernel.cc:203-253 *)
Definition new_taudata (xs_factor ki_length rho_length : R) (ki : vec3) (i : nat) (h : hkldata) : option taudata :=
  if (negb (hd_finite h) || Reqb rho_length 0 || Reqb ki_length 0)%bool then None
  else
    let rho := vsub (to_local h ki) (mkV (hd_tau_length h) 0 0) in
    let n := vscale (1 / rho_length) rho in
    let o := vscale (ki_length - rho_length) n in
    let b1 := normal_vec n in
    let b2 := vcross n b1 in
    let n11 := mdot h b1 b1 in let n12 := mdot h b1 b2 in let n22 := mdot h b2 b2 in
    let det_N := n11 * n22 - n12 * n12 in
    if Reqb det_N 0 then None
    else
      let inv_n11 := n22 / det_N in let inv_n12 := - n12 / det_N in let inv_n22 := n11 / det_N in
      match fsqrt (inv_n11 / 2) with
      | None => None
      | Some l11 =>
          if Reqb l11 0 then None
          else
            let l12 := inv_n12 / (2 * l11) in
            match fsqrt (inv_n22 / 2 - l12 * l12) with
            | None => None
            | Some l22 =>
                let det_L := l11 * l22 in
                let Bx := mdot h b1 o in let By := mdot h b2 o in
                let y0x := - (Bx * inv_n11 + By * inv_n12) in
                let y0y := - (Bx * inv_n12 + By * inv_n22) in
                let alpha := mdot h o o - (y0x * y0x * n11 + y0y * y0y * n22 + 2 * y0x * y0y * n12) in
                let refl := xs_factor * det_L * exp (- alpha) / hd_sig123 h in
                let xs := refl * F2 (hd_hkl h) * (1 / 100) in
                Some (mkTD i refl xs rho o b1 b2 l11 l12 l22 y0x y0y)
            end
      end.
(* hkldata.tau_length > tau_max: Kernel.cc:169, 188; a tau_max that is inf or nan stops nothing *)
Definition beyond (ki_length delta_d_d tau_length : R) : bool :=
  if Reqb (1 - 5 * delta_d_d) 0 then false else Rltb (2 * ki_length / (1 - 5 * delta_d_d)) tau_length.
(* the loop: Kernel.cc:185-279 *)
Fixpoint tau_list (xs_factor delta_d_d ki_length : R) (ki : vec3) (i : nat) (l : list hkldata) : option (list taudata) :=
  match l with
  | [] => Some []
  | h :: l =>
      if beyond ki_length delta_d_d (hd_tau_length h) then Some []
      else
        let rho_length := vnorm (vsub ki (hd_tau h)) in
        if Rltb (hd_cutoff h) (Rabs (rho_length - ki_length)) then tau_list xs_factor delta_d_d ki_length ki (S i) l
        else match new_taudata xs_factor ki_length rho_length ki i h with
             | None => None
             | Some t => option_map (cons t) (tau_list xs_factor delta_d_d ki_length ki (S i) l)
             end
  end.
(* the kernel: Kernel.cc:80-106 and SingleCrystalDiffractionKernel.h:60-65.  [x_cache]: velocity of the last neutron, with taulist, total_refl, total_xs *)
Definition setup_data : Type := option (list taudata * R * R).
(* in the group above: Kernel.cc:80-106, SingleCrystalDiffractionKernel.h:60-65 *)
Record xtal := mkXt { x_lattice : lattice; x_hkls : list hkldata; x_delta_d_d : R; x_abs_coeff : R; x_cache : option (vec3 * setup_data) }.
(* the constructors: Kernel.cc:110-149, 306-321 *)
Definition new_xtal (lat : lattice) (l : list hkl) (mosaic delta_d_d abs_xs : R) : xtal :=
  mkXt lat (map (new_hkldata lat mosaic delta_d_d) l) delta_d_d (abs_xs / V0 lat * 100) None.
(* the calculation of setup_tau_info_list: Kernel.cc:162-286 *)
Definition tau_info (k : xtal) (v : vec3) : setup_data :=
  let ki := vscale v2k v in
  let ki_length := vnorm ki in
  let xs_factor := Rpower (2 * PI) (5 / 2) / (V0 (x_lattice k) * ki_length * ki_length) in
  match tau_list xs_factor (x_delta_d_d k) ki_length ki 0 (x_hkls k) with
  | None => None
  | Some l => Some (l, fold_left (fun s t => s + td_refl t) l 0, fold_left (fun s t => s + td_xs t) l 0)
  end.
(* Vector3 ==: equality of the components; Kernel.cc:160 *)
Definition same_velocity (a b : vec3) : bool := (Reqb (vx a) (vx b) && Reqb (vy a) (vy b) && Reqb (vz a) (vz b))%bool.
(* setup_tau_info_list: Kernel.cc:155-296 *)
Definition setup (k : xtal) (v : vec3) : xtal * setup_data :=
  match x_cache k with
  | Some (v0, d) => if same_velocity v v0 then (k, d)
                    else let d := tau_info k v in (mkXt (x_lattice k) (x_hkls k) (x_delta_d_d k) (x_abs_coeff k) (Some (v, d)), d)
  | None => let d := tau_info k v in (mkXt (x_lattice k) (x_hkls k) (x_delta_d_d k) (x_abs_coeff k) (Some (v, d)), d)
  end.
(* absorption_coefficient: Kernel.cc:324-331 *)
Definition xtal_absorption (k : xtal) (v : vec3) : option R := if Reqb (vnorm v) 0 then None else Some (x_abs_coeff k * 2200 / vnorm v).
(* scattering_coefficient: Kernel.cc:298-303, 334-341 *)
Definition xtal_scattering (k : xtal) (v : vec3) : xtal * option R :=
  let '(k, d) := setup k v in (k, option_map (fun d => snd d / V0 (x_lattice k) * 100) d).
(* the search: Kernel.cc:370-380; the last one if the sum is never above [r] *)
Fixpoint find_reflection (r sum : R) (l : list taudata) : option taudata :=
  match l with
  | [] => None
  | t :: l => let sum := sum + td_refl t in
              if Rltb r sum then Some t else match l with [] => Some t | _ => find_reflection r sum l end
  end.
(* scatter: Kernel.cc:358-412.  [u]: choice of the reflection; [z1], [z2]: normal deviates.  The inner None: numbers that are inf or nan *)
Definition xtal_scatter (k : xtal) (u z1 z2 : R) (ev : event) : xtal * option kevent :=
  let '(k, d) := setup k (e_v ev) in
  match d with
  | None => (k, None)
  | Some (l, total_refl, total_xs) =>
      if Rleb total_refl 0 then (k, Some (with_pv ev (-1) (Some (e_v ev))))
      else
        match find_reflection (random u 0 total_refl) 0 l with
        | None => (k, None)
        | Some t =>
            match nth_error (x_hkls k) (td_index t) with
            | None => (k, None)
            | Some h =>
                let y1 := td_l11 t * z1 + td_y0x t in
                let y2 := td_l12 t * z1 + td_l22 t * z2 + td_y0y t in
                let kf := vadd (vadd (vadd (td_rho t) (td_o t)) (vscale y1 (td_b1 t))) (vscale y2 (td_b2 t)) in
                let ki_length := vnorm (e_v ev) * v2k in
                let kf_length := sqrt (vx kf * vx kf + vy kf * vy kf + vz kf * vz kf) in
                if (Reqb kf_length 0 || Reqb (total_xs * td_refl t) 0)%bool then (k, None)
                else
                  let kf := vscale (ki_length / kf_length) kf in
                  let p := e_p ev * (td_xs t * total_refl / (total_xs * td_refl t)) in
                  match xtal_scattering k (e_v ev) with
                  | (k, None) => (k, None)
                  | (k, Some c) =>
                      let v' := vscale k2v (vadd (vadd (vscale (vx kf) (hd_u1 h)) (vscale (vy kf) (hd_u2 h))) (vscale (vz kf) (hd_u3 h))) in
                      (k, Some (with_pv ev (p * c) (Some v')))
                  end
            end
        end
  end.

(* comparison of tuples (norm, (h, k, l, F2)) by sorted: Binding.py:58.  [key_le a b]: a is not after b *)
Fixpoint tuple_le (a b : list R) : bool :=
  match a, b with
  | x :: a, y :: b => if Rltb x y then true else if Rltb y x then false else tuple_le a b
  | [], _ => true
  | _, [] => false
  end.
(* the tuple that is sorted: Binding.py:54-56 *)
Definition sort_key (lat : lattice) (x : hkl) : list R := [vnorm (tau_of lat x); hh x; hk x; hl x; F2 x].
(* sorted: Binding.py:58; insertion in order *)
Fixpoint sort_insert (lat : lattice) (x : hkl) (l : list hkl) : list hkl :=
  match l with
  | [] => [x]
  | y :: l => if tuple_le (sort_key lat x) (sort_key lat y) then x :: y :: l else y :: sort_insert lat x l
  end.
(* singlecrystaldiffractionkernel: Binding.py:30-68 *)
Definition py_singlecrystal (a b c : vec3) (l : list hkl) (mosaic delta_d_d abs_xs : R) : result (option xtal) :=
  match new_lattice a b c with
  | None => Ok None
  | Some lat =>
      let l := fold_right (sort_insert lat) [] (filter (fun x => Rltb 0 (F2 x)) l) in
      match l with
      | [] => Err AssertionError
      | _ => Ok (Some (new_xtal lat l mosaic delta_d_d abs_xs))
      end
  end.
