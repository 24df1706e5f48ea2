(** Filters from tables: packages/legacycomponents/mcstas2/share/McStas-Components/optics/Filter_gen.comp.  The tables are those of TabModel.

    Numbers are real numbers: rounding is not modelled.  A division by zero is ZeroDivisionError, exit() is Terminated.  Messages are left out, and with them [verbose]. *)
From Coq Require Import Reals String Ascii.
From Verif Require Import Base RotModel ChanModel ShapeModel OptModel BmonModel TabModel.
Open Scope R_scope.

(* UNKNOWN_TABLE ... WAVELENGTH_TABLE: Filter_gen.comp:93-96 *)
Inductive quantity := Unknown | Energy | Wavevector | Wavelength.
(* FLUX_ADAPT_SET, _MULT, _ADD: Filter_gen.comp:97-99 *)
Inductive adapt := AdaptSet | AdaptMult | AdaptAdd.
(* strstr of the C library, not code of /repo: whether s occurs in str *)
Fixpoint strstr (str s : string) : bool :=
  (String.prefix s str || match str with EmptyString => false | String _ r => strstr r s end)%bool.
(* FilterGen_Mode: Filter_gen.comp:109-128; None is the null pointer.  The copy c in lower case (113-114) is not used by the code *)
Definition FilterGen_Mode (str : option string) (Mode : adapt) (Type_ : quantity) : adapt * quantity :=
  match str with
  | None => (Mode, Type_)
  | Some str =>
      if (String.length str =? 0)%nat then (Mode, Type_)
      else
        let Type_ := if (strstr str " k " || strstr str " q " || strstr str "wavevector")%bool then Wavevector else Type_ in
        let Type_ := if (strstr str "omega" || strstr str " e " || strstr str "energy")%bool then Energy else Type_ in
        let Type_ := if (strstr str "lambda" || strstr str "wavelength" || strstr str " L ")%bool then Wavelength else Type_ in
        let Mode := if strstr str "set" then AdaptSet else Mode in
        let Mode := if strstr str "add" then AdaptAdd else Mode in
        let Mode := if strstr str "multiply" then AdaptMult else Mode in
        (Mode, Type_)
  end.
(* INITIALIZE: Filter_gen.comp:140-175.  [file] is None without file, Some None when Table_Read fails, and otherwise the table that was read and its header.
   Table_Free (154) is None *)
Definition filter_init (options : option string) (file : option (option (table * option string))) : result (adapt * quantity * option table) :=
  let '(Mode, Type_) := FilterGen_Mode options AdaptMult Unknown in
  match file with
  | None => Ok (Mode, Type_, None)
  | Some None => Err Terminated
  | Some (Some (t, header)) =>
      let! x := Table_Rebin t in
      let t := snd x in
      if ((rows t <? 2)%Z || Reqb (step_x t) 0)%bool then Ok (Mode, Type_, None)
      else match data t with
           | None => Ok (Mode, Type_, None)
           | Some _ => let '(Mode, Type_) := FilterGen_Mode header Mode Type_ in Ok (Mode, Type_, Some t)
           end
  end.
(* the table look up: Filter_gen.comp:194-200, without scaling.  long is Z without limit *)
Definition filter_value (t : table) (X : R) : result R :=
  let! q := quot (X - min_x t) (step_x t) in
  let Index := floorZ q in
  let! y1 := Table_Index t Index 1 in
  let! x1 := Table_Index t Index 0 in
  let! y2 := Table_Index t (Index + 1) 1 in
  let! s := quot ((X - x1) * (y2 - y1)) (step_x t) in
  Ok (y1 + s).
(* pow of the C library, not code of /repo; a negative base is an error here (nan unless the exponent is an integer), 0 with an exponent that is not positive too *)
Definition cpow (a e : R) : result R :=
  if Rltb 0 a then Ok (Rpower a e) else if (Reqb a 0 && Rltb 0 e)%bool then Ok 0 else Err ValueError.
(* X: Filter_gen.comp:184-190 *)
Definition filter_X (ty : quantity) (r : ray) : result R :=
  let K := V2K * sqrt (v2 r) in
  match ty with
  | Energy => Ok (VS2E * v2 r)
  | Wavevector => Ok K
  | Wavelength => quot (2 * PI) K
  | Unknown => Err UndefinedBehaviour
  end.
(* TRACE: Filter_gen.comp:177-211 *)
Definition filter_trace (g : option vec3) (o : opening) (thickness scaling : R) (mode : adapt) (ty : quantity) (t : option table) (r : ray) : result ray :=
  let r := prop_z0 g r in
  match ty with
  | Unknown => Ok r
  | _ =>
      if in_area o r then
        let! X := filter_X ty r in
        let! new_p := match t with
                      | None => Ok 1
                      | Some t => let! y := filter_value t X in
                                  let new_p := scaling * y in
                                  if Reqb thickness 1 then Ok new_p else cpow new_p thickness
                      end in
        match mode with AdaptMult => Ok (with_p r (r_p r * new_p)) | _ => Ok (with_p r new_p) end
      else Ok (absorb r)
  end.
