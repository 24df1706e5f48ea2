(** Properties C07-C09: merging and normalising neutron files. *)
From Verif Require Import Base StorageModel StorageSpec StorageProofs StorageToolsModel StorageToolsSpec StorageToolsProofs StorageProps.
From Coq Require Import QArith ZifyBool ZifyNat.
Open Scope Z_scope.

(** Concrete files for the examples: weights 1.0 and 3.0 as IEEE doubles. *)
Definition w_one : Z := 1023 * 2 ^ 52.
Definition w_three : Z := 1024 * 2 ^ 52 + 2 ^ 51.
Definition exn_a : list Z := [1;2;3;4;5;6;7;8;9; w_one].
Definition exn_b : list Z := [11;12;13;14;15;16;17;18;19; w_three].
Definition ex_file (ns : list (list Z)) : list Z := repeat 0 1100 ++ flat_map spec_neutron_bytes ns.
Lemma ex_file_holds ns : file_holds (ex_file ns) ns.
Proof. exists (repeat 0 1100). split; [apply repeat_length|reflexivity]. Qed.
Lemma exn_wf : wf_neutron exn_a /\ wf_neutron exn_b.
Proof.
  split; (split; [reflexivity|]);
  repeat (apply Forall_cons; [unfold wf_word, w_one, w_three; lia|]); apply Forall_nil.
Qed.
Definition ex_fs : fs := fun p =>
  if String.eqb p "a" then Some (File (ex_file [exn_a; exn_b]))
  else if String.eqb p "b" then Some (File (ex_file []))
  else if String.eqb p "c" then Some (File (ex_file [exn_b])) else None.
Lemma ex_files_hold : files_hold ex_fs "out" ["a"; "b"; "c"; "a"]%string [[exn_a; exn_b]; []; [exn_b]; [exn_a; exn_b]].
Proof.
  destruct exn_wf as [Wa Wb].
  assert (H : forall p ns, wf_neutrons ns -> ex_fs p = Some (File (ex_file ns)) -> p <> "out"%string ->
     p <> "out"%string /\ wf_neutrons ns /\ exists b, ex_fs p = Some (File b) /\ file_holds b ns).
  { intros p ns W E N. split; [assumption|]. split; [assumption|]. exists (ex_file ns). split; [assumption|apply ex_file_holds]. }
  assert (W2 : wf_neutrons [exn_a; exn_b]) by (apply Forall_cons; [|apply Forall_cons; [|apply Forall_nil]]; assumption).
  assert (W1 : wf_neutrons [exn_b]) by (apply Forall_cons; [|apply Forall_nil]; assumption).
  assert (W0 : wf_neutrons []) by apply Forall_nil.
  repeat (apply Forall2_cons; [apply H; [assumption|reflexivity|discriminate]|]). apply Forall2_nil.
Qed.

(** ** C07 *)

(** merge succeeds and the new file holds the concatenation of the inputs; everything else is unchanged. *)
Theorem C07_merge_is_concatenation :
  forall (d : fs) (paths : list string) (nss : list (list neutron)) (newpath : string),
  paths <> [] -> d newpath = None -> files_hold d newpath paths nss ->
  exists ws d', merge paths newpath d = (ws, d', Ok tt) /\
    (exists b, d' newpath = Some (File b) /\ file_holds b (List.concat nss)) /\
    (forall q, q <> newpath -> d' q = d q).
Proof.
  intros d paths nss newpath H1 H2 H3.
  destruct (merge_ok d paths nss newpath H1 H2 H3) as (ws & d' & E & Hb & Fr & _). eauto 10.
Qed.
Print Assumptions C07_merge_is_concatenation.

(** Even if the merge crashes half way, nothing but the new file can be affected. *)
Theorem C07_merge_crash_keeps_inputs :
  forall (d : fs) (paths : list string) (nss : list (list neutron)) (newpath : string) ws d' r,
  paths <> [] -> d newpath = None -> files_hold d newpath paths nss ->
  merge paths newpath d = (ws, d', r) ->
  forall dc, crash_state ws d' dc -> forall q, q <> newpath -> dc q = d q.
Proof.
  intros d paths nss newpath ws d' r H1 H2 H3 E dc C q Hq.
  destruct (merge_ok d paths nss newpath H1 H2 H3) as (ws' & d'' & E' & _ & Fr & F).
  rewrite E in E'. injection E' as <- <- ->.
  destruct C as [C|(d0 & p & Hin & C)].
  - rewrite C. apply Fr. assumption.
  - rewrite Forall_forall in F. destruct (F _ Hin) as [Ep Ed]. cbn in Ep, Ed. subst p.
    rewrite C by assumption. apply Ed. assumption.
Qed.
Print Assumptions C07_merge_crash_keeps_inputs.

(** Guards: no input file is an AssertionError, an existing output a RuntimeError; neither changes anything. *)
Theorem C07_merge_guards :
  forall (d : fs) (paths : list string) (newpath : string),
  (paths = [] -> merge paths newpath d = ([], d, Err AssertionError)) /\
  (paths <> [] -> d newpath <> None ->
   exists ws e, merge paths newpath d = (ws, d, Err e) /\ (d newpath <> Some Dir -> e = RuntimeError)).
Proof. exact merge_guards. Qed.
Print Assumptions C07_merge_guards.

(* an empty input and a repeated one *)
Example C07_example :
  ex_fs "out"%string = None /\
  files_hold ex_fs "out" ["a"; "b"; "c"; "a"]%string [[exn_a; exn_b]; []; [exn_b]; [exn_a; exn_b]] /\
  (let '(_, d', _) := merge ["a"; "b"; "c"; "a"]%string "out" ex_fs in
   match d' "out"%string with
   | Some (File b) => idf_load b = Ok [exn_a; exn_b; exn_b; exn_a; exn_b]
   | _ => False
   end) /\
  ex_fs "a"%string <> None.
Proof. split; [reflexivity|]. split; [exact ex_files_hold|]. split; [vm_compute; reflexivity|discriminate]. Qed.

(** ** C08 *)

(** For every chunk size and every division function on 64-bit doubles: the call succeeds; the file then holds the
    same neutrons in the same order with only the weights changed; no other file changed (the temporary file is
    gone). *)
Theorem C08_normalize_only_weights :
  forall (scale : Z -> Z) (chunk : Z) (tmp path : string) (d : fs) (b : list Z) (ns : list neutron),
  (forall w, wf_word w -> wf_word (scale w)) -> 1 <= chunk ->
  d tmp = None -> tmp <> path -> d path = Some (File b) -> wf_neutrons ns -> file_holds b ns ->
  exists ws d' b' ns', normalize_chunked chunk scale tmp path d = (ws, d', Ok tt) /\
    d' path = Some (File b') /\ file_holds b' ns' /\ Forall2 (reweighted scale) ns ns' /\
    (forall q, q <> path -> d' q = d q).
Proof.
  intros scale chunk tmp path d b ns H1 H2 H3 H4 H5 H6 H7.
  destruct (normalize_ok scale chunk tmp path d b ns H1 H2 H3 H4 H5 H6 H7) as (ws & d' & E & (b' & Hb & Hh) & Fr & _).
  exists ws, d', b', (map (scale_last scale) ns). eauto 10 using map_reweighted.
Qed.
Print Assumptions C08_normalize_only_weights.

(** normalize itself (chunk of one million neutrons). *)
Corollary C08_normalize :
  forall (scale : Z -> Z) (tmp path : string) (d : fs) (b : list Z) (ns : list neutron),
  (forall w, wf_word w -> wf_word (scale w)) ->
  d tmp = None -> tmp <> path -> d path = Some (File b) -> wf_neutrons ns -> file_holds b ns ->
  exists ws d' b' ns', normalize scale tmp path d = (ws, d', Ok tt) /\
    d' path = Some (File b') /\ file_holds b' ns' /\ Forall2 (reweighted scale) ns ns' /\
    (forall q, q <> path -> d' q = d q).
Proof.
  intros scale tmp path d b ns H1. apply C08_normalize_only_weights; [assumption|]. unfold chunk_size. lia.
Qed.
Print Assumptions C08_normalize.

(** A crash at any point leaves the complete old or the complete new content at the path. *)
Theorem C08_normalize_atomic :
  forall (scale : Z -> Z) (chunk : Z) (tmp path : string) (d : fs) (b : list Z) (ns : list neutron) ws d' r,
  (forall w, wf_word w -> wf_word (scale w)) -> 1 <= chunk ->
  d tmp = None -> tmp <> path -> d path = Some (File b) -> wf_neutrons ns -> file_holds b ns ->
  normalize_chunked chunk scale tmp path d = (ws, d', r) ->
  forall dc, crash_state ws d' dc ->
  (dc path = Some (File b) \/
   exists b' ns', dc path = Some (File b') /\ file_holds b' ns' /\ Forall2 (reweighted scale) ns ns') /\
  (forall q, q <> path -> q <> tmp -> dc q = d q).
Proof.
  intros scale chunk tmp path d b ns ws d' r H1 H2 H3 H4 H5 H6 H7 E dc C.
  destruct (normalize_ok scale chunk tmp path d b ns H1 H2 H3 H4 H5 H6 H7) as (ws1 & d1 & E1 & _).
  rewrite E in E1. injection E1 as <- <- ->.
  destruct (normalize_atomic scale chunk tmp path d b ns ws d' H1 H2 H3 H4 H5 H6 H7 E dc C) as [A B].
  split; [|assumption]. destruct A as [A|(b' & A1 & A2)]; [left; assumption|right].
  exists b', (map (scale_last scale) ns). eauto using map_reweighted.
Qed.
Print Assumptions C08_normalize_atomic.

(** halving a (normal) double: subtract one from the exponent *)
Definition halve (w : Z) : Z := (w - 2 ^ 52) mod 2 ^ 64.
Lemma halve_wf w : wf_word w -> wf_word (halve w).
Proof. intros _. unfold wf_word, halve. apply Z.mod_pos_bound. reflexivity. Qed.

Example C08_example :
  (forall w, wf_word w -> wf_word (halve w)) /\
  ex_fs "tmp"%string = None /\ ex_fs "a"%string = Some (File (ex_file [exn_a; exn_b])) /\
  (let '(_, d', _) := normalize_chunked 1 halve "tmp" "a" ex_fs in
   match d' "a"%string with
   | Some (File b) => idf_load b = Ok [[1;2;3;4;5;6;7;8;9; 1022 * 2 ^ 52]; [11;12;13;14;15;16;17;18;19; 1023 * 2 ^ 52 + 2 ^ 51]]
   | _ => False
   end).
Proof. split; [exact halve_wf|]. split; [reflexivity|]. split; [reflexivity|]. vm_compute. reflexivity. Qed.

(** ** C09 *)

(** Both entry points: the merged file holds the inputs' neutrons, in order, weights divided by
    (total samples)/(number of neutrons). *)
Theorem C09_merge_and_normalize :
  forall (dbl_div : Q -> Z -> Z), (forall c w, wf_word w -> wf_word (dbl_div c w)) ->
  forall (d : fs) (paths : list string) (nss : list (list neutron)) (mcs : list Q) (tmp out : string) (overwrite : bool),
  merge_inputs d paths nss mcs tmp out overwrite -> List.concat nss <> [] ->
  forall f, f = merge_and_normalize_serial dbl_div paths mcs tmp out overwrite \/
            f = merge_and_normalize dbl_div paths mcs tmp out overwrite ->
  exists ws d' b ns', f d = (ws, d', Ok tt) /\
    d' out = Some (File b) /\ file_holds b ns' /\
    Forall2 (reweighted (dbl_div (nfactor mcs nss))) (List.concat nss) ns' /\
    (forall q, q <> out -> d' q = d q).
Proof.
  intros dbl_div Hw d paths nss mcs tmp out overwrite P Hne f Hf.
  assert (W : wf_neutrons (List.concat nss)) by (destruct (man_merge _ _ _ _ _ _ _ P) as (?&?&?&?&?&?); assumption).
  assert (X : exists ws d', f d = (ws, d', Ok tt) /\
    (exists b, d' out = Some (File b) /\ file_holds b (map (scale_last (dbl_div (nfactor mcs nss))) (List.concat nss))) /\
    (forall q, q <> out -> d' q = d q)).
  { destruct Hf as [->| ->]; [apply man_serial_ok|apply man_module_ok]; assumption. }
  destruct X as (ws & d' & E & (b & Hb & Hh) & Fr).
  exists ws, d', b, (map (scale_last (dbl_div (nfactor mcs nss))) (List.concat nss)).
  eauto 10 using map_reweighted.
Qed.
Print Assumptions C09_merge_and_normalize.

(** Consequence for the intensity: when dividing the recorded weights is exact in double precision, the mean weight of the
    merged neutrons is the recorded total weight over the total number of Monte Carlo samples, and none is lost. *)
Theorem C09_mean_weight :
  forall (dbl_div : Q -> Z -> Z) (val : Z -> Q) (mcs : list Q) (nss : list (list neutron)) (ns' : list neutron),
  wf_neutrons (List.concat nss) -> List.concat nss <> [] -> ~ (total_samples mcs == 0)%Q ->
  (forall n, In n (List.concat nss) ->
     val (dbl_div (nfactor mcs nss) (nth 9 n 0%Z)) == val (nth 9 n 0%Z) / nfactor mcs nss)%Q ->
  Forall2 (reweighted (dbl_div (nfactor mcs nss))) (List.concat nss) ns' ->
  List.length ns' = List.length (List.concat nss) /\
  (total_weight val ns' / inject_Z (Z.of_nat (List.length ns'))
   == fold_right Qplus 0 (map (total_weight val) nss) / total_samples mcs)%Q.
Proof.
  intros dbl_div val mcs nss ns' W Hne Hs H F.
  assert (E : ns' = map (scale_last (dbl_div (nfactor mcs nss))) (List.concat nss)).
  { clear -F. induction F as [|n m l l' (a & w & L & -> & ->) F IH]; [reflexivity|]. cbn [map]. f_equal; [|assumption].
    unfold scale_last.
    assert (E1 : firstn 9 (a ++ [w]) = a) by (rewrite <- L, firstn_app, Nat.sub_diag, firstn_all, firstn_O, app_nil_r; reflexivity).
    assert (E2 : skipn 9 (a ++ [w]) = [w]) by (rewrite <- L, skipn_app, Nat.sub_diag, skipn_all; reflexivity).
    rewrite E1, E2. reflexivity. }
  subst ns'. rewrite map_length. split; [reflexivity|].
  rewrite (mean_weight dbl_div val mcs nss W Hne Hs H).
  assert (T : (total_weight val (List.concat nss) == fold_right Qplus 0 (map (total_weight val) nss))%Q).
  { clear. induction nss as [|x l IH]; [reflexivity|]. cbn [List.concat map fold_right]. rewrite total_weight_app, IH. reflexivity. }
  rewrite T. reflexivity.
Qed.
Print Assumptions C09_mean_weight.

(** No neutron recorded at all: the component's method leaves an empty neutron file, the module-level function fails. *)
Theorem C09_nothing_recorded :
  forall (dbl_div : Q -> Z -> Z),
  forall (d : fs) (paths : list string) (nss : list (list neutron)) (mcs : list Q) (tmp out : string) (overwrite : bool),
  merge_inputs d paths nss mcs tmp out overwrite -> List.concat nss = [] ->
  (exists ws d' b, merge_and_normalize_serial dbl_div paths mcs tmp out overwrite d = (ws, d', Ok tt) /\
     d' out = Some (File b) /\ file_holds b [] /\ (forall q, q <> out -> d' q = d q)) /\
  (exists ws d', merge_and_normalize dbl_div paths mcs tmp out overwrite d = (ws, d', Err ZeroDivisionError)).
Proof.
  intros dbl_div d paths nss mcs tmp out overwrite P E. split.
  - destruct (man_serial_zero dbl_div d paths nss mcs tmp out overwrite P E) as (ws & d' & R & (b & H1 & H2) & Fr). eauto 10.
  - exact (man_module_zero dbl_div d paths nss mcs tmp out overwrite P E).
Qed.
Print Assumptions C09_nothing_recorded.

(** Reading of normal positive doubles; 4 files, 5 neutrons, 10 samples: the factor is 2 and halving is exact. *)
Definition dbl_value (w : Z) : Q :=
  (inject_Z (2 ^ 52 + w mod 2 ^ 52) * Qpower 2 (w / 2 ^ 52 - 1075))%Q.
Example C09_example :
  let mcs := [4; 1; 2; 3]%Q in
  let nss := [[exn_a; exn_b]; []; [exn_b]; [exn_a; exn_b]] in
  merge_inputs ex_fs ["a"; "b"; "c"; "a"]%string nss mcs "tmp" "out" true /\
  (nfactor mcs nss == 2)%Q /\ ~ (total_samples mcs == 0)%Q /\
  (forall n, In n (List.concat nss) -> dbl_value (halve (nth 9 n 0%Z)) == dbl_value (nth 9 n 0%Z) / nfactor mcs nss)%Q /\
  (total_weight dbl_value (List.concat nss) == 11)%Q.
Proof.
  cbv zeta. split; [|split; [|split; [|split]]].
  - split; [discriminate|]. split; [reflexivity|]. split; [exact ex_files_hold|]. split; [reflexivity|].
    split; [discriminate|]. discriminate.
  - vm_compute. reflexivity.
  - vm_compute. discriminate.
  - intros n Hn. cbn in Hn.
    repeat (destruct Hn as [<-|Hn]; [vm_compute; reflexivity|]). contradiction.
  - vm_compute. reflexivity.
Qed.
(* the hypothesis of C09_nothing_recorded: only empty files *)
Example C09_nothing_example :
  merge_inputs ex_fs ["b"; "b"]%string [[]; []] [4; 1]%Q "tmp" "out" false /\ List.concat ([[]; []] : list (list neutron)) = [].
Proof.
  split; [|reflexivity].
  split; [discriminate|]. split; [reflexivity|]. split; [|split; [reflexivity|split; [discriminate|reflexivity]]].
  assert (H : "b"%string <> "out"%string /\ wf_neutrons [] /\ exists b, ex_fs "b"%string = Some (File b) /\ file_holds b []).
  { split; [discriminate|]. split; [apply Forall_nil|]. exists (ex_file []). split; [reflexivity|apply ex_file_holds]. }
  repeat (apply Forall2_cons; [exact H|]). apply Forall2_nil.
Qed.
