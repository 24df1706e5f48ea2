(** Properties C28 (cache of results), C48 (component specifiers), C49 (arguments of super applications). *)
From Coq Require Import List Ascii String Bool Arith Lia Permutation.
From Verif Require Import Base CliModel CliSpec CliProofs.
Import ListNotations.
Open Scope list_scope.

(** ** C28 *)

(** Two invocations of one command (so with the same parameter names in the same order) whose remaining arguments are words share the
    cache directory exactly if the arguments are the same up to order, whatever the values of the parameters; provided the hash does not
    collide on the two texts. *)
Theorem C28_cache_key :
  forall (V : Type) (md5 : text -> text) (cmd : list text) (p p' : list (text * V)) (args args' : list text),
  map fst p = map fst p' -> Forall word args -> Forall word args' ->
  (md5 (arg_str p args) = md5 (arg_str p' args') -> arg_str p args = arg_str p' args') ->
  (cache_path md5 cmd p args = cache_path md5 cmd p' args' <-> Permutation args args').
Proof.
  intros V md5 cmd p p' args args' K W W' NC. unfold cache_path. split.
  - intro E. apply app_inv_head in E. injection E as E. apply NC in E. apply (arg_str_iff p p'); assumption.
  - intro P. rewrite (arg_str_perm p p' args args' K P). reflexivity.
Qed.
Print Assumptions C28_cache_key.

(** Whatever was invoked before, starting from an empty cache: an invocation with --use-cache is served from the cache exactly if some
    earlier invocation with --keep-in-cache really ran and has the same cache directory.  When it is served nothing is run. *)
Theorem C28_cache_hit :
  forall (V D : Type) (md5 : text -> text) (shell : text -> option D) (overlay : D -> D -> D)
         (h : list (invocation V)) (i : invocation V),
  i_use_cache i = true -> i_only_metadata i = false ->
  let before := invocations md5 shell overlay (fun _ => None) h in
  (exists d, snd (invoke md5 shell overlay (fst before) i) = FromCache d) <->
  (exists j o, In (j, o) (combine h (snd before)) /\ (exists line, o = RanCommand line) /\
     cache_path md5 (i_cmd j) (i_params j) (i_args j) = cache_path md5 (i_cmd i) (i_params i) (i_args i)).
Proof.
  intros V D md5 shell overlay h i U M. cbv zeta.
  pose proof (invocations_cache V D md5 shell overlay (fun _ => None) h (path_of V md5 i)) as IC. unfold path_of in IC.
  assert (E : (exists d, snd (invoke md5 shell overlay (fst (invocations md5 shell overlay (fun _ => None) h)) i) = FromCache d) <->
    exists d, fst (invocations md5 shell overlay (fun _ => None) h) (cache_path md5 (i_cmd i) (i_params i) (i_args i)) = Some d).
  { unfold invoke. rewrite U, M. cbn [andb negb]. destruct (fst (invocations md5 shell overlay (fun _ => None) h) _) as [d|].
    - cbn. split; intros _; eexists; reflexivity.
    - split; [|intros [d H]; discriminate]. intros [d H]. destruct (negb (i_keep i)); [discriminate|].
      destruct (shell _); discriminate. }
  rewrite E, IC. split; [|auto]. intros [[d H]|H]; [discriminate|exact H].
Qed.
Print Assumptions C28_cache_hit.

(** What is in the cache, and so what --use-cache serves: the outputs of the earlier runs that were kept under the same directory, copied over each other
    in the order of the runs. *)
Theorem C28_cache_content :
  forall (V D : Type) (md5 : text -> text) (shell : text -> option D) (overlay : D -> D -> D) (h : list (invocation V)) (path : list text),
  let before := invocations md5 shell overlay (fun _ => None) h in
  fst before path = overlaid overlay (kept md5 shell path (combine h (snd before))).
Proof. intros V D md5 shell overlay h path. exact (cache_content V D md5 shell overlay (fun _ => None) h path). Qed.
Print Assumptions C28_cache_content.

(** With --keep-in-cache, when nothing is served from the cache, the command line that is run does not depend on the values of the
    parameters: two invocations of one command that differ in the values only, run the same line. *)
Theorem C28_kept_run_ignores_values :
  forall (V D : Type) (md5 : text -> text) (shell : text -> option D) (overlay : D -> D -> D) (c : cache D)
         (cmd args : list text) (p p' : list (text * V)),
  map fst p = map fst p' ->
  snd (invoke md5 shell overlay c (mkInv cmd p args false false true)) =
  snd (invoke md5 shell overlay c (mkInv cmd p' args false false true)).
Proof.
  intros V D md5 shell overlay c cmd args p p' K. unfold invoke. cbn [i_use_cache i_only_metadata i_keep i_cmd i_params i_args andb negb].
  rewrite (arg_str_perm p p' args args K (Permutation_refl args)). destruct (shell _); reflexivity.
Qed.
Print Assumptions C28_kept_run_ignores_values.

Definition demo_params (ncount : nat) : list (text * nat) := [(T "ncount", ncount); (T "nodes", 2)].
Definition demo_cmd : list text := [T "mcvine"; T "instruments"; T "arcs"; T "beam"].
(** a stand-in for the shell: it echoes the line *)
Definition echo (line : text) : option text := Some line.

Example C28_example :
  Forall word [T "b"; T "a"] /\ Permutation [T "b"; T "a"] [T "a"; T "b"] /\
  arg_str (demo_params 10) [T "b"; T "a"] = T "ncount nodes a b" /\
  snd (invocations (fun s => s) echo (fun _ d => d) (fun _ => None)
        [mkInv demo_cmd (demo_params 10) [T "b"; T "a"] false false true; mkInv demo_cmd (demo_params 20) [T "a"; T "b"] true false false;
         mkInv demo_cmd (demo_params 20) [T "a"] true false false])
  = [RanCommand (T "mcvine instruments arcs beam ncount nodes a b"); FromCache (T "mcvine instruments arcs beam ncount nodes a b");
     RanHere (demo_params 20) [T "a"]].
Proof.
  split; [|split; [apply perm_swap|split; [reflexivity|vm_compute; reflexivity]]].
  repeat constructor; try discriminate; cbn; intuition discriminate.
Qed.

(** Finding: "create unique arg str from given params and args" does not hold; a run with ncount = 20 is served the result kept for
    ncount = 10 (and that result was produced by a command line that had no value for ncount at all). *)
Theorem C28_unique_key_refuted :
  exists (p p' : list (text * nat)) (args : list text), p <> p' /\ arg_str p args = arg_str p' args /\
  (forall (md5 : text -> text), exists d,
     snd (invoke md5 echo (fun _ d => d) (fst (invoke md5 echo (fun _ d => d) (fun _ => None) (mkInv demo_cmd p args false false true)))
            (mkInv demo_cmd p' args true false false)) = FromCache d).
Proof.
  exists (demo_params 10), (demo_params 20), [T "a"]. split; [discriminate|]. split; [reflexivity|].
  intro md5. unfold invoke, echo. cbn [i_use_cache i_only_metadata i_keep i_cmd i_params i_args andb negb fst snd].
  change (cache_path md5 demo_cmd (demo_params 20) [T "a"]) with (cache_path md5 demo_cmd (demo_params 10) [T "a"]).
  destruct (path_eqb_spec (cache_path md5 demo_cmd (demo_params 10) [T "a"]) (cache_path md5 demo_cmd (demo_params 10) [T "a"])) as [_|N];
    [eexists; reflexivity|congruence].
Qed.
Print Assumptions C28_unique_key_refuted.

(** ** C48 *)

(** White space: tab, line feed, vertical tab, form feed, carriage return, the four separators of ASCII and the space. *)
Theorem C48_white_space : forall c, is_space c = true <-> In (nat_of_ascii c) [9; 10; 11; 12; 13; 28; 29; 30; 31; 32].
Proof.
  intro c. unfold is_space. set (n := nat_of_ascii c). rewrite orb_true_iff, !andb_true_iff, !Nat.leb_le. cbn [In]. lia.
Qed.
Print Assumptions C48_white_space.

(** The documented forms decode to their parts: <supplier>://<category>/<type>(<args>), each of supplier, category and arguments optional,
    white space allowed around arguments.  One empty argument counts as no arguments. *)
Theorem C48_documented_forms :
  forall (sup cat : option text) (typ : text),
  (forall u, sup = Some u -> without "/" u) -> (forall c, cat = Some c -> without "/" c) ->
  without "/" typ -> without "(" typ -> (forall a t, typ = a :: t -> is_space a = false) ->
  decode (opt_sup sup ++ opt_cat cat ++ typ) = Ok (sup, cat, typ, None) /\
  (forall raws args s, Forall2 padded raws args -> args <> [[]] -> commas raws s ->
     Forall (fun r => without "/" r /\ without "(" r /\ without "," r) raws ->
     decode (opt_sup sup ++ opt_cat cat ++ typ ++ T "(" ++ s ++ T ")") = Ok (sup, cat, typ, Some args)).
Proof.
  intros sup cat typ HS HC T1 T2 T3. split.
  - pose proof (decode_forms sup cat typ None [] None HS HC T1 T2 T3 (conj eq_refl eq_refl)) as H. rewrite app_nil_r in H. exact H.
  - intros raws args s P NE C FA. apply (decode_forms sup cat typ (Some raws)); auto.
    exists s. split; [reflexivity|]. split; [exact C|]. split; [exact FA|].
    assert (E : map strip raws = args) by (clear -P; induction P as [|r a rs as' H P IH]; cbn; [reflexivity|rewrite (padded_strip _ _ H), IH; reflexivity]).
    rewrite E. destruct raws as [|r [|r' l]]; [inversion C| |].
    + destruct args as [|a [|b args]]; try (cbn in E; discriminate). destruct a as [|x a]; [exfalso; apply NE; reflexivity|]. reflexivity.
    + cbn [List.length Nat.eqb]. rewrite andb_false_r. reflexivity.
Qed.
Print Assumptions C48_documented_forms.

(** The text made for a component decodes to the same category, type and arguments.  The supplier is lost. *)
Theorem C48_round_trip :
  forall (sup cat typ : text) (args : list text),
  without "/" cat -> without "/" typ -> without "(" typ -> (forall a t, typ = a :: t -> is_space a = false) ->
  Forall (fun a => without "/" a /\ without "(" a /\ without "," a /\ trimmed a) args -> args <> [[]] ->
  decode (encode sup cat typ (Some args)) = Ok (None, Some cat, typ, match args with [] => None | _ => Some args end) /\
  decode (encode sup cat typ None) = Ok (None, Some cat, typ, None).
Proof.
  intros sup cat typ args HC T1 T2 T3 FA NE.
  assert (H0 : decode (encode sup cat typ None) = Ok (None, Some cat, typ, None)).
  { unfold encode. rewrite app_nil_r. pose proof (C48_documented_forms None (Some cat) typ) as [H _]; auto; try discriminate.
    - intros c E. injection E as <-. exact HC.
    - cbn [opt_sup opt_cat app] in H. rewrite <- app_assoc in H. exact H. }
  split; [|exact H0]. destruct args as [|a l]; [exact H0|]. unfold encode.
  pose proof (C48_documented_forms None (Some cat) typ) as [_ H]; auto; try discriminate.
  { intros c E. injection E as <-. exact HC. }
  cbn [opt_sup opt_cat app] in H. specialize (H (a :: l) (a :: l) (join (T ",") (a :: l))).
  rewrite <- app_assoc in H. apply H.
  - clear -FA. induction FA as [|x m [_ [_ [_ Tr]]] FA IH]; constructor; [|exact IH].
    rewrite <- (app_nil_r x) at 1. change (x ++ []) with ([] ++ x ++ []). constructor; [intros y []|intros y []|exact Tr].
  - exact NE.
  - apply commas_join. discriminate.
  - eapply Forall_impl; [|exact FA]. intros x [A [B [C _]]]. auto.
Qed.
Print Assumptions C48_round_trip.

(** Any text that is accepted consists of what is returned: nothing is lost except white space around the type with arguments and around
    each argument, and one character at the end. *)
Theorem C48_accepted_text :
  forall (s : text) sup cat typ args, decode s = Ok (sup, cat, typ, args) ->
  exists body, s = opt_sup sup ++ opt_cat cat ++ body /\
   ((typ = body /\ args = None /\ without "(" body) \/
    (exists raw last, strip body = typ ++ T "(" ++ raw ++ [last] /\
       ((args = None /\ blank raw) \/
        (exists l raws, args = Some l /\ ~ blank raw /\ commas raws raw /\ Forall (without ",") raws /\ Forall2 padded raws l)))).
Proof. exact decode_sound. Qed.
Print Assumptions C48_accepted_text.

(** Rejected with a ValueError: two slashes after the supplier; two opening parentheses. *)
Theorem C48_rejected :
  forall (sup : option text), (forall u, sup = Some u -> without "/" u) ->
  (forall a b c, without "/" a -> without "/" b -> found (T "://") (a ++ T "/" ++ b ++ T "/" ++ c) = false ->
     decode (opt_sup sup ++ a ++ T "/" ++ b ++ T "/" ++ c) = Err ValueError) /\
  (forall cat typ x y, (forall c, cat = Some c -> without "/" c) -> without "/" (typ ++ x ++ y) ->
     without "(" typ -> without "(" x -> (forall a t, typ = a :: t -> is_space a = false) ->
     decode (opt_sup sup ++ opt_cat cat ++ typ ++ T "(" ++ x ++ T "(" ++ y ++ T ")") = Err ValueError).
Proof.
  intros sup HS.
  assert (ST : forall t1, found (T "://") t1 = false -> before (T "://") (opt_sup sup ++ t1) = Ok (sup, t1)).
  { intros t1 F. unfold before, unpack2. destruct sup as [u|]; cbn [opt_sup app].
    - rewrite <- app_assoc. rewrite split_scheme by auto.
      replace (found (T "://") (u ++ T "://" ++ t1)) with true; [reflexivity|].
      symmetry. apply found_spec. exists u, t1. reflexivity.
    - rewrite F. reflexivity. }
  split.
  - intros a b c A B F. unfold decode. rewrite (ST _ F). cbn [bind fst snd]. unfold before. change (T "/") with ["/"%char].
    replace (found ["/"%char] (a ++ ["/"%char] ++ b ++ ["/"%char] ++ c)) with true
      by (symmetry; apply found_char, in_or_app; right; left; reflexivity).
    unfold unpack2, split. change (["/"%char] ++ b ++ ["/"%char] ++ c) with ("/"%char :: b ++ "/"%char :: c).
    rewrite (split_char_first "/" [] a _ A), (split_char_first "/" [] b _ B).
    destruct (split_go ["/"%char] 0 [] c) eqn:E; [exfalso; exact (split_nonempty _ _ _ _ E)|reflexivity].
  - intros cat typ x y HC W1 W2 W3 HT.
    assert (W : without "/" (typ ++ T "(" ++ x ++ T "(" ++ y ++ T ")")).
    { intro I. rewrite !in_app_iff in I. cbn in I. apply W1. rewrite !in_app_iff. intuition discriminate. }
    assert (F : found (T "://") (opt_cat cat ++ typ ++ T "(" ++ x ++ T "(" ++ y ++ T ")") = false).
    { apply no_scheme. rewrite count_app, (count_without _ _ W). destruct cat as [c|]; cbn [opt_cat].
      - rewrite count_app, (count_without _ _ (HC c eq_refl)). cbn. apply Nat.le_refl.
      - cbn. apply Nat.le_0_l. }
    unfold decode. rewrite (ST _ F). cbn [bind fst snd].
    assert (CT : before (T "/") (opt_cat cat ++ typ ++ T "(" ++ x ++ T "(" ++ y ++ T ")") = Ok (cat, typ ++ T "(" ++ x ++ T "(" ++ y ++ T ")")).
    { unfold before, unpack2. change (T "/") with ["/"%char]. destruct cat as [c|]; cbn [opt_cat].
      - rewrite <- app_assoc.
        replace (found ["/"%char] (c ++ T "/" ++ typ ++ T "(" ++ x ++ T "(" ++ y ++ T ")")) with true
          by (symmetry; apply found_char, in_or_app; right; left; reflexivity).
        unfold split. change (c ++ T "/" ++ typ ++ T "(" ++ x ++ T "(" ++ y ++ T ")") with (c ++ "/"%char :: typ ++ T "(" ++ x ++ T "(" ++ y ++ T ")").
        rewrite (split_char_first "/" [] c _ (HC c eq_refl)). rewrite split_char_none by exact W. reflexivity.
      - cbn [app]. rewrite (found_char_false "/" _ W). reflexivity. }
    rewrite CT. cbn [bind fst snd]. unfold type_args.
    replace (found (T "(") (typ ++ T "(" ++ x ++ T "(" ++ y ++ T ")")) with true
      by (symmetry; apply (found_char "("%char), in_or_app; right; left; reflexivity).
    replace (strip (typ ++ T "(" ++ x ++ T "(" ++ y ++ T ")")) with ((typ ++ T "(" ++ x ++ T "(" ++ y) ++ [")"%char]).
    + unfold chop. rewrite removelast_last. unfold unpack2, split. change (T "(") with ["("%char].
      change (typ ++ ["("%char] ++ x ++ ["("%char] ++ y) with (typ ++ "("%char :: x ++ "("%char :: y).
      rewrite (split_char_first "(" [] typ _ W2), (split_char_first "(" [] x _ W3).
      destruct (split_go ["("%char] 0 [] y) eqn:E; [exfalso; exact (split_nonempty _ _ _ _ E)|reflexivity].
    + symmetry. rewrite <- !app_assoc. apply strip_fix. split.
      * intros a t E. destruct typ as [|b typ]; cbn in E; injection E as <- _; [reflexivity|]. apply (HT b typ). reflexivity.
      * intros t a E. rewrite !app_assoc in E. apply app_inj_tail in E. destruct E as [_ <-]. reflexivity.
Qed.
Print Assumptions C48_rejected.

Example C48_example :
  decode (T "mcni://sources/NDMonitor(x, y)") = Ok (Some (T "mcni"), Some (T "sources"), T "NDMonitor", Some [T "x"; T "y"]) /\
  Forall2 padded [T "x"; T " y"] [T "x"; T "y"] /\ commas [T "x"; T " y"] (T "x, y") /\
  encode (T "mcni") (T "monitors") (T "NDMonitor") (Some [T "x"; T "y"]) = T "monitors/NDMonitor(x,y)" /\
  decode (T "a/b/c") = Err ValueError /\ decode (T "a(b(c))") = Err ValueError.
Proof.
  split; [reflexivity|]. split.
  - assert (TR : forall c, is_space c = false -> trimmed [c]).
    { intros c H. split; [intros a t E; injection E as <- _; exact H|].
      intros t a E. destruct t as [|x [|y t]]; cbn in E; try discriminate; try (injection E as <-; exact H). }
    constructor; [|constructor; [|constructor]].
    + apply (pad [] (T "x") []); [intros a []|intros a []|apply TR; reflexivity].
    + apply (pad (T " ") (T "y") []); [intros a [<-|[]]; reflexivity|intros a []|apply TR; reflexivity].
  - split; [apply (commas_more (T "x") [T " y"] (T " y")), commas_one|]. split; [reflexivity|]. split; reflexivity.
Qed.

(** Finding: a missing closing parenthesis is not noticed; the last character is dropped instead. *)
Theorem C48_malformed_rejected_refuted :
  exists s, ~ In ")"%char s /\ decode s = Ok (None, None, T "NDMonitor", None) /\ s = T "NDMonitor(x".
Proof. exists (T "NDMonitor(x"). split; [cbn; intuition discriminate|]. split; reflexivity. Qed.
Print Assumptions C48_malformed_rejected_refuted.

(** ** C49 *)

(** With a separator: what precedes the first separator goes to the super application, what follows to the application (both get the name of
    the program). *)
Theorem C49_with_separator :
  forall (names : list text) (prog : text) (pre post : list text), no_separator (prog :: pre) ->
  run_super names (prog :: pre ++ separator :: post) = (prog :: pre, Ok (prog :: post)).
Proof. exact run_super_sep. Qed.
Print Assumptions C49_with_separator.

(** Without: the super application parses everything; the application gets nothing if all names are options of the super application, everything
    if none is, and a mixture is an AssertionError. *)
Theorem C49_without_separator :
  forall (names : list text) (prog : text) (args : list text), no_separator (prog :: args) ->
  fst (run_super names (prog :: args)) = prog :: args /\
  ((forall a, In a args -> In (argName a) names) -> snd (run_super names (prog :: args)) = Ok [prog]) /\
  ((forall a, In a args -> ~ In (argName a) names) -> snd (run_super names (prog :: args)) = Ok (prog :: args)) /\
  ((exists a, In a args /\ In (argName a) names) -> (exists a, In a args /\ ~ In (argName a) names) ->
     snd (run_super names (prog :: args)) = Err AssertionError).
Proof. exact run_super_plain. Qed.
Print Assumptions C49_without_separator.

(** What the name of an argument is: the text between leading dashes and the first "=". *)
Theorem C49_argument_name :
  forall (d : nat) (name value : text), without "=" name -> (forall t, name <> "-"%char :: t) ->
  (argName (repeat "-"%char d ++ name) = name) /\ (argName (repeat "-"%char d ++ name ++ T "=" ++ value) = name).
Proof.
  intros d name value W N.
  assert (L : forall s, (forall t, s <> "-"%char :: t) -> lstrip_dash (repeat "-"%char d ++ s) = s).
  { intros s Hs. induction d as [|d IH]; cbn; [|exact IH]. destruct s as [|a s]; [reflexivity|]. cbn.
    destruct (Ascii.eqb_spec a "-") as [->|]; [exfalso; exact (Hs s eq_refl)|reflexivity]. }
  assert (B : forall t, before_eq (name ++ t) = name ++ before_eq t).
  { intro t. clear N L. induction name as [|a name IH]; cbn; [reflexivity|].
    destruct (Ascii.eqb_spec a "=") as [->|]; [exfalso; apply W; left; reflexivity|]. rewrite IH; [reflexivity|].
    intro I. apply W. right. exact I. }
  unfold argName. split.
  - rewrite L by exact N. rewrite <- (app_nil_r name) at 1. rewrite B. cbn. apply app_nil_r.
  - rewrite L.
    + rewrite B. cbn. apply app_nil_r.
    + intros t E. destruct name as [|a name]; cbn in E; [discriminate|]. injection E as -> _. exact (N name eq_refl).
Qed.
Print Assumptions C49_argument_name.

Example C49_example :
  no_separator [T "app"; T "-config=a,b"] /\
  run_super [T "config"] [T "app"; T "-config=a,b"; T "---"; T "-greetings=aloha"; T "---"] =
    ([T "app"; T "-config=a,b"], Ok [T "app"; T "-greetings=aloha"; T "---"]) /\
  snd (run_super [T "config"] [T "app"; T "--config=a"]) = Ok [T "app"] /\
  snd (run_super [T "config"] [T "app"; T "--x=a"; T "-config"]) = Err AssertionError.
Proof. split; [intros [H|[H|[]]]; discriminate|]. split; [reflexivity|]. split; reflexivity. Qed.
