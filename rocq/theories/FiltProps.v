(** C96: filters from tables. *)
From Coq Require Import Reals List Lra Lia ZArith String.
From Verif Require Import Base RotModel ChanModel ShapeModel GridProofs ChanProofs OptModel OptSpec BmonModel BmonSpec BmonProofs BmonProofs2 BmonProps TabModel TabSpec TabProofs TabProofs2 TabProps FiltModel FiltSpec FiltProofs.
Import ListNotations.
Open Scope R_scope.

(** The weight of a neutron that goes through the filter is multiplied by the table at its energy, wavevector or wavelength, after scaling, to the power of the thickness, and nothing else is
    changed in the plane z = 0.  Without thickness 1 the scaled value may not be negative. *)
Theorem C96_multiply : forall o th sc ty t r X, even_table t -> vz (r_vel r) <> 0 -> through o r ->
  ty = Energy /\ X = neutron_energy r \/ ty = Wavevector /\ X = wavevector r \/ ty = Wavelength /\ X = wavelength r ->
  exists y, reads t X y /\ ((th = 1 \/ 0 < sc * y \/ sc * y = 0 /\ 0 < th) -> exists b q, thicker (sc * y) th b /\ at_plane r q /\
    filter_trace None o th sc AdaptMult ty (Some t) r = Ok (mkRay (r_pos q) (r_vel q) (r_t q) (r_s1 q) (r_s2 q) (r_p r * b))).
Proof.
  intros o th sc ty t r X E M T H. destruct (filter_run o th sc AdaptMult ty t r X E M T H) as (y & R & K). exists y. split; [exact R|]. intros Y. destruct (K Y) as (b & B & F).
  exists b, (prop_z0 None r). split; [exact B|]. split; [now apply z0_at|exact F].
Qed.
Print Assumptions C96_multiply.
(** transmission 1 at 0 meV and 0 at 10 meV; the neutron has 5.227 meV *)
Definition ex_f : table := mkT (Some [0; 1; 10; 0]) 2 2 10 0 10 true true Linear.
Lemma ex_f_even : even_table ex_f.
Proof.
  split; [exists [0; 1; 10; 0]; cbn; repeat split; reflexivity|]. cbn. split; [lia|]. split; [lia|]. split; [lra|]. intros i Hi. cbn in Hi. assert (i = 0 \/ i = 1)%Z as [-> | ->] by lia; ev; lra.
Qed.
Lemma ex_f_reads y : reads ex_f (5227 / 1000) y -> y = 4773 / 10000.
Proof.
  intros (_ & _ & H). specialize (H 0%Z ltac:(cbn; lia)). assert (A : el ex_f 0 0 = 0) by (ev; lra). assert (B : el ex_f (0 + 1) 0 = 10) by (ev; lra).
  assert (C : el ex_f 0 1 = 1) by (ev; lra). assert (D : el ex_f (0 + 1) 1 = 0) by (ev; lra). unfold on_chord in H. rewrite A, B, C, D in H. specialize (H ltac:(lra)). lra.
Qed.
Example C96_multiply_ex : exists r', filter_trace None frame 1 2 AdaptMult Energy (Some ex_f) probe = Ok r' /\ r_p r' = 2 * (2 * (4773 / 10000)).
Proof.
  destruct (C96_multiply frame 1 2 Energy ex_f probe (5227 / 1000) ex_f_even probe_moves probe_through (or_introl (conj eq_refl (eq_sym probe_energy)))) as (y & R & K).
  apply ex_f_reads in R. subst y. destruct (K (or_introl eq_refl)) as (b & q & B & _ & F). eexists. split; [exact F|]. cbn. destruct B as [[_ ->]|[(A & B & L)|(A & _)]]; [lra| |lra]. rewrite Rmult_1_l in L. apply ln_inv in L; lra.
Qed.

(** With "set" the weight becomes that value. *)
Theorem C96_set : forall o th sc ty t r X, even_table t -> vz (r_vel r) <> 0 -> through o r ->
  ty = Energy /\ X = neutron_energy r \/ ty = Wavevector /\ X = wavevector r \/ ty = Wavelength /\ X = wavelength r ->
  exists y, reads t X y /\ ((th = 1 \/ 0 < sc * y \/ sc * y = 0 /\ 0 < th) -> exists b q, thicker (sc * y) th b /\ at_plane r q /\
    filter_trace None o th sc AdaptSet ty (Some t) r = Ok (mkRay (r_pos q) (r_vel q) (r_t q) (r_s1 q) (r_s2 q) b)).
Proof.
  intros o th sc ty t r X E M T H. destruct (filter_run o th sc AdaptSet ty t r X E M T H) as (y & R & K). exists y. split; [exact R|]. intros Y. destruct (K Y) as (b & B & F).
  exists b, (prop_z0 None r). split; [exact B|]. split; [now apply z0_at|exact F].
Qed.
Print Assumptions C96_set.
Example C96_set_ex : exists r' b, filter_trace None frame 2 1 AdaptSet Energy (Some ex_f) probe = Ok r' /\ r_p r' = b /\ 0 < b /\ ln b = 2 * ln (4773 / 10000).
Proof.
  destruct (C96_set frame 2 1 Energy ex_f probe (5227 / 1000) ex_f_even probe_moves probe_through (or_introl (conj eq_refl (eq_sym probe_energy)))) as (y & R & K).
  apply ex_f_reads in R. subst y. destruct K as (b & q & B & _ & F); [right; left; lra|]. eexists. exists b. split; [exact F|]. split; [reflexivity|]. rewrite Rmult_1_l in B. destruct B as [[A _]|[(_ & B & L)|(A & _)]]; [lra|tauto|lra].
Qed.

(** The documented "add" does not add: it sets. *)
Theorem C96_add_refuted : exists o t r y, even_table t /\ through o r /\ reads t (neutron_energy r) y /\ r_p r > 0 /\ y > 0 /\
  exists r', filter_trace None o 1 1 AdaptAdd Energy (Some t) r = Ok r' /\ r_p r' = y /\ r_p r' <> r_p r + y.
Proof.
  exists frame, ex_f, probe. destruct (filter_run frame 1 1 AdaptAdd Energy ex_f probe (5227 / 1000) ex_f_even probe_moves probe_through (or_introl (conj eq_refl (eq_sym probe_energy)))) as (y & R & K).
  pose proof (ex_f_reads y R) as Y. exists y. split; [exact ex_f_even|]. split; [exact probe_through|]. rewrite probe_energy. split; [exact R|]. split; [cbn; lra|]. split; [lra|].
  destruct (K (or_introl eq_refl)) as (b & B & F). eexists. split; [exact F|]. cbn. assert (b = y). { destruct B as [[_ ->]|[(A & B & L)|(A & _)]]; [lra| |lra]. rewrite Rmult_1_l in L. apply ln_inv in L; lra. } split; [assumption|lra].
Qed.
Print Assumptions C96_add_refuted.

(** Neutrons that miss the filter are absorbed; without a known quantity all are only moved to z = 0, also those that miss; without table the factor is 1. *)
Theorem C96_outside : forall o th sc mode ty t r, vz (r_vel r) <> 0 -> exists q, at_plane r q /\
  (ty <> Unknown -> ~ through o r -> exists r', filter_trace None o th sc mode ty t r = Ok r' /\ absorbed r') /\
  (ty = Unknown -> filter_trace None o th sc mode ty t r = Ok q) /\
  (ty <> Unknown -> through o r -> t = None -> mode = AdaptMult -> filter_trace None o th sc mode ty t r = Ok q).
Proof.
  intros o th sc mode ty t r M. exists (prop_z0 None r). split; [now apply z0_at|]. assert (A := area_through o r M). unfold filter_trace. cbv zeta. split; [|split].
  - intros N T. assert (A' : in_area o (prop_z0 None r) = false) by (destruct (in_area o (prop_z0 None r)); [exfalso; tauto|reflexivity]). rewrite A'. exists (absorb (prop_z0 None r)). split; [destruct ty; [congruence|reflexivity..]|unfold absorbed, absorb; cbn; lra].
  - intros ->. reflexivity.
  - intros N T -> ->. rewrite (proj2 A T). assert (X : exists X, filter_X ty (prop_z0 None r) = Ok X).
    { destruct ty; [congruence|exists (neutron_energy r)|exists (wavevector r)|exists (wavelength r)]; apply X_of; unfold is_X; tauto. }
    destruct X as [X EX]. destruct ty; [congruence|..]; rewrite EX; cbn [bind]; rewrite Rmult_1_r; unfold with_p; destruct (prop_z0 None r); reflexivity.
Qed.
Print Assumptions C96_outside.
Example C96_outside_ex : ~ through (mkOp 1 2 1 2 0) probe /\ through frame probe /\ vz (r_vel probe) <> 0.
Proof.
  split; [|split; [exact probe_through|exact probe_moves]]. intros (x & y & (s & A & B & C) & D & E). unfold coordinate in *. cbn in *. lra.
Qed.

(** The words in the options, or in the header of the file, which overrule the options: for the quantity wavelength before energy before wavevector, and for the mode "multiply" before "add" before "set". *)
Lemma str_app_length a b : String.length (a ++ b) = (String.length a + String.length b)%nat.
Proof. induction a as [|c a IH]; cbn; [reflexivity|now rewrite IH]. Qed.
Theorem C96_options : forall str m ty, let '(m', ty') := FilterGen_Mode (Some str) m ty in
  let k := contains str " k " \/ contains str " q " \/ contains str "wavevector" in
  let e := contains str "omega" \/ contains str " e " \/ contains str "energy" in
  let l := contains str "lambda" \/ contains str "wavelength" \/ contains str " L " in
  (l -> ty' = Wavelength) /\ (~ l -> e -> ty' = Energy) /\ (~ l -> ~ e -> k -> ty' = Wavevector) /\ (~ l -> ~ e -> ~ k -> ty' = ty) /\
  (contains str "multiply" -> m' = AdaptMult) /\ (~ contains str "multiply" -> contains str "add" -> m' = AdaptAdd) /\
  (~ contains str "multiply" -> ~ contains str "add" -> contains str "set" -> m' = AdaptSet) /\
  (~ contains str "multiply" -> ~ contains str "add" -> ~ contains str "set" -> m' = m).
Proof.
  intros str m ty. cbv zeta. unfold FilterGen_Mode. assert (N : forall s, (0 < String.length s)%nat -> String.length str = 0%nat -> ~ contains str s).
  { intros s L Z (a & b & ->). rewrite !str_app_length in Z. lia. }
  destruct (String.length str =? 0)%nat eqn:Z.
  - apply Nat.eqb_eq in Z. assert (K : forall s, (0 < String.length s)%nat -> ~ contains str s) by (intros; now apply N).
    pose proof (K " k "%string ltac:(cbn; lia)). pose proof (K " q "%string ltac:(cbn; lia)). pose proof (K "wavevector"%string ltac:(cbn; lia)). pose proof (K "omega"%string ltac:(cbn; lia)). pose proof (K " e "%string ltac:(cbn; lia)). pose proof (K "energy"%string ltac:(cbn; lia)).
    pose proof (K "lambda"%string ltac:(cbn; lia)). pose proof (K "wavelength"%string ltac:(cbn; lia)). pose proof (K " L "%string ltac:(cbn; lia)). pose proof (K "multiply"%string ltac:(cbn; lia)). pose proof (K "add"%string ltac:(cbn; lia)). pose proof (K "set"%string ltac:(cbn; lia)).
    repeat split; tauto.
  - clear N Z.
    assert (Q : forall a b c, (strstr str a || strstr str b || strstr str c)%bool = true <-> contains str a \/ contains str b \/ contains str c) by (intros; rewrite !Bool.orb_true_iff, !strstr_iff; tauto).
    pose proof (Q " k " " q " "wavevector")%string as Q1. pose proof (Q "omega" " e " "energy")%string as Q2. pose proof (Q "lambda" "wavelength" " L ")%string as Q3.
    pose proof (strstr_iff "multiply" str) as M1. pose proof (strstr_iff "add" str) as M2. pose proof (strstr_iff "set" str) as M3.
    assert (D : forall (b : bool) P, b = true <-> P -> P /\ b = true \/ ~ P /\ b = false) by (intros [] P K; intuition congruence).
    destruct (D _ _ Q1) as [[q1 eq1]|[q1 eq1]]; destruct (D _ _ Q2) as [[q2 eq2]|[q2 eq2]]; destruct (D _ _ Q3) as [[q3 eq3]|[q3 eq3]];
    destruct (D _ _ M1) as [[m1 em1]|[m1 em1]]; destruct (D _ _ M2) as [[m2 em2]|[m2 em2]]; destruct (D _ _ M3) as [[m3 em3]|[m3 em3]]; rewrite ?eq1, ?eq2, ?eq3, ?em1, ?em2, ?em3; clear - q1 q2 q3 m1 m2 m3; repeat split; intros; first [reflexivity|contradiction].
Qed.
Print Assumptions C96_options.
Example C96_options_ex : FilterGen_Mode (Some "# wavevector multiply"%string) AdaptSet Unknown = (AdaptMult, Wavevector) /\ FilterGen_Mode (Some "[ omega p] set"%string) AdaptMult Unknown = (AdaptSet, Energy) /\
  contains "# wavevector multiply" "wavevector".
Proof. split; [reflexivity|]. split; [reflexivity|]. exists "# "%string, " multiply"%string. reflexivity. Qed.

(** "wavector", as the documentation has it, is not among the words: every neutron passes with its weight. *)
Theorem C96_wavector_refuted : forall o th sc t r, vz (r_vel r) <> 0 -> exists q, at_plane r q /\
  let '(m, ty) := FilterGen_Mode (Some "wavector"%string) AdaptMult Unknown in filter_trace None o th sc m ty t r = Ok q.
Proof. intros o th sc t r M. exists (prop_z0 None r). split; [now apply z0_at|]. reflexivity. Qed.
Print Assumptions C96_wavector_refuted.
Example C96_wavector_ex : vz (r_vel probe) <> 0. Proof. exact probe_moves. Qed.

(** A file whose first column rises in even steps is used as it is, with the words of the header after those of the options; a file that cannot be read ends the program. *)
Theorem C96_init : forall options t header x0 h, shaped t -> (2 <= rows t)%Z -> (2 <= columns t)%Z -> bounded t -> even t x0 h -> 0 < h -> step_x t <> 0 -> min_x t <= max_x t ->
  exists t' m ty, FilterGen_Mode options AdaptMult Unknown = (m, ty) /\ even_table t' /\ same_content t t' /\
  filter_init options (Some (Some (t, header))) = Ok (fst (FilterGen_Mode header m ty), snd (FilterGen_Mode header m ty), Some t') /\
  filter_init options None = Ok (m, ty, None) /\ filter_init options (Some None) = Err Terminated.
Proof.
  intros options t header x0 h S R2 C2 B E Hh Hs Hm. destruct (FilterGen_Mode options AdaptMult Unknown) as [m ty] eqn:F.
  destruct (C79_stat t S R2 (even_rising t x0 h E Hh) B Hm) as (t' & A & C & (_ & D & _) & _ & _ & (k & K & Sk) & _).
  destruct (stat_even t x0 h S R2 B E Hh) as (t2 & A2 & _ & _ & G). assert (t2 = t') by congruence. subst t2.
  pose proof (same_el t t' C) as EL. pose proof C as (Cd & Cr & Cc & _). assert (Sh : step_x t' = h). { rewrite Sk. unfold step_at. rewrite (E k), (E (k + 1)%Z) by lia. rewrite plus_IZR. lra. }
  assert (Mx : min_x t' = x0). { rewrite D, EL, E by lia. lra. } pose proof S as (d & Sd & _).
  exists t', m, ty. split; [reflexivity|]. split; [|split; [exact C|]].
  - split; [now apply (same_shaped t t')|]. rewrite Cr, Cc, Sh, Mx. split; [exact R2|]. split; [exact C2|]. split; [exact Hh|]. intros i Hi. rewrite EL. apply E. now rewrite <- Cr.
  - unfold filter_init. rewrite F. split; [|split; reflexivity]. unfold Table_Rebin. rewrite Sd. rewrite (proj2 (Z.eqb_neq _ _)) by nia. rewrite (proj2 (Reqb_f _ _) Hs), A. cbn [orb bind]. rewrite G. cbn [bind snd].
    rewrite Cr, (proj2 (Z.ltb_ge _ _) R2), Sh, (proj2 (Reqb_f h 0)) by lra. cbn [orb]. rewrite Cd, Sd. destruct (FilterGen_Mode header m ty). reflexivity.
Qed.
Print Assumptions C96_init.
Example C96_init_ex : shaped ex_f /\ (2 <= rows ex_f)%Z /\ bounded ex_f /\ even ex_f 0 10 /\ step_x ex_f <> 0 /\ min_x ex_f <= max_x ex_f.
Proof.
  destruct ex_f_even as (A & B & _ & _ & E). split; [exact A|]. split; [exact B|]. split; [|split; [exact E|cbn; lra]]. assert (F : 11 <= FLT_MAX) by (apply IZR_le; lia). intros i Hi. cbn in Hi.
  assert (i = 0 \/ i = 1)%Z as [-> | ->] by lia; ev; rewrite Rabs_right; lra.
Qed.
