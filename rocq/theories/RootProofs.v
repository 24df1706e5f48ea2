(** Proofs for C65. *)
From Coq Require Import Reals Ranalysis5 Lra.
From Verif Require Import Base RotModel ShapeModel ChanModel RootModel RootSpec.
Open Scope R_scope.

Lemma Rleb_iff a b : Rleb a b = true <-> a <= b. Proof. unfold Rleb. destruct (Rle_dec a b); split; auto; discriminate. Qed.
Lemma Rleb_not a b : Rleb a b = false <-> b < a. Proof. unfold Rleb. destruct (Rle_dec a b); split; try discriminate; try lra; auto. Qed.
Lemma Reqb_iff a b : Reqb a b = true <-> a = b. Proof. unfold Reqb. destruct (Req_EM_T a b); split; auto; discriminate. Qed.
Lemma Reqb_not a b : Reqb a b = false <-> a <> b. Proof. unfold Reqb. destruct (Req_EM_T a b); split; try discriminate; try congruence; auto. Qed.
Lemma sign_same a b : a <> 0 -> b <> 0 -> (sign a b = a <-> 0 < a * b).
Proof.
  intros A B. unfold sign, Rleb. destruct (Rle_dec 0 b); unfold Rabs; destruct (Rcase_abs a); split; intros H; nra.
Qed.

(** A bracket: values of f, of opposite signs, at two different points. *)
Definition good (f : R -> R) (b : bracket) : Prop := b_fl b = f (b_xl b) /\ b_fh b = f (b_xh b) /\ b_fl b * b_fh b < 0.
Definition answered (b : bracket) : Prop := b_ans b = UNUSED \/ b_ans b = b_xl b \/ b_ans b = b_xh b.
(** The relative place of the next estimate. *)
Definition place (f : R -> R) (a b : R) : R := (if Rleb (f b) (f a) then 1 else -1) * f (1 / 2 * (a + b)) / sqrt (f (1 / 2 * (a + b)) * f (1 / 2 * (a + b)) - f b * f a).
Definition estimate (f : R -> R) (a b : R) : R := a + (b - a) / 2 * (1 + place f a b).
Lemma next_x_spec f b : good f b -> exists q, q = place f (b_xl b) (b_xh b) /\ next_x b (1 / 2 * (b_xl b + b_xh b)) (f (1 / 2 * (b_xl b + b_xh b))) = Some (b_xl b + (b_xh b - b_xl b) / 2 * (1 + q)) /\ -1 < q < 1 /\
  (f (1 / 2 * (b_xl b + b_xh b)) = 0 -> q = 0) /\ (0 < f (1 / 2 * (b_xl b + b_xh b)) * b_fl b -> 0 < q) /\ (f (1 / 2 * (b_xl b + b_xh b)) * b_fl b < 0 -> q < 0).
Proof.
  intros (El & Eh & N). destruct b as [xl fl xh fh ans]. cbn [b_xl b_fl b_xh b_fh b_ans] in *. set (xm := 1 / 2 * (xl + xh)). set (fm := f xm). unfold next_x. cbn [b_xl b_fl b_xh b_fh].
  assert (P : 0 < fm * fm - fh * fl) by nra. rewrite (proj2 (Rleb_iff 0 _)) by lra. pose proof (sqrt_lt_R0 _ P) as S. rewrite (proj2 (Reqb_not _ 0)) by lra.
  set (s := sqrt (fm * fm - fh * fl)) in *. assert (SS : s * s = fm * fm - fh * fl) by (apply sqrt_sqrt; lra).
  assert (Q : -1 < fm / s < 1).
  { assert (E : fm = fm / s * s) by (field; lra). set (r := fm / s) in *. clearbody r. assert (K : 0 < s * s * (1 - r * r)) by (rewrite E in SS; nra). assert (0 < s * s) by nra. assert (0 < 1 - r * r) by (apply (Rmult_lt_reg_l (s * s)); lra). split; nra. }
  assert (I : 0 < / s) by now apply Rinv_0_lt_compat.
  exists ((if Rleb fh fl then 1 else -1) * fm / s). split; [unfold place; fold xm; fold fm; rewrite <- El, <- Eh; reflexivity|]. split; [f_equal; unfold xm; field; lra|].
  destruct (Rleb fh fl) eqn:C; [apply Rleb_iff in C|apply Rleb_not in C].
  - assert (0 < fl) by nra. replace (1 * fm / s) with (fm / s) by (field; lra). split; [lra|]. unfold Rdiv in *. split; [intros ->; lra|]. split; intros; nra.
  - assert (fl < 0) by nra. replace (-1 * fm / s) with (- (fm / s)) by (field; lra). split; [lra|]. unfold Rdiv in *. split; [intros ->; lra|]. split; intros; nra.
Qed.
(** The ways a step may end. *)
Lemma step_spec f xacc b : good f b -> answered b ->
  (ridder_step f xacc b = inl (check_answer (b_ans b)) /\ exists x, within (b_xl b) (b_xh b) x /\ x = estimate f (b_xl b) (b_xh b) /\ Rabs (x - b_ans b) <= xacc) \/
  (exists x, ridder_step f xacc b = inl (check_answer x) /\ within (b_xl b) (b_xh b) x /\ f x = 0 /\ xacc < Rabs (x - b_ans b)) \/
  (exists b', good f b' /\ (b_ans b' = b_xl b' \/ b_ans b' = b_xh b') /\ within (b_xl b) (b_xh b) (b_xl b') /\ within (b_xl b) (b_xh b) (b_xh b') /\ Rabs (b_xh b' - b_xl b') <= Rabs (b_xh b - b_xl b) / 2 /\
     ridder_step f xacc b = if Rleb (Rabs (b_xh b' - b_xl b')) xacc then inl (check_answer (b_ans b')) else inr b').
Proof.
  intros G A. destruct (next_x_spec f b G) as (q & Eq & E & Q & Z & P & N). unfold ridder_step. rewrite E. destruct b as [xl fl xh fh ans]. cbn [b_xl b_fl b_xh b_fh b_ans] in *.
  destruct G as (El & Eh & NG). cbn [b_xl b_fl b_xh b_fh] in *. set (xm := 1 / 2 * (xl + xh)) in *. set (fm := f xm) in *. set (xn := xl + (xh - xl) / 2 * (1 + q)) in *.
  assert (WN : within xl xh xn) by (unfold within, xn, Rmin, Rmax; destruct (Rle_dec xl xh); nra).
  assert (WM : within xl xh xm) by (unfold within, xm, Rmin, Rmax; destruct (Rle_dec xl xh); lra).
  assert (WL : within xl xh xl) by (unfold within, Rmin, Rmax; destruct (Rle_dec xl xh); lra).
  assert (WH : within xl xh xh) by (unfold within, Rmin, Rmax; destruct (Rle_dec xl xh); lra).
  destruct (Rleb (Rabs (xn - ans)) xacc) eqn:C1; [left; split; [reflexivity|]; exists xn; split; [exact WN|]; split; [unfold estimate, xn; now rewrite Eq|now apply Rleb_iff]|]. right.
  destruct (Reqb (f xn) 0) eqn:C2; [left; exists xn; split; [reflexivity|]; split; [exact WN|]; split; [now apply Reqb_iff|now apply Rleb_not]|]. right. apply Reqb_not in C2.
  assert (FM : fm <> 0). { intros Q0. apply C2. specialize (Z Q0). replace xn with xm by (unfold xn, xm; rewrite Z; lra). exact Q0. }
  assert (FL : fl <> 0) by nra. assert (FH : fh <> 0) by nra.
  destruct (Reqb (sign fm (f xn)) fm) eqn:C3; cbn [negb].
  - apply Reqb_iff in C3. apply (sign_same _ _ FM C2) in C3. destruct (Reqb (sign fl (f xn)) fl) eqn:C4; cbn [negb].
    + apply Reqb_iff in C4. apply (sign_same _ _ FL C2) in C4. assert (C5 : Reqb (sign fh (f xn)) fh = false). { apply Reqb_not. intros C5. apply (sign_same _ _ FH C2) in C5. nra. }
      rewrite C5. cbn [negb]. exists (mkB xn (f xn) xh fh xn). cbn [b_xl b_fl b_xh b_fh b_ans]. split; [split; [reflexivity|split; [exact Eh|cbn; nra]]|]. split; [now left|]. split; [exact WN|]. split; [exact WH|]. split; [|reflexivity].
      assert (0 < q) by (apply P; nra). unfold xn. replace (xh - (xl + (xh - xl) / 2 * (1 + q))) with ((xh - xl) * ((1 - q) / 2)) by field. rewrite Rabs_mult, (Rabs_right ((1 - q) / 2)) by lra. pose proof (Rabs_pos (xh - xl)). nra.
    + apply Reqb_not in C4. assert (C5 : fl * f xn < 0). { destruct (Rlt_dec 0 (fl * f xn)) as [C5|C5]; [apply (sign_same _ _ FL C2) in C5; congruence|]. assert (fl * f xn <> 0) by (intros K; apply Rmult_integral in K; tauto). lra. }
      exists (mkB xl fl xn (f xn) xn). cbn [b_xl b_fl b_xh b_fh b_ans]. split; [split; [exact El|split; [reflexivity|exact C5]]|]. split; [now right|]. split; [exact WL|]. split; [exact WN|]. split; [|reflexivity].
      assert (q < 0) by (apply N; nra). unfold xn. replace (xl + (xh - xl) / 2 * (1 + q) - xl) with ((xh - xl) * ((1 + q) / 2)) by field. rewrite Rabs_mult, (Rabs_right ((1 + q) / 2)) by lra. pose proof (Rabs_pos (xh - xl)). nra.
  - apply Reqb_not in C3. assert (C5 : fm * f xn < 0). { destruct (Rlt_dec 0 (fm * f xn)) as [C5|C5]; [apply (sign_same _ _ FM C2) in C5; congruence|]. assert (fm * f xn <> 0) by (intros K; apply Rmult_integral in K; tauto). lra. }
    exists (mkB xm fm xn (f xn) xn). cbn [b_xl b_fl b_xh b_fh b_ans]. split; [split; [reflexivity|split; [reflexivity|exact C5]]|]. split; [now right|]. split; [exact WM|]. split; [exact WN|]. split; [|reflexivity].
    unfold xn, xm. replace (xl + (xh - xl) / 2 * (1 + q) - 1 / 2 * (xl + xh)) with ((xh - xl) * (q / 2)) by field. rewrite Rabs_mult. pose proof (Rabs_pos (xh - xl)).
    assert (Rabs (q / 2) <= 1 / 2) by (unfold Rabs; destruct (Rcase_abs (q / 2)); lra). nra.
Qed.
Lemma within_trans a b c d x : within a b c -> within a b d -> within c d x -> within a b x.
Proof. unfold within, Rmin, Rmax. destruct (Rle_dec a b), (Rle_dec c d); lra. Qed.
Lemma within_left a b : within a b a. Proof. unfold within, Rmin, Rmax. destruct (Rle_dec a b); lra. Qed.
Lemma within_right a b : within a b b. Proof. unfold within, Rmin, Rmax. destruct (Rle_dec a b); lra. Qed.
Lemma check_found a x : check_answer a = Found x -> a = x.
Proof. unfold check_answer. destruct (Reqb a UNUSED); [discriminate|congruence]. Qed.
(** What the answer of the loop is. *)
Definition answer (f : R -> R) (xacc xl xh x : R) : Prop :=
  f x = 0 \/ exists a b, within xl xh a /\ within xl xh b /\ f a * f b < 0 /\ (x = a \/ x = b) /\ (Rabs (b - a) <= xacc \/ exists y, within a b y /\ y = estimate f a b /\ Rabs (y - x) <= xacc).
Lemma answer_mono f xacc xl xh a b x : within xl xh a -> within xl xh b -> answer f xacc a b x -> answer f xacc xl xh x.
Proof.
  intros A B [H|(c & d & C & D & N & E & H)]; [now left|]. right. exists c, d. split; [now apply (within_trans xl xh a b)|]. split; [now apply (within_trans xl xh a b)|]. tauto.
Qed.
Lemma loop_found f xacc n : forall b x, good f b -> answered b -> ridder_loop f xacc n b = Found x -> within (b_xl b) (b_xh b) x /\ answer f xacc (b_xl b) (b_xh b) x.
Proof.
  induction n as [|n IH]; intros b x G A H; [discriminate H|]. cbn [ridder_loop] in H. destruct (step_spec f xacc b G A) as [(E & y & Wy & Y)|[(y & E & Wy & Y & _)|(b' & G' & A' & Wl & Wh & Hh & E)]]; rewrite E in H.
  - unfold check_answer in H. destruct (Reqb (b_ans b) UNUSED) eqn:U; [discriminate H|]. apply Reqb_not in U. injection H as H. subst x. destruct A as [A|A]; [contradiction|].
    pose proof (within_left (b_xl b) (b_xh b)) as WA. pose proof (within_right (b_xl b) (b_xh b)) as WB. split; [destruct A as [-> | ->]; assumption|]. right.
    exists (b_xl b), (b_xh b). destruct G as (E1 & E2 & N). rewrite <- E1, <- E2. split; [exact WA|]. split; [exact WB|]. split; [exact N|]. split; [exact A|]. right. exists y. split; [exact Wy|exact Y].
  - apply check_found in H. subst y. split; [exact Wy|now left].
  - destruct (Rleb (Rabs (b_xh b' - b_xl b')) xacc) eqn:C.
    + apply check_found in H. apply Rleb_iff in C. pose proof G' as (E1 & E2 & N). rewrite E1, E2 in N. split; [destruct A' as [A'|A']; rewrite A' in H; subst x; assumption|]. right. exists (b_xl b'), (b_xh b').
      split; [exact Wl|]. split; [exact Wh|]. split; [exact N|]. split; [destruct A' as [A'|A']; rewrite A' in H; auto|now left].
    + destruct (IH b' x G' ltac:(unfold answered; tauto) H) as [W1 W2]. split; [now apply (within_trans _ _ (b_xl b') (b_xh b'))|now apply (answer_mono f xacc _ _ (b_xl b') (b_xh b'))].
Qed.
(** The loop ends with an answer if the bracket is not too wide. *)
Lemma loop_ends f xacc n : forall b, good f b -> (b_ans b = b_xl b \/ b_ans b = b_xh b) -> UNUSED < Rmin (b_xl b) (b_xh b) -> 0 < xacc -> Rabs (b_xh b - b_xl b) <= 2 ^ n * xacc -> (0 < n)%nat -> exists x, ridder_loop f xacc n b = Found x.
Proof.
  assert (CK : forall a, UNUSED < a -> check_answer a = Found a) by (intros a H; unfold check_answer; rewrite (proj2 (Reqb_not a UNUSED)) by lra; reflexivity).
  assert (LW : forall a b x, within a b x -> UNUSED < Rmin a b -> UNUSED < x) by (intros a b x W H; unfold within in W; lra).
  induction n as [|n IH]; intros b G A U X W N; [lia|]. cbn [ridder_loop].
  destruct (step_spec f xacc b G ltac:(unfold answered; tauto)) as [(E & _)|[(y & E & Wy & _)|(b' & G' & A' & Wl & Wh & Hh & E)]]; rewrite E.
  - exists (b_ans b). apply CK. destruct A as [-> | ->]; apply (LW (b_xl b) (b_xh b)); try assumption; try apply within_left; try apply within_right.
  - exists y. apply CK. now apply (LW _ _ y Wy).
  - destruct (Rleb (Rabs (b_xh b' - b_xl b')) xacc) eqn:C.
    + exists (b_ans b'). apply CK. destruct A' as [-> | ->]; apply (LW (b_xl b) (b_xh b)); try assumption; try apply within_left; try apply within_right.
    + apply Rleb_not in C. assert (W' : Rabs (b_xh b' - b_xl b') <= 2 ^ n * xacc) by (cbn [pow] in W; lra). destruct n as [|n]; [cbn [pow] in W'; lra|].
      apply IH; try assumption; [|lia]. unfold Rmin at 1. destruct (Rle_dec (b_xl b') (b_xh b')); apply (LW (b_xl b) (b_xh b)); try assumption; try apply within_left; try apply within_right.
Qed.
(** The same for the first bracket, which has no answer yet. *)
Lemma loop_starts f xacc n x1 x2 : f x1 * f x2 < 0 -> UNUSED + xacc < Rmin x1 x2 -> 0 < xacc -> Rabs (x2 - x1) <= 2 ^ n * xacc -> (0 < n)%nat -> exists x, ridder_loop f xacc n (mkB x1 (f x1) x2 (f x2) UNUSED) = Found x.
Proof.
  intros S U X W N. assert (CK : forall a, UNUSED < a -> check_answer a = Found a) by (intros a H; unfold check_answer; rewrite (proj2 (Reqb_not a UNUSED)) by lra; reflexivity).
  assert (G : good f (mkB x1 (f x1) x2 (f x2) UNUSED)) by (split; [reflexivity|split; [reflexivity|exact S]]).
  destruct n as [|n]; [lia|]. cbn [ridder_loop]. destruct (step_spec f xacc _ G (or_introl eq_refl)) as [(E & y & Wy & _ & Y)|[(y & E & Wy & _)|(b' & G' & A' & Wl & Wh & Hh & E)]]; cbn [b_xl b_xh b_ans] in *.
  - exfalso. unfold within in Wy. unfold Rabs in Y. destruct (Rcase_abs (y - UNUSED)); lra.
  - rewrite E. exists y. apply CK. unfold within in Wy. lra.
  - rewrite E. destruct (Rleb (Rabs (b_xh b' - b_xl b')) xacc) eqn:C.
    + exists (b_ans b'). apply CK. unfold within in Wl, Wh. destruct A' as [-> | ->]; lra.
    + apply Rleb_not in C. assert (W' : Rabs (b_xh b' - b_xl b') <= 2 ^ n * xacc) by (cbn [pow] in W; lra). destruct n as [|n]; [cbn [pow] in W'; lra|].
      apply loop_ends; try assumption; [|lia]. unfold within in Wl, Wh. unfold Rmin at 1. destruct (Rle_dec (b_xl b') (b_xh b')); lra.
Qed.
(** zridd. *)
Lemma zridd_failed f x1 x2 xacc : 0 < f x1 * f x2 -> zridd f x1 x2 xacc = Failed.
Proof. intros H. unfold zridd. rewrite (proj2 (Rleb_iff 0 _)) by lra. rewrite (proj2 (Reqb_not (f x1) 0)) by nra. rewrite (proj2 (Reqb_not (f x2) 0)) by nra. reflexivity. Qed.
Lemma zridd_loop f x1 x2 xacc : f x1 * f x2 < 0 -> zridd f x1 x2 xacc = ridder_loop f xacc 59 (mkB x1 (f x1) x2 (f x2) UNUSED).
Proof. intros H. unfold zridd. rewrite (proj2 (Rleb_not 0 _)) by lra. reflexivity. Qed.
Lemma sign_cases f a b : changes_sign f a b <-> f a * f b <= 0.
Proof. unfold changes_sign. split; [intros [H|H]; nra|]. intros H. destruct (Rle_dec (f a) 0), (Rle_dec (f b) 0); try nra. Qed.
Lemma zridd_found f x1 x2 xacc x : zridd f x1 x2 xacc = Found x -> f x1 * f x2 <= 0 /\ within x1 x2 x /\ answer f xacc x1 x2 x.
Proof.
  intros H. destruct (Rtotal_order (f x1 * f x2) 0) as [L|[L|L]].
  - rewrite (zridd_loop _ _ _ _ L) in H. split; [lra|]. apply loop_found in H; [exact H|split; [reflexivity|split; [reflexivity|exact L]]|now left].
  - split; [lra|]. unfold zridd in H. rewrite (proj2 (Rleb_iff 0 _)) in H by lra. destruct (Reqb (f x1) 0) eqn:E1; [apply Reqb_iff in E1; injection H as <-; split; [apply within_left|now left]|].
    destruct (Reqb (f x2) 0) eqn:E2; [apply Reqb_iff in E2; injection H as <-; split; [apply within_right|now left]|discriminate H].
  - rewrite (zridd_failed _ _ _ _ L) in H. discriminate H.
Qed.
Lemma zridd_finds f x1 x2 xacc : f x1 * f x2 <= 0 -> UNUSED + xacc < Rmin x1 x2 -> 0 < xacc -> Rabs (x2 - x1) <= 2 ^ 59 * xacc -> exists x, zridd f x1 x2 xacc = Found x.
Proof.
  intros S U X W. destruct S as [L|L]; [rewrite (zridd_loop _ _ _ _ L); apply loop_starts; try assumption; lia|].
  unfold zridd. rewrite (proj2 (Rleb_iff 0 _)) by lra. destruct (Reqb (f x1) 0) eqn:E1; [now exists x1|]. destruct (Reqb (f x2) 0) eqn:E2; [now exists x2|]. apply Reqb_not in E1. apply Reqb_not in E2. apply Rmult_integral in L. tauto.
Qed.
Lemma ivt f a b : continuous_between f a b -> f a * f b <= 0 -> exists r, within a b r /\ f r = 0.
Proof.
  intros C S. destruct (Req_dec (f a) 0) as [E|NA]; [exists a; split; [apply within_left|exact E]|]. destruct (Req_dec (f b) 0) as [E|NB]; [exists b; split; [apply within_right|exact E]|].
  assert (NE : a <> b) by (intros ->; nra).
  assert (G : forall g x y, x < y -> (forall z, x <= z <= y -> continuity_pt g z) -> g x < 0 -> 0 < g y -> exists r, x <= r <= y /\ g r = 0).
  { intros g x y L K X Y. destruct (IVT_interv g x y K L X Y) as (r & R1 & R2). now exists r. }
  assert (H : forall x y, x < y -> (forall z, x <= z <= y -> continuity_pt f z) -> f x * f y < 0 -> exists r, x <= r <= y /\ f r = 0).
  { intros x y L K P. destruct (Rlt_dec (f x) 0) as [X|X].
    - apply G; try assumption. apply Rnot_le_lt. intros Z. nra.
    - assert (X0 : 0 < f x) by (destruct (Req_dec (f x) 0) as [Z|Z]; [rewrite Z in P; lra|lra]). assert (Y0 : f y < 0) by (apply Rnot_le_lt; intros K1; pose proof (Rmult_le_pos _ _ (Rlt_le _ _ X0) K1); lra).
      destruct (G (fun z => - f z)%R x y L) as (r & R1 & R2).
      + intros z Z. apply (continuity_pt_opp f z (K z Z)).
      + lra.
      + lra.
      + exists r. split; [exact R1|lra]. }
  assert (P : f a * f b < 0) by (destruct S as [S|S]; [exact S|apply Rmult_integral in S; tauto]).
  destruct (Rlt_dec a b) as [L|L].
  - destruct (H a b L) as (r & R1 & R2); [intros z Z; apply C; unfold within, Rmin, Rmax; destruct (Rle_dec a b); lra|exact P|]. exists r. split; [unfold within, Rmin, Rmax; destruct (Rle_dec a b); lra|exact R2].
  - destruct (H b a ltac:(lra)) as (r & R1 & R2); [intros z Z; apply C; unfold within, Rmin, Rmax; destruct (Rle_dec a b); lra|lra|]. exists r. split; [unfold within, Rmin, Rmax; destruct (Rle_dec a b); lra|exact R2].
Qed.
(** Straight lines. *)
Lemma zridd_linear m c x1 x2 xacc : (m * x1 + c) * (m * x2 + c) < 0 -> 0 <= xacc -> UNUSED + xacc < Rmin x1 x2 -> zridd (fun x => m * x + c) x1 x2 xacc = Found (- c / m).
Proof.
  intros S X U. assert (M : m <> 0) by (intros ->; nra). rewrite zridd_loop by exact S. change 59%nat with (Datatypes.S 58). cbn [ridder_loop].
  assert (E : next_x (mkB x1 (m * x1 + c) x2 (m * x2 + c) UNUSED) (1 / 2 * (x1 + x2)) (m * (1 / 2 * (x1 + x2)) + c) = Some (- c / m)).
  { unfold next_x. cbn [b_xl b_fl b_xh b_fh]. set (fm := m * (1 / 2 * (x1 + x2)) + c).
    replace (fm * fm - (m * x2 + c) * (m * x1 + c)) with ((m * (x2 - x1) / 2)²) by (unfold fm, Rsqr; field). rewrite (proj2 (Rleb_iff 0 _)) by apply Rle_0_sqr. rewrite sqrt_Rsqr_abs.
    assert (D : m * (x2 - x1) <> 0) by (intros K; assert (K1 : m * x2 + c = m * x1 + c) by lra; rewrite K1 in S; pose proof (Rle_0_sqr (m * x1 + c)) as K2; unfold Rsqr in K2; lra). rewrite (proj2 (Reqb_not (Rabs _) 0)) by (apply Rabs_no_R0; lra). f_equal.
    destruct (Rleb (m * x2 + c) (m * x1 + c)) eqn:C; [apply Rleb_iff in C; rewrite Rabs_left by lra|apply Rleb_not in C; rewrite Rabs_right by lra]; unfold fm; field; (split; [exact M|]); intros K; apply D; nra. }
  unfold ridder_step. cbn [b_xl b_xh b_ans b_fl b_fh]. rewrite E.
  assert (Wr : within x1 x2 (- c / m)).
  { set (r := - c / m). assert (Er : m * r + c = 0) by (unfold r; field; exact M). clearbody r. assert (Ec : c = - (m * r)) by lra. rewrite Ec in S. assert (M2 : 0 < m * m) by (apply Rsqr_pos_lt in M; exact M).
    assert (S2 : (x1 - r) * (x2 - r) < 0). { apply (Rmult_lt_reg_l (m * m)); [exact M2|]. lra. } unfold within, Rmin, Rmax. destruct (Rle_dec x1 x2); nra. }
  rewrite (proj2 (Rleb_not _ xacc)). 2:{ unfold within in Wr. unfold Rabs. destruct (Rcase_abs (- c / m - UNUSED)); lra. }
  replace (m * (- c / m) + c) with 0 by (field; exact M). rewrite (proj2 (Reqb_iff 0 0)) by reflexivity. unfold check_answer.
  rewrite (proj2 (Reqb_not _ UNUSED)); [reflexivity|]. unfold within in Wr. intros K. rewrite K in Wr.
  lra.
Qed.
