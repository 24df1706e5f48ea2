(** Decimal rendering of Python ints ("%s" % i, str(i)) and a few facts about it. *)
From Verif Require Import Base.
From Coq Require Import Ascii DecimalString DecimalZ.
Open Scope Z_scope.

(* Python's str(int); used e.g. by packages/mcni/python/mcni/SimulationContext.py:48,50 *)
Definition str_of_Z (z : Z) : string := NilEmpty.string_of_int (Z.to_int z).

Lemma str_of_Z_inj a b : str_of_Z a = str_of_Z b -> a = b.
Proof.
  unfold str_of_Z. intro H.
  assert (E : Z.to_int a = Z.to_int b).
  { apply (f_equal NilEmpty.int_of_string) in H. rewrite !NilEmpty.isi in H. congruence. }
  rewrite <- (DecimalZ.of_to a), <- (DecimalZ.of_to b). f_equal. exact E.
Qed.

(** The part of a string before the first occurrence of a character, and the rest. *)
Fixpoint split_at (c : ascii) (s : string) : string * string :=
  match s with
  | EmptyString => (EmptyString, EmptyString)
  | String a s' => if Ascii.eqb a c then (EmptyString, s)
                   else let (x, y) := split_at c s' in (String a x, y)
  end.

Fixpoint has_char (c : ascii) (s : string) : bool :=
  match s with EmptyString => false | String a s' => Ascii.eqb a c || has_char c s' end.

Lemma split_at_app c s t : has_char c s = false ->
  split_at c (s ++ String c t)%string = (s, String c t).
Proof.
  induction s as [|a s IH]; cbn; intro H.
  - rewrite Ascii.eqb_refl. reflexivity.
  - apply orb_false_iff in H as [H1 H2]. rewrite H1, (IH H2). reflexivity.
Qed.

Lemma app_sep_inj c s1 s2 t1 t2 : has_char c s1 = false -> has_char c s2 = false ->
  (s1 ++ String c t1)%string = (s2 ++ String c t2)%string -> s1 = s2 /\ t1 = t2.
Proof.
  intros H1 H2 E. pose proof (split_at_app c s1 t1 H1) as E1. pose proof (split_at_app c s2 t2 H2) as E2.
  rewrite E in E1. rewrite E1 in E2. injection E2 as <- <-. auto.
Qed.

Definition is_digit (a : ascii) : bool :=
  let n := nat_of_ascii a in Nat.leb 48 n && Nat.leb n 57.
Fixpoint all_digits (s : string) : bool :=
  match s with EmptyString => true | String a s' => is_digit a && all_digits s' end.

Lemma uint_digits d : all_digits (NilEmpty.string_of_uint d) = true.
Proof. induction d; cbn; auto. Qed.

Lemma nonneg_digits z : 0 <= z -> all_digits (str_of_Z z) = true.
Proof.
  intro H. unfold str_of_Z. destruct z; [reflexivity| |lia]. cbn. apply uint_digits.
Qed.

Lemma digits_no_char c s : is_digit c = false -> all_digits s = true -> has_char c s = false.
Proof.
  intros Hc. induction s as [|a s IH]; cbn; [reflexivity|]. intro H.
  apply andb_true_iff in H as [H1 H2]. rewrite (IH H2), orb_false_r.
  destruct (Ascii.eqb_spec a c); [congruence|reflexivity].
Qed.

Lemma str_of_Z_nonempty z : str_of_Z z <> EmptyString.
Proof.
  intro H. unfold str_of_Z in H. destruct (Z.to_int z) as [d|d] eqn:E; [|discriminate].
  cbn in H. destruct d; try discriminate.
  pose proof (DecimalZ.of_to z) as O. rewrite E in O. cbn in O. subst z. discriminate.
Qed.

Lemma append_assoc (a b c : string) : ((a ++ b) ++ c)%string = (a ++ (b ++ c))%string.
Proof. induction a; cbn; congruence. Qed.
Lemma append_inj_l (a b c : string) : (a ++ b)%string = (a ++ c)%string -> b = c.
Proof. induction a; cbn; intro H; [assumption|]. injection H. auto. Qed.
