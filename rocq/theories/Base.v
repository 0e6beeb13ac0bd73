(** Shared vocabulary of the models: Python exceptions as values, exact
    rational "floats", Python list indexing, [min]/[max], stable sort and
    list removal.  No property is stated here. *)
From Coq Require Export List ZArith QArith Lia Lqa Bool Qminmax Qround Sorted Permutation.
Export ListNotations.
Open Scope Q_scope.

(** Python exception classes that can be raised by the modelled code.
    /repo/pvder/exceptionutil.py (exception_handler) logs and re-raises, so an
    exception inside any modelled method propagates to the caller. *)
Inductive exc :=
| ValueError | AssertionError | KeyError | IndexError | NameError
| AttributeError | TypeError | UnboundLocalError | ZeroDivisionError | FileNotFoundError.

Inductive res (A : Type) := Ok (a : A) | Raise (e : exc).
Arguments Ok {A} _.
Arguments Raise {A} _.

Definition bindR {A B} (r : res A) (f : A -> res B) : res B :=
  match r with Ok a => f a | Raise e => Raise e end.

Definition is_ok {A} (r : res A) : bool :=
  match r with Ok _ => true | Raise _ => false end.

(** Float comparisons.  Every finite Python float is a rational number and the
    comparison operators are exact, so [<], [<=], [==] on floats are the
    corresponding decisions on [Q]. *)
Definition qle (a b : Q) : bool := Qle_bool a b.
Definition qlt (a b : Q) : bool := negb (Qle_bool b a).
Definition qeq (a b : Q) : bool := Qeq_bool a b.

Lemma qle_iff a b : qle a b = true <-> a <= b.
Proof. apply Qle_bool_iff. Qed.
Lemma qle_false a b : qle a b = false <-> b < a.
Proof.
  unfold qle. destruct (Qle_bool a b) eqn:E.
  - apply Qle_bool_iff in E. split; [discriminate|]. intros H. lra.
  - split; auto. intros _. apply Qnot_le_lt. intros H.
    apply Qle_bool_iff in H. congruence.
Qed.
Lemma qlt_iff a b : qlt a b = true <-> a < b.
Proof. unfold qlt. rewrite negb_true_iff. apply qle_false. Qed.
Lemma qlt_false a b : qlt a b = false <-> b <= a.
Proof. unfold qlt. rewrite negb_false_iff. apply qle_iff. Qed.
Lemma qeq_iff a b : qeq a b = true <-> a == b.
Proof. apply Qeq_bool_iff. Qed.
Lemma qeq_false a b : qeq a b = false <-> ~ a == b.
Proof.
  unfold qeq. destruct (Qeq_bool a b) eqn:E.
  - apply Qeq_bool_iff in E. split; [discriminate|]. tauto.
  - split; auto. intros _ H. apply Qeq_bool_iff in H. congruence.
Qed.

(** Turn every boolean comparison in the context/goal into a [Q] (in)equality. *)
Ltac qb :=
  repeat match goal with
  | H : qle _ _ = true |- _ => apply qle_iff in H
  | H : qle _ _ = false |- _ => apply qle_false in H
  | H : qlt _ _ = true |- _ => apply qlt_iff in H
  | H : qlt _ _ = false |- _ => apply qlt_false in H
  | H : qeq _ _ = true |- _ => apply qeq_iff in H
  | H : qeq _ _ = false |- _ => apply qeq_false in H
  | H : andb _ _ = true |- _ => apply andb_true_iff in H; destruct H
  | H : orb _ _ = false |- _ => apply orb_false_iff in H; destruct H
  | H : negb _ = true |- _ => apply negb_true_iff in H
  | H : negb _ = false |- _ => apply negb_false_iff in H
  end.

(** Python's two-argument builtins: [min(a,b)] returns [a] unless [b < a];
    [max(a,b)] returns [a] unless [b > a]. *)
Definition py_min (a b : Q) : Q := if qlt b a then b else a.
Definition py_max (a b : Q) : Q := if qlt a b then b else a.
Definition py_abs (a : Q) : Q := if qlt a 0 then - a else a.

Lemma py_min_spec a b : (py_min a b = a /\ a <= b) \/ (py_min a b = b /\ b < a).
Proof. unfold py_min. destruct (qlt b a) eqn:E; qb; auto. Qed.
Lemma py_max_spec a b : (py_max a b = a /\ b <= a) \/ (py_max a b = b /\ a < b).
Proof. unfold py_max. destruct (qlt a b) eqn:E; qb; auto. Qed.
Lemma py_abs_spec a : (py_abs a = a /\ 0 <= a) \/ (py_abs a = - a /\ a < 0).
Proof. unfold py_abs. destruct (qlt a 0) eqn:E; qb; auto. Qed.

(** Python list indexing [l[i]] with a (possibly negative) integer. *)
Definition py_index {A} (l : list A) (i : Z) : res A :=
  let n := Z.of_nat (length l) in
  let j := if (i <? 0)%Z then (i + n)%Z else i in
  if ((0 <=? j)%Z && (j <? n)%Z)%bool
  then match nth_error l (Z.to_nat j) with Some a => Ok a | None => Raise IndexError end
  else Raise IndexError.

Lemma py_index_nat {A} (l : list A) (k : nat) a :
  nth_error l k = Some a -> py_index l (Z.of_nat k) = Ok a.
Proof.
  intros H. unfold py_index.
  assert (Hk : (k < length l)%nat) by (apply nth_error_Some; congruence).
  replace (Z.of_nat k <? 0)%Z with false by (symmetry; apply Z.ltb_ge; lia).
  replace (0 <=? Z.of_nat k)%Z with true by (symmetry; apply Z.leb_le; lia).
  replace (Z.of_nat k <? Z.of_nat (length l))%Z with true
    by (symmetry; apply Z.ltb_lt; lia).
  simpl. rewrite Nat2Z.id, H. reflexivity.
Qed.

Lemma py_index_neg {A} (l : list A) (k : nat) a :
  (k < length l)%nat ->
  nth_error l k = Some a -> py_index l (Z.of_nat k - Z.of_nat (length l)) = Ok a.
Proof.
  intros Hk H. unfold py_index.
  replace (Z.of_nat k - Z.of_nat (length l) <? 0)%Z with true
    by (symmetry; apply Z.ltb_lt; lia).
  replace (Z.of_nat k - Z.of_nat (length l) + Z.of_nat (length l))%Z with (Z.of_nat k) by lia.
  replace (0 <=? Z.of_nat k)%Z with true by (symmetry; apply Z.leb_le; lia).
  replace (Z.of_nat k <? Z.of_nat (length l))%Z with true
    by (symmetry; apply Z.ltb_lt; lia).
  simpl. rewrite Nat2Z.id, H. reflexivity.
Qed.
