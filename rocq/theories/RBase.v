(** Vocabulary of the models over the real numbers (standard library Reals):
    comparisons, Python's min/max, complex numbers.  No property is stated here. *)
From Coq Require Export Reals Lra Lia List Bool.
Export ListNotations.
From Verif Require Base.
Notation res := Base.res.
Notation Ok := Base.Ok.
Notation Raise := Base.Raise.
Notation bindR := Base.bindR.
Notation ValueError := Base.ValueError.
Notation ZeroDivisionError := Base.ZeroDivisionError.
Open Scope R_scope.

(** Python's comparisons, on exact reals. *)
Definition rle (a b : R) : bool := if Rle_dec a b then true else false.
Definition rlt (a b : R) : bool := if Rlt_dec a b then true else false.
Definition req (a b : R) : bool := if Req_EM_T a b then true else false.
Lemma rle_iff a b : rle a b = true <-> a <= b.
Proof. unfold rle. destruct (Rle_dec a b); split; intros; auto; try discriminate; contradiction. Qed.
Lemma rle_false a b : rle a b = false <-> b < a.
Proof. unfold rle. destruct (Rle_dec a b); split; intros; auto; try discriminate; lra. Qed.
Lemma rlt_iff a b : rlt a b = true <-> a < b.
Proof. unfold rlt. destruct (Rlt_dec a b); split; intros; auto; try discriminate; contradiction. Qed.
Lemma rlt_false a b : rlt a b = false <-> b <= a.
Proof. unfold rlt. destruct (Rlt_dec a b); split; intros; auto; try discriminate; lra. Qed.
Lemma req_iff a b : req a b = true <-> a = b.
Proof. unfold req. destruct (Req_EM_T a b); split; intros; auto; try discriminate; contradiction. Qed.
Lemma req_false a b : req a b = false <-> a <> b.
Proof. unfold req. destruct (Req_EM_T a b); split; intros; auto; try discriminate; contradiction. Qed.

Ltac rb :=
  repeat match goal with
  | H : rle _ _ = true |- _ => apply rle_iff in H
  | H : rle _ _ = false |- _ => apply rle_false in H
  | H : rlt _ _ = true |- _ => apply rlt_iff in H
  | H : rlt _ _ = false |- _ => apply rlt_false in H
  | H : req _ _ = true |- _ => apply req_iff in H
  | H : req _ _ = false |- _ => apply req_false in H
  | H : andb _ _ = true |- _ => apply andb_true_iff in H; destruct H
  | H : andb _ _ = false |- _ => apply andb_false_iff in H; destruct H
  | H : orb _ _ = false |- _ => apply orb_false_iff in H; destruct H
  | H : orb _ _ = true |- _ => apply orb_true_iff in H; destruct H
  | H : negb _ = true |- _ => apply negb_true_iff in H
  | H : negb _ = false |- _ => apply negb_false_iff in H
  end.

(** math.sqrt: ValueError on negative arguments. *)
Definition py_sqrt (x : R) : res R := if rlt x 0 then Raise ValueError else Ok (sqrt x).

(** Complex numbers as pairs (real, imaginary). *)
Record cx := Cx { re : R; im : R }.
Definition RtoCx (x : R) : cx := Cx x 0.
Definition cadd a b := Cx (re a + re b) (im a + im b).
Definition csub a b := Cx (re a - re b) (im a - im b).
Definition cneg a := Cx (- re a) (- im a).
Definition cmul a b := Cx (re a * re b - im a * im b) (re a * im b + im a * re b).
Definition conj a := Cx (re a) (- im a).
Definition cscale (k : R) a := Cx (k * re a) (k * im a).
Definition cnorm2 a := re a * re a + im a * im a.
Definition cinv a := Cx (re a / cnorm2 a) (- im a / cnorm2 a).
Definition cdiv a b := cmul a (cinv b).
(** abs(z) *)
Definition cabs a := sqrt (cnorm2 a).
(** e^(j*theta) *)
Definition cexp (theta : R) := Cx (cos theta) (sin theta).

Declare Scope cx_scope.
Delimit Scope cx_scope with cx.
Infix "+" := cadd : cx_scope.
Infix "-" := csub : cx_scope.
Infix "*" := cmul : cx_scope.
Infix "/" := cdiv : cx_scope.
Notation "- x" := (cneg x) : cx_scope.

Lemma cx_eq a b : re a = re b -> im a = im b -> a = b.
Proof. destruct a, b; simpl; intros -> ->; reflexivity. Qed.
Lemma cnorm2_nonneg a : 0 <= cnorm2 a.
Proof. unfold cnorm2. nra. Qed.
Lemma cnorm2_zero a : cnorm2 a = 0 -> a = Cx 0 0.
Proof. unfold cnorm2. intros. apply cx_eq; simpl; nra. Qed.
Lemma cnorm2_pos a : a <> Cx 0 0 -> 0 < cnorm2 a.
Proof.
  intros H. destruct (Rle_lt_or_eq_dec 0 _ (cnorm2_nonneg a)) as [K|K]; auto.
  elim H. apply cnorm2_zero. auto.
Qed.
