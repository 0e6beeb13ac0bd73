(** The constant used for pi in the event arithmetic is the double next to pi. *)
From Coq Require Import Reals QArith Qreals Lra Lia Machin Ratan.
From Verif Require EventsModel.
Open Scope R_scope.

(** partial sums of Machin's series, in exact rationals *)
Fixpoint qpow (q : Q) (n : nat) : Q := match n with O => 1%Q | S k => (q * qpow q k)%Q end.
Definition qsgn (n : nat) : Q := if Nat.even n then 1%Q else (-1)%Q.
Definition qterm (n : nat) : Q :=
  Qred (qsgn n * ((2 # 1) * (qpow (1#3) (2*n+1) / inject_Z (Z.of_nat (2*n+1)))
   + qpow (1#7) (2*n+1) / inject_Z (Z.of_nat (2*n+1))))%Q.
Fixpoint qsum (n : nat) : Q :=
  match n with O => qterm 0 | S k => Qred (qsum k + qterm (S k)) end.

Lemma qpow_R q n : Q2R (qpow q n) = Q2R q ^ n.
Proof. induction n as [|n IH]; simpl; [unfold Q2R; simpl; field|]. rewrite Q2R_mult, IH. reflexivity. Qed.
Lemma qsgn_R n : Q2R (qsgn n) = (-1) ^ n.
Proof.
  unfold qsgn. rewrite <- (Nat.negb_odd n). induction n as [|n IH]; [unfold Q2R; simpl; field|].
  rewrite Nat.odd_succ, <- Nat.negb_odd, Bool.negb_involutive. simpl pow. rewrite <- IH.
  destruct (Nat.odd n); unfold Q2R; simpl; field.
Qed.
Lemma inj_R n : Q2R (inject_Z (Z.of_nat n)) = INR n.
Proof. unfold Q2R, inject_Z. simpl. rewrite <- INR_IZR_INZ. field. Qed.
Lemma qterm_R n : Q2R (qterm n) = tg_alt PI_2_3_7_tg n.
Proof.
  unfold qterm. rewrite (Qeq_eqR _ _ (Qred_correct _)).
  rewrite Q2R_mult, qsgn_R, Q2R_plus, !Q2R_mult.
  rewrite !Q2R_div by (intros H; assert (H' : (Z.of_nat (2*n+1) * 1 = 0 * 1)%Z) by exact H; lia).
  rewrite !qpow_R, !inj_R. unfold tg_alt, PI_2_3_7_tg, Ratan_seq.
  replace (Q2R (2#1)) with 2 by (unfold Q2R; simpl; field).
  replace (Q2R (1#3)) with (/3) by (unfold Q2R; simpl; field).
  replace (Q2R (1#7)) with (/7) by (unfold Q2R; simpl; field).
  reflexivity.
Qed.
Lemma qsum_R n : Q2R (qsum n) = sum_f_R0 (tg_alt PI_2_3_7_tg) n.
Proof.
  induction n as [|n IH]; [apply qterm_R|]. cbn [qsum sum_f_R0].
  rewrite (Qeq_eqR _ _ (Qred_correct _)), Q2R_plus, IH, qterm_R. reflexivity.
Qed.

Theorem C07_pi_constant : Rabs (Q2R EventsModel.math_pi - PI) < Q2R (2 # 10000000000000000).
Proof.
  destruct (PI_2_3_7_ineq 8) as [Hl Hu]. rewrite <- !qsum_R in Hl, Hu.
  assert (L : (EventsModel.math_pi - (4#1) * qsum (S (2*8)) < 2 # 10000000000000000)%Q) by (vm_compute; reflexivity).
  assert (U : ((4#1) * qsum (2*8) - EventsModel.math_pi < 2 # 10000000000000000)%Q) by (vm_compute; reflexivity).
  apply Qlt_Rlt in L, U. rewrite Q2R_minus, Q2R_mult in L, U.
  replace (Q2R (4#1)) with 4 in L, U by (unfold Q2R; simpl; field).
  apply Rabs_def1; lra.
Qed.
Print Assumptions C07_pi_constant.
