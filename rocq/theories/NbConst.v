(** Model of /repo/pvder/constants.py:8-14. *)
From Verif Require Import RBase.
Definition Iscr : R := 803 / 100.
Definition Kv : R := 17 / 10000.
Definition T0 : R := 27315 / 100 + 25.
Definition Irs : R := 12 / 100000000.
Definition q : R := 1602 / 10000000000000000000000.
Definition k : R := 138 / 10000000000000000000000000.
Definition A : R := 192 / 100.
