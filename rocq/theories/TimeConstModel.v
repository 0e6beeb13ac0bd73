(** Model of find_first_order_time_constant, utility_functions.py:361-369.  The
    printed line is modelled as the triple of printed numbers (before rounding to
    three decimals), [None] if nothing is printed. *)
From Verif Require Import RBase.
From Coq Require Import Reals List Lra.
Import ListNotations.
Open Scope R_scope.

Definition expected (ys : list R) : R := hd 0 ys - (hd 0 ys - last ys 0) * (63 / 100).
Fixpoint search (target t_event : R) (tys : list (R * R)) : option (R * R * R) :=
  match tys with
  | [] => None
  | (t, y) :: r => if Rlt_dec y target then Some (t - t_event, y, target) else search target t_event r
  end.
Definition find_first_order_time_constant (ts ys : list R) (t_event : R) : option (R * R * R) :=
  search (expected ys) t_event (combine ts ys).
