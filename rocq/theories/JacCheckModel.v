(** check_jacobian, /repo/pvder/DER_check_and_initialize.py:833-880. *)
From Coq Require Import Reals List Arith Lra.
Import ListNotations.
Open Scope R_scope.

(** A state vector of length n is a function on the indices below n.  The state
    self.y0 is a Python list, so x[:] (lines 838, 844-845) are copies.  [f] is
    self.ODE_model(., t) at the fixed time t, taken as a function of the state (at a
    repeated time the ride-through logic does not act, C17), [jac] the matrix
    self.jac_ODE_model(x0, t). *)
Definition vec := nat -> R.
Definition set (x : vec) (i : nat) (v : R) : vec := fun j => if Nat.eqb j i then v else x j.
(** line 840; line 841 allocates the matrix with dtype np.float, a name numpy 1.24
    removed: a numpy that still has it is assumed *)
Definition eps : R := / 1000000.
(** lines 843-853: column i of the numerical Jacobian *)
Definition numerical (f : vec -> vec) (x : vec) (r i : nat) : R :=
  (f (set x i (x i + eps)) r - f (set x i (x i - eps)) r) / (2 * eps).
(** lines 858-860: err[err<1e-2]=0; np.where(err>0), in row-major order *)
Definition flagged (f : vec -> vec) (jac : nat -> nat -> R) (x : vec) (r c : nat) : bool :=
  let err := Rabs (jac r c - numerical f x r c) in
  let err' := if Rlt_dec err (/ 100) then 0 else err in
  if Rlt_dec 0 err' then true else false.
Definition entries (n : nat) : list (nat * nat) := flat_map (fun r => map (fun c => (r, c)) (seq 0 n)) (seq 0 n).
Definition differences (n : nat) (f : vec -> vec) (jac : nat -> nat -> R) (x : vec) : list (nat * nat) :=
  filter (fun e => flagged f jac x (fst e) (snd e)) (entries n).
(** lines 862-880: the verdict jac_CHECK *)
Definition check_jacobian (n : nat) (f : vec -> vec) (jac : nat -> nat -> R) (x : vec) : bool :=
  if Nat.ltb 0 (length (differences n f jac x)) then false else true.
