(** Specification for C52: what it means for a matrix entry to be the partial
    derivative of a state derivative, and which states are away from the switching
    surfaces of the anti-windup logic (where no derivative exists). *)
From Verif Require Import RBase PhasorModel PVModel ODEModel.
From Coq Require Import List.
Open Scope R_scope.

(** [l] is the partial derivative of [f] with respect to state [w] at [y]
    (derivative in the sense of the standard library). *)
Definition partial_derivative (f : st -> R) (w : var) (y : st) (l : R) : Prop :=
  derivable_pt_lim (fun x => f (upd y w x)) (y w) l.

(** A saturation test s > L guarding a comparison of the signs of d and x is away
    from its switching surfaces: s <> L and, when saturated, d and x are not zero. *)
Definition off_switch (L s d x : R) : Prop := s <> L /\ (L < s -> d <> 0 /\ x <> 0).

(** The current controller of a phase with current i, integrator x, filter u and
    reference r is away from its switching surfaces. *)
Definition regular_phase (p : prm) (i x u r : cx) : Prop :=
  let s := cabs (cadd (cscale (Kp_GCC p) u) x) in
  off_switch (m_limit p) s (Ki_GCC p * re u) (re x) /\
  off_switch (m_limit p) s (Ki_GCC p * im u) (im x) /\
  off_switch (m_limit p) s (wp p * (- re u + re r - re i)) (re u) /\
  off_switch (m_limit p) s (wp p * (- im u + im r - im i)) (im u).
(** The outer loops with integrators xD, xQ, errors dD, dQ and reference r. *)
Definition regular_outer (p : prm) (r : cx) (dD xD dQ xQ : R) : Prop :=
  off_switch (iref_limit p) (cabs r) dD xD /\ off_switch (iref_limit p) (cabs r) dQ xQ.
(** The PV array operates in its generating region below the voltage clamp. *)
Definition pv_regular (p : prm) (e : env) (Vdc : R) : Prop :=
  Vdc * Vdcbase p < Vdcmpp_max p /\ 0 < Ipv_val (e_mod e) (Vdc * Vdcbase p) * (Vdc * Vdcbase p) /\
  Ns (e_mod e) <> 0 /\ Tactual (e_mod e) <> 0.
