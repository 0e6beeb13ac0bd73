(** Vocabulary of C132: inputs of an interval and distance from the limits. *)
From Coq Require Import List.
From Coquelicot Require Import Coquelicot.
From Verif Require Import RBase CxField PhasorModel PVModel ODEModel Const3Model CircuitProperties3 FilterProperties BoundProperties SettleProperties.
Import RBase.
Open Scope R_scope.

(** inputs of the interval: bounded, one irradiance and temperature, passive network *)
Definition inputs_within (p : prm) (E : R -> env) (a b B : R) (m : pvm) : Prop :=
  forall t, a < t < b ->
    passive p (E t) /\ cabs (source_impedance p (E t)) <= B /\ (forall ph, cabs (v_calc p (E t) ph (Cx 0 0)) <= B) /\
    Rabs (e_Qref (E t)) <= B /\ Rabs (e_Vdcref (E t)) <= B /\ Rabs (e_Vconst (E t)) <= B /\ e_mod (E t) = m.
(** duty cycles and current reference within their limits *)
Definition unsaturated (p : prm) (k : kind) (e : env) (y : st) : Prop :=
  (forall ph, has_phase k ph -> cabs (duty p y ph) <= m_limit p) /\
  cabs (Cx (y (p_state k) + p_gain p k * p_error p k e y) (y XQ - Kp_Q p * q_error p k e y)) <= iref_limit p.

(** the same with a margin *)
Definition clear_of_limits (p : prm) (k : kind) (e : env) (y : st) (d : R) : Prop :=
  (forall ph, has_phase k ph -> cabs (duty p y ph) + d <= m_limit p) /\
  cabs (Cx (y (p_state k) + p_gain p k * p_error p k e y) (y XQ - Kp_Q p * q_error p k e y)) + d <= iref_limit p.
(** the tracking-error filter and the integrator of a phase are both pushed outwards on
    both axes *)
Definition pushed_out (p : prm) (k : kind) (e : env) (y : st) (ph : phase) : Prop :=
  let d c j := wp p * (- y (P ph c) + j - y (P ph (match c with CuR => CiR | _ => CiI end))) in
  0 < y (P ph CuR) * y (P ph CxR) /\ 0 < y (P ph CuI) * y (P ph CxI) /\
  0 < d CuR (re (i_ref p k e y ph)) * y (P ph CuR) /\ 0 < d CuI (im (i_ref p k e y ph)) * y (P ph CuI).
(** inputs around an instant [a] that do not jump there: bounded, with a bounded rate of
    change, one irradiance and temperature, one connection state and a passive network *)
Definition slow (f : R -> R) (a B L : R) : Prop :=
  forall s t, Rabs (s - a) <= 1 -> Rabs (t - a) <= 1 -> Rabs (f t) <= B /\ Rabs (f s - f t) <= L * Rabs (s - t).
Definition cslow (f : R -> cx) (a B L : R) : Prop :=
  forall s t, Rabs (s - a) <= 1 -> Rabs (t - a) <= 1 -> cabs (f t) <= B /\ cabs (csub (f s) (f t)) <= L * Rabs (s - t).
Definition smooth_inputs (p : prm) (E : R -> env) (a B L : R) (m : pvm) : Prop :=
  (forall t, Rabs (t - a) <= 1 -> passive p (E t) /\ e_conn (E t) = e_conn (E a) /\ e_mod (E t) = m) /\
  cslow (fun t => source_impedance p (E t)) a B L /\ (forall ph, cslow (fun t => v_calc p (E t) ph (Cx 0 0)) a B L) /\
  slow (fun t => e_Qref (E t)) a B L /\ slow (fun t => e_Vdcref (E t)) a B L /\ slow (fun t => e_Vconst (E t)) a B L /\
  slow (fun t => e_wgrid (E t) * e_t (E t)) a B L.
(** at least [d] away from the limits, bounded by [M], DC voltage at least [c] *)
Definition good_point (p : prm) (k : kind) (E : R -> env) (d c M : R) (t : R) (y : st) : Prop :=
  clear_of_limits p k (E t) y d /\ (forall v, Rabs (y v) <= M) /\ (has_dc_link k -> c <= y VDC).
