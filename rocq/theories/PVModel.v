(** Model of the PV module of /repo/pvder/DER_components.py:288-420 and of
    Vdc_actual, /repo/pvder/DER_utilities.py:56-65, over exact reals. *)
From Verif Require Import RBase.

(** lines 309-315: class constants (Boltzmann's k and the charge q appear only as
    the quotient q/k = 1.602e-19/1.38e-23) *)
Definition Iscr : R := 803/100.
Definition Kv : R := 17/10000.
Definition T0 : R := 27315/100 + 25.
Definition Irs : R := 12/100000000.
Definition q_charge : R := 1602 / 10000000000000000000000.
Definition k_boltz : R := 138 / 10000000000000000000000000.
Definition A_ideal : R := 192/100.
(** BaseValues.Sbase, grid_components.py:14 *)
Definition Sbase : R := 50000.

(** The attributes of a module (lines 322-339, 403-417). *)
Record pvm := PVM { Np : R; Ns : R; Sinsol : R; Tactual : R }.

(** Iph_calc, lines 352-357 *)
Definition Iph_calc (m : pvm) : R := (Iscr + Kv * (Tactual m - T0)) * (Sinsol m / 100).

(** math.exp: OverflowError above about 709.78; 1024*ln 2 rounded down to the
    binary64 limit.  The model raises from 709 on, which is stricter. *)
Inductive num_exc := OverflowError | ZeroDivision.
Definition exp_limit : R := 709.
Definition py_exp (x : R) : R + num_exc := if rlt exp_limit x then inr OverflowError else inl (exp x).

(** the exponent of line 368; division by zero raises *)
Definition diode_arg (m : pvm) (V : R) : R + num_exc :=
  let d := k_boltz * Tactual m * A_ideal * Ns m in
  if req d 0 then inr ZeroDivision else inl (q_charge * V / d).

(** Ppv_calc, lines 359-373: power in per unit or the exception raised *)
Definition Ppv_calc (m : pvm) (V : R) : R + num_exc :=
  match diode_arg m V with
  | inr e => inr e
  | inl x =>
    match py_exp x with
    | inr e => inr e
    | inl ex => let Ipv := Np m * Iph_calc m - Np m * Irs * (ex - 1) in
                inl (Rmax 0 (Ipv * V) / Sbase)
    end
  end.

(** Vdc_actual, DER_utilities.py:56-65 *)
Definition Vdc_actual (Vdcmpp_max Vdcbase Vdc : R) : R := Rmin Vdcmpp_max (Vdc * Vdcbase).

(** The function whose root the property Vdcmpp returns, lines 341-350 (the root
    finder itself, scipy.fsolve, is not modelled). *)
Definition mpp_equation (m : pvm) (V : R) : R :=
  let a := q_charge / (k_boltz * Tactual m * A_ideal * Ns m) in
  - (Np m * Irs * exp (q_charge * V / (k_boltz * Tactual m * A_ideal * Ns m)) * a * V)
  - Np m * Irs * (exp (q_charge * V / (k_boltz * Tactual m * A_ideal * Ns m)) - 1)
  + Np m * Iph_calc m.

(** PVModule.__init__, lines 322-339, with fit_MPP_poly, lines 377-401: the
    polynomial itself is not modelled, only the attributes it leaves behind:
    Tactual is set to 298.15 and Sinsol runs through linspace(10, 100) and keeps
    its last value. *)
Definition fit_MPP_poly (m : pvm) : pvm := PVM (Np m) (Ns m) 100 (29815/100).
Definition pv_init (np ns sinsol tdefault : R) (mppt : bool) : pvm :=
  let m := PVM np ns sinsol tdefault in
  if mppt then fit_MPP_poly m else m.

(** update_Ppv, DER_utilities.py:295-306: the insolation and temperature returned
    by events.solar_events(t) become the module's; then the power is evaluated *)
Definition update_Ppv (m : pvm) (S_new T_new Vact : R) : pvm * (R + num_exc) :=
  let m' := if (negb (req (Rabs (Sinsol m - S_new)) 0) || rlt 0 (Rabs (Tactual m - T_new)))%bool
            then PVM (Np m) (Ns m) S_new T_new else m in
  (m', Ppv_calc m' Vact).
