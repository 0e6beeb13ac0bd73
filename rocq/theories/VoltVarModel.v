(** Model of the Volt-VAR controller, /repo/pvder/DER_features.py:33-161, and of
    update_Qref, /repo/pvder/DER_utilities.py:309-321.  Voltages, powers and
    currents are real numbers; printing is left out. *)
From Verif Require Import RBase.

(** Volt_VAR_dict, DER_features.py:36-44 *)
Definition V1 := 92/100. Definition V2 := 98/100. Definition V3 := 102/100. Definition V4 := 108/100.
Definition Q1 := 44/100. Definition Q2 := 0. Definition Q3 := 0. Definition Q4 := -44/100.
(** lines 46-51 *)
Definition m_inject := (Q2 - Q1) / (V2 - V1).
Definition m_absorb := (Q4 - Q3) / (V4 - V3).
Definition c_inject := Q2 - V2 * m_inject.
Definition c_absorb := Q4 - V4 * m_absorb.
Definition deadband := 1/100.                              (* line 68 *)

Record vvar := VVar {
  v_S : R;          (* Sinverter_nominal *)
  v_vref : R;       (* Vrms_ref *)
  v_n : R; v_Xf : R;(* n_phases, Xf *)
  v_en : bool;      (* VOLT_VAR_ENABLE *)
  v_ext : bool;     (* Qref_EXTERNAL *)
  v_active : bool;  (* VOLT_VAR_ACTIVE *)
  v_t : R;          (* Volt_VAR_logic_t *)
  v_q : R;          (* Q_ref *)
  v_lim : R }.      (* Qlimit *)
Definition v_set (s : vvar) act t q lim :=
  VVar (v_S s) (v_vref s) (v_n s) (v_Xf s) (v_en s) (v_ext s) act t q lim.

(** measurements at one evaluation: self.Vrms, self.S.real, abs(self.ia) *)
Record vmeas := VMeas { mV : R; mP : R; mI : R }.

(** Qlimit_calc, DER_features.py:104-113 *)
Definition Qlimit_calc (s : vvar) (m : vmeas) : res R :=
  bindR (py_sqrt ((v_S s)^2 - (Rmax (- v_S s) (Rmin (mP m) (v_S s)))^2)) (fun qmax =>
  let q := qmax - v_n s * v_Xf s * (mI m / sqrt 2)^2 in
  Ok (Rmax 0 q)).

(** Volt_VAR_inject_range / absorb_range, 116-131 *)
Definition inject_range (vref V d : R) : bool := rle ((V1 - d) * vref) V && rle V ((V2 + d) * vref).
Definition absorb_range (vref V d : R) : bool := rle ((V3 - d) * vref) V && rle V ((V4 + d) * vref).

(** Q_Volt_VAR_inject 134-146, Q_Volt_VAR_absorb 149-161 *)
Definition Q_inject (s : vvar) (lim V : R) : R :=
  if inject_range (v_vref s) V 0
  then Rmin lim (Rmax 0 ((V / v_vref s * m_inject + c_inject) * v_S s))
  else v_q s.
Definition Q_absorb (s : vvar) (lim V : R) : R :=
  if absorb_range (v_vref s) V 0
  then Rmax (- lim) (Rmin 0 ((V / v_vref s * m_absorb + c_absorb) * v_S s))
  else v_q s.

(** Volt_VAR_logic, 61-101: returns the state (Qlimit, VOLT_VAR_ACTIVE and the
    time lock updated) and the value Qref. *)
Definition Volt_VAR_logic (s : vvar) (t : R) (m : vmeas) : vvar * res R :=
  match Qlimit_calc s m with
  | Raise e => (s, Raise e)
  | Ok lim =>
    if rlt (v_t s) t then
      if inject_range (v_vref s) (mV m) deadband
      then (v_set s true t (v_q s) lim, Ok (Q_inject s lim (mV m)))
      else if absorb_range (v_vref s) (mV m) deadband
      then (v_set s true t (v_q s) lim, Ok (Q_absorb s lim (mV m)))
      else (v_set s false t (v_q s) lim, Ok 0)
    else (v_set s (v_active s) (v_t s) (v_q s) lim, Ok (v_q s))
  end.

(** update_Qref, DER_utilities.py:309-321 *)
Definition update_Qref (s : vvar) (t : R) (m : vmeas) : vvar * res R :=
  let '(s1, r) := if v_en s then Volt_VAR_logic s t m
                  else if v_ext s then (s, Ok (v_q s)) else (s, Ok 0) in
  match r with
  | Raise e => (s1, Raise e)
  | Ok q => (v_set s1 (v_active s1) (v_t s1) q (v_lim s1), Ok q)
  end.

(** initialize_Volt_VAR 33-58; Q_ref = 0 was set by update_Qref(t=0.0) in
    initialize_DER (DER_components.py:224) while VOLT_VAR_ENABLE is False. *)
Definition vv_init (S vref n Xf : R) (en ext : bool) (lim0 : R) : vvar :=
  VVar S vref n Xf en ext false 0 0 lim0.

(** A sequence of evaluations, each followed by disconnect_or_reconnect: when
    the DER is disconnected, DER_disconnect (DER_features.py:235-250) clears
    VOLT_VAR_ENABLE and zeroes Q_ref. *)
Record vin := Vin { e_t : R; e_m : vmeas; e_disconnected : bool }.
Definition vv_disconnect (s : vvar) : vvar :=
  VVar (v_S s) (v_vref s) (v_n s) (v_Xf s) false (v_ext s) (v_active s) (v_t s) 0 (v_lim s).
Definition vv_eval (s : vvar) (x : vin) : vvar * res R :=
  match update_Qref s (e_t x) (e_m x) with
  | (s1, Raise e) => (s1, Raise e)
  | (s1, Ok q) => (if e_disconnected x then vv_disconnect s1 else s1, Ok q)
  end.
(** final state and all returned values *)
Fixpoint vv_run (s : vvar) (xs : list vin) : vvar * list (res R) :=
  match xs with
  | [] => (s, [])
  | x :: xs' => let '(s1, r) := vv_eval s x in
                let '(s2, rs) := vv_run s1 xs' in (s2, r :: rs)
  end.
