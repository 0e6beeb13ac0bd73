(** Model of the rating, circuit and steady-state initialisation of
    /repo/pvder/DER_check_and_initialize.py (350-831), of validate_model
    (DER_utilities.py:473-513) and of the base values (grid_components.py:10-21),
    over exact reals.  Logging and printing are left out; the numerical minimiser
    is a parameter. *)
From Verif Require Import RBase PhasorModel PVModel ODEModel.

(** grid_components.py:13-21 *)
Definition Vbase : R := 500.
Definition Ibase : R := Sbase / Vbase.
Definition Zbase : R := Vbase ^ 2 / Sbase.
Definition Lbase : R := Zbase / wbase.
Definition Cbase : R := 1 / (Zbase * wbase).
(** grid_components.py:30 *)
Definition Vgridrated : R := 20415.

(** a / b on floats *)
Definition py_div (a b : R) : res R := if req b 0 then Raise ZeroDivisionError else Ok (a / b).

(** The entries of inverter_ratings and module_parameters that are used, and the
    number of phases. *)
Record rat := Rat { r_S : R; r_Vdc : R; r_Vrms : R; r_Iov : R; r_gR : R; r_gI : R; r_mppmin : R; r_n : R }.
(** Attributes set by initialize_inverter_ratings (374-425). *)
Record inv := Inv { Snominal : R; Vdcnominal : R; Vdc_ref0 : R; Varated : R; Vanominal : R; Vrms_ref : R;
                    Iarated : R; iref_lim : R; iR_grad : R; iI_grad : R }.
Definition initialize_inverter_ratings (r : rat) : res inv :=
  let Va := r_Vrms r * sqrt 2 in
  bindR (py_div (r_S r) (r_n r * (Va / sqrt 2))) (fun x =>
  let Ia := x * sqrt 2 in
  Ok (Inv (r_S r / Sbase) (r_Vdc r / Vbase) (r_Vdc r / Vbase) Va (Va / Vbase) (Va / Vbase / sqrt 2)
          Ia (Ia / Ibase * r_Iov r) (r_gR r * Ia / Ibase) (r_gI r * Ia / Ibase))).

(** check_voltage (589-606); [va] is the per-unit voltage gridVoltagePhaseA *)
Definition check_voltage (standAlone : bool) (va : cx) (m : R) (r : rat) (i : inv) : res unit :=
  bindR (if standAlone then Ok false
         else bindR (py_div (Rabs (cabs va - Vanominal i)) (Vanominal i)) (fun d => Ok (rlt (1/10) d)))
  (fun bad =>
  if bad then Raise ValueError
  else if rlt (m * (r_Vdc r / 2)) (Varated i) then Raise ValueError
  else if rlt (m * (r_mppmin r / 2)) (Varated i) then Raise ValueError
  else Ok tt).

(** initialize_circuit_parameters (427-483) *)
Record circ_in := CircIn { ci_Rf : R; ci_Lf : R; ci_C : R; ci_Z1 : cx; ci_Zload : cx }.
Record circ := Circ { c_a : option R; c_Rf : R; c_Lf : R; c_Xf : R; c_C : R; c_Zf : cx;
                      c_R1 : R; c_L1 : R; c_Z1 : cx; c_Rload : R; c_Lload : R; c_Zload : cx }.
Definition initialize_circuit_parameters (standAlone : bool) (i : inv) (c : circ_in) : res circ :=
  bindR (if standAlone then bindR (py_div Vgridrated (Varated i)) (fun a => Ok (Some a)) else Ok None) (fun a =>
  let Zl := if standAlone then ci_Zload c else Cx 10000000 0 in   (* 464, 468 *)
  Ok (Circ a (ci_Rf c / Zbase) (ci_Lf c / Lbase) (ci_Lf c * wbase / Zbase) (ci_C c / Cbase)
       (cscale (1 / Zbase) (Cx (ci_Rf c) (ci_Lf c * wbase)))
       (re (ci_Z1 c) / Zbase) (im (ci_Z1 c) / (2 * PI * 60) / Lbase) (cscale (1 / Zbase) (ci_Z1 c))
       (re Zl / Zbase) (im (ci_Z1 c) / (2 * PI * 60) / Lbase)    (* 471: Lload1_actual from Z1_actual *)
       (cscale (1 / Zbase) Zl))).

(** check_circuit_parameters (608-631) only logs, but divides by the ripple limit,
    the inductance and the capacitance (fswitching is 10e3, DER_components.py:44). *)
Definition fswitching : R := 10000.
Definition check_circuit_parameters (r : rat) (i : inv) (c : circ_in) : res unit :=
  bindR (py_div (r_Vdc r) (16 * fswitching * (1/10 * Iarated i))) (fun _ =>
  bindR (py_div (r_Vdc r) (16 * fswitching * ci_Lf c)) (fun dI =>
  bindR (py_div dI (Iarated i)) (fun _ =>
  bindR (py_div (1/4 * r_Vdc r) (ci_Lf c * fswitching)) (fun _ =>
  bindR (py_div (r_Vdc r) (32 * ci_Lf c * ci_C c * fswitching ^ 2)) (fun Vr =>
  bindR (py_div Vr (r_Vdc r)) (fun _ => Ok tt)))))).

(** initialize_DER_model (350-372) for a model with a DC-link capacitor.  The gains
    are copied unchanged. *)
Definition initialize_DER_model (standAlone : bool) (va : cx) (m : R) (r : rat) (c : circ_in) : res (inv * circ) :=
  bindR (initialize_inverter_ratings r) (fun i =>
  bindR (check_voltage standAlone va m r i) (fun _ =>
  bindR (initialize_circuit_parameters standAlone i c) (fun z =>
  bindR (check_circuit_parameters r i c) (fun _ => Ok (i, z))))).

(** Voltages supplied from outside: initialize_grid_measurements (195-238) for the
    unbalanced models and update_grid_measurements, dynamic_simulation.py:980-996 *)
Definition initial_grid_voltage (v : cx) : cx := cscale (1 / Vbase) v.
Definition updated_grid_voltage (v : cx) : cx := v.

(** * Steady state: power_error_calc (633-721) *)
Definition PHASE_120 : R := 120 * (PI / 180).
Definition fold_angle (d : R) : R := if rlt PI d then Rabs (d - 2 * PI) else d.
(** the operating point: DC voltage, PV power, reactive power set point *)
Record opoint := Op { op_Vdc : R; op_Ppv : R; op_Qref : R }.
(** Unknowns: duty cycle and current of each phase. *)
Record unk := Unk { k_m : phase -> cx; k_i : phase -> cx }.
Definition all3 (a b c : cx) (k : phase) : cx := match k with PA => a | PB => b | PC => c end.
(** lines 636-672: unknowns from the argument vector *)
Definition unk1 (x : nat -> R) : unk := Unk (fun _ => Cx (x 0%nat) (x 1%nat)) (fun _ => Cx (x 2%nat) (x 3%nat)).
Definition unk3 (unbalanced_m : bool) (x : nat -> R) : unk :=
  if unbalanced_m then
    Unk (all3 (Cx (x 0%nat) (x 1%nat)) (Cx (x 4%nat) (x 5%nat)) (Cx (x 8%nat) (x 9%nat)))
        (all3 (Cx (x 2%nat) (x 3%nat)) (Cx (x 6%nat) (x 7%nat)) (Cx (x 10%nat) (x 11%nat)))
  else Unk (fun k => rot k (Cx (x 0%nat) (x 1%nat))) (fun k => rot k (Cx (x 2%nat) (x 3%nat))).
(** terminal and PCC voltages *)
Definition k_vt (o : opoint) (u : unk) (k : phase) : cx := cscale (op_Vdc o / 2) (k_m u k).
Definition k_v (p : prm) (e : env) (u : unk) (k : phase) : cx := v_calc p e k (k_i u k).
(** voltage left over the filter: vt - v - i*Zf *)
Definition k_drop (p : prm) (e : env) (Zf : cx) (o : opoint) (u : unk) (k : phase) : cx :=
  csub (csub (k_vt o u k) (k_v p e u k)) (cmul (k_i u k) Zf).
(** complex powers, 646-647 and 680-681: (v*conj(i))/2 *)
Definition half_S (v i : cx) : cx := cscale (1/2) (cmul v (conj i)).
Definition error1 (p : prm) (e : env) (Zf : cx) (o : opoint) (u : unk) : R :=
  (re (half_S (k_vt o u PA) (k_i u PA)) - op_Ppv o) ^ 2 +
  (im (half_S (k_v p e u PA) (k_i u PA)) - op_Qref o) ^ 2 + 0 +
  cabs (k_drop p e Zf o u PA) ^ 2.
Definition S_sum (v : phase -> cx) (u : unk) : cx :=
  cadd (half_S (v PA) (k_i u PA)) (cscale (1/2) (cadd (cmul (v PB) (conj (k_i u PB))) (cmul (v PC) (conj (k_i u PC))))).
Definition m_error (p : prm) (e : env) (unbalanced_m : bool) (o : opoint) (u : unk) : R :=
  if unbalanced_m then
    cabs (csub (sum3 (k_v p e u)) (sum3 (k_vt o u))) ^ 2
  else
    let d a b := fold_angle (relative_phase_calc (k_m u a) (k_m u b) false) - PHASE_120 in
    let g a b := cabs (k_m u a) - cabs (k_m u b) in
    d PA PB ^ 2 + d PA PC ^ 2 + d PB PC ^ 2 + g PA PB ^ 2 + g PA PC ^ 2 + g PB PC ^ 2.
Definition error3 (p : prm) (e : env) (Zf : cx) (unbalanced_m : bool) (o : opoint) (u : unk) : R :=
  (re (S_sum (k_vt o u) u) - op_Ppv o) ^ 2 +
  (im (S_sum (k_v p e u) u) - op_Qref o) ^ 2 + m_error p e unbalanced_m o u +
  (cabs (sum3 (k_i u)) + cabs (k_drop p e Zf o u PA) + cabs (k_drop p e Zf o u PB) + cabs (k_drop p e Zf o u PC)) ^ 2.

(** * steady_state_calc (723-831)
    What scipy's minimize reports: convergence flag, solution vector, and the last
    point at which it evaluated the error function (gradients are approximated by
    finite differences).  power_error_calc assigns self.ia at every evaluation. *)
Record minres := MinRes { mr_success : bool; mr_x : nat -> R; mr_last : nat -> R }.
Record ss := SS { ss_i : phase -> cx; ss_x : phase -> cx; ss_u : phase -> cx;
                  ss_xDC : R; ss_xP : R; ss_xQ : R; ss_xPLL : R; ss_wte : R; ss_Vrms : R }.
(** lines 761-793; for a type without DC-link control xP is used instead of xDC.
    [unk] selects the unknowns (single or three phase). *)
Definition steady_state_calc (mk : (nat -> R) -> unk) (p : prm) (e : env) (three : bool) (mr : minres) : res ss :=
  if mr_success mr then
    let ia_last := k_i (mk (mr_last mr)) PA in        (* self.ia before line 775 *)
    let u := mk (mr_x mr) in
    Ok (SS (k_i u) (k_m u) (fun _ => Cx 0 0) (re ia_last) (re ia_last) (im ia_last) 0 (2 * PI)
           (if three then Urms_calc (k_v p e u PA) (k_v p e u PB) (k_v p e u PC) else Urms_calc (k_v p e u PA) (k_v p e u PA) (k_v p e u PA)))
  else Raise ValueError.

(** The state vector the DER starts from, Vdc = Vdc_ref (initialize_states, 288). *)
Definition ss_state (Vdc : R) (s : ss) : st := fun v =>
  match v with
  | P k CiR => re (ss_i s k) | P k CiI => im (ss_i s k)
  | P k CxR => re (ss_x s k) | P k CxI => im (ss_x s k)
  | P k CuR => re (ss_u s k) | P k CuI => im (ss_u s k)
  | VDC => Vdc | XDC => ss_xDC s | XP => ss_xP s | XQ => ss_xQ s
  | XPLL => ss_xPLL s | WTE => ss_wte s | VRF => ss_Vrms s
  end.

(** * validate_model, DER_utilities.py:473-513 *)
Record vald := Vald { Pf_phasor : R; Qf_phasor : R; Pt_phasor : R; Qt_phasor : R; Pf_RMS : R; Qf_RMS : R; Pt_RMS : R; Qt_RMS : R }.
Inductive vtype := VSingle | VThreeFull | VThreeOther.   (* single phase; SolarPVDERThreePhase; any other three-phase type *)
Definition rms_P (v i : cx) : R := cabs v / sqrt 2 * (cabs i / sqrt 2) * cos (cphase v - cphase i).
Definition rms_Q (v i : cx) : R := cabs v / sqrt 2 * (cabs i / sqrt 2) * sin (cphase v - cphase i).
Definition S_total (ty : vtype) (v i : phase -> cx) : cx :=
  match ty with VSingle => S_ph (v PA) (i PA) | _ => sum3 (fun k => S_ph (v k) (i k)) end.
Definition nph (ty : vtype) : R := match ty with VSingle => 1 | _ => 3 end.
Definition Irms_of (ty : vtype) (i : phase -> cx) : R :=
  match ty with VSingle => Urms_calc (i PA) (i PA) (i PA) | _ => Urms_calc (i PA) (i PB) (i PC) end.
Definition validate_model (ty : vtype) (Rf Xf : R) (vt v i : phase -> cx) : vald :=
  let St := S_total ty vt i in let Sp := S_total ty v i in
  let Irms := Irms_of ty i in
  Vald (re St - re Sp) (im St - im Sp) (re St) (im St)
       (nph ty * Irms ^ 2 * Rf) (nph ty * Irms ^ 2 * Xf)
       (match ty with VThreeFull => rms_P (vt PA) (i PA) + rms_P (vt PB) (i PB) + rms_P (vt PC) (i PC) | _ => rms_P (vt PA) (i PA) end)
       (match ty with VThreeFull => rms_Q (vt PA) (i PA) + rms_Q (vt PB) (i PB) + rms_Q (vt PC) (i PC) | _ => rms_Q (vt PA) (i PA) end).
