(** Model of the right-hand sides (ODE_model) of the DER models, over exact reals:
    /repo/pvder/DER_components_single_phase.py (single phase),
    /repo/pvder/DER_components_three_phase.py (three phase),
    /repo/pvder/DER_components_three_phase_balanced.py (balanced three phase),
    /repo/pvder/DER_components_single_phase_constant_Vdc.py (constant Vdc)
    and of the shared equations of /repo/pvder/DER_utilities.py.

    Simplifications: the set points (Q_ref from update_Qref, Vdc_ref from
    update_Vdc_ref), the connection status (from disconnect_or_reconnect) and the
    measured grid frequency at the evaluation time are inputs (record [env]): the
    logic that computes them is modelled in RTModel, VoltVarModel, VdcModel and
    EventsModel.  current_gradient_limiter is off (its default); the limiter is
    modelled in RampModel.  DO_EXTRA_CALCULATIONS only adds outputs. *)
From Verif Require Import RBase PhasorModel PVModel.

(** State variables.  The names are the keys of varInd in
    DER_check_and_initialize.py:518-567 (initialize_jacobian). *)
Inductive phase := PA | PB | PC.
Inductive comp := CiR | CiI | CxR | CxI | CuR | CuI.
Inductive var := P (k : phase) (c : comp) | VDC | XDC | XP | XQ | XPLL | WTE | VRF.
Definition phase_eq_dec (a b : phase) : {a = b} + {a <> b}. decide equality. Defined.
Definition comp_eq_dec (a b : comp) : {a = b} + {a <> b}. decide equality. Defined.
Definition var_eq_dec (a b : var) : {a = b} + {a <> b}.
Proof. decide equality; [apply comp_eq_dec|apply phase_eq_dec]. Defined.
Definition st := var -> R.
Definition upd (y : st) (w : var) (x : R) : st := fun v => if var_eq_dec v w then x else y v.

(** Parameters (inverter_parameters, circuit_parameters, controller_gains). *)
Record prm := Prm {
  Lf : R; Rf : R; Cdc : R;
  Kp_GCC : R; Ki_GCC : R; wp : R; m_limit : R;
  Kp_DC : R; Ki_DC : R; Kp_P : R; Ki_P : R; Kp_Q : R; Ki_Q : R; iref_limit : R;
  Kp_PLL : R; Ki_PLL : R; Tfilter : R;
  Vdcbase : R; Vdcmpp_max : R;
  Z1 : cx; a_tr : R }.
(** BaseValues.wbase, grid_components.py:15 *)
Definition wbase : R := 2 * PI * 60.

(** The stand-alone grid (Grid instance and load): vag, vbg, vcg, Z2, Zload1. *)
Record grid := Grid_ { vag : cx; vbg : cx; vcg : cx; Z2 : cx; Zload1 : cx }.
(** Inputs of one evaluation of ODE_model.  [e_grid = None] is the mode in which an
    external program supplies the PCC voltages gridVoltagePhaseA/B/C. *)
Record env := Env {
  e_t : R; e_wgrid : R;
  e_va : cx; e_vb : cx; e_vc : cx; e_grid : option grid;
  e_Qref : R; e_Vdcref : R; e_mod : pvm; e_conn : bool; e_Vconst : R }.

(** Complex states: y is unpacked as iaR + 1j*iaI etc. (three_phase.py:266-276) *)
Definition i_of (y : st) k := Cx (y (P k CiR)) (y (P k CiI)).
Definition x_of (y : st) k := Cx (y (P k CxR)) (y (P k CxI)).
Definition u_of (y : st) k := Cx (y (P k CuR)) (y (P k CuI)).

(** Duty cycle, DER_utilities.py:69-104 (ma, mb, mc) *)
Definition m_calc (p : prm) (u x : cx) : cx := cadd (cscale (Kp_GCC p) u) x.
(** Inverter terminal voltage, DER_utilities.py:165-186 *)
Definition vt_calc (p : prm) (Vdc : R) (u x : cx) : cx := cscale (Vdc / 2) (m_calc p u x).

(** PCC voltage in stand-alone mode, DER_utilities.py:189-199 (va_calc) and the
    three-phase branches of vb_calc, vc_calc (202-233). *)
Definition v_standalone (p : prm) (g : grid) (vg i : cx) : cx :=
  let a := a_tr p in
  cmul (cadd (cscale (1/a) (cadd vg (cmul (cscale (1/a) i) (Z2 g)))) (cmul i (Z1 p)))
       (cdiv (cscale (a * a) (Zload1 g))
             (cadd (cscale (a * a) (cadd (Z1 p) (Zload1 g))) (Z2 g))).
(** Single-phase branches of vb_calc and vc_calc (202-233): no inverter current. *)
Definition v_standalone_idle (p : prm) (g : grid) (vg : cx) : cx :=
  let a := a_tr p in
  cmul (cscale (1/a) vg)
       (cdiv (cscale (a * a) (Zload1 g))
             (cadd (cscale (a * a) (cadd (Z1 p) (Zload1 g))) (Z2 g))).
Definition v_calc (p : prm) (e : env) (k : phase) (i : cx) : cx :=
  match e_grid e with
  | None => match k with PA => e_va e | PB => e_vb e | PC => e_vc e end
  | Some g => v_standalone p g (match k with PA => vag g | PB => vbg g | PC => vcg g end) i
  end.

(** Apparent power of one phase: (1/2)*v*conj(i) (S_calc, S_PCC_calc,
    S_PCCph_calc). *)
Definition S_ph (v i : cx) : cx := cscale (1/2) (cmul v (conj i)).
(** S_G_calc and S_load1_calc of one phase
    (single_phase.py:91-103, three_phase.py:91-104) *)
Definition S_load_ph (Zl v : cx) : cx := S_ph v (cneg (cdiv v Zl)).
Definition S_G_ph (p : prm) (Zl vg v i : cx) : cx :=
  cscale (1/2) (cmul (conj (cneg (cscale (1 / a_tr p) (csub i (cdiv v Zl))))) vg).

(** Ppv: value computed by Ppv_calc when the exponential does not overflow (see
    PVModel.Ppv_calc and C49_power_total). *)
Definition Ipv_val (m : pvm) (V : R) : R :=
  Np m * Iph_calc m - Np m * Irs * (exp (q_charge * V / (k_boltz * Tactual m * A_ideal * Ns m)) - 1).
Definition Ppv_val (m : pvm) (V : R) : R := Rmax 0 (Ipv_val m V * V) / Sbase.
Definition Ppv_of (p : prm) (e : env) (Vdc : R) : R :=
  Ppv_val (e_mod e) (Vdc_actual (Vdcmpp_max p) (Vdcbase p) Vdc).

(** Current reference of phase a, DER_utilities.py:108-121 *)
Definition ia_ref_calc (p : prm) (Vref Vdc xDC Qref xQ Qpcc : R) : cx :=
  Cx (xDC + Kp_DC p * (Vref - Vdc)) (xQ - Kp_Q p * (Qref - Qpcc)).
Definition ia_ref_activepower (p : prm) (Pp Sre xP Qref xQ Qpcc : R) : cx :=
  Cx (xP + Kp_P p * (Pp - Sre)) (xQ - Kp_Q p * (Qref - Qpcc)).

(** DER_disconnect, DER_features.py:235-251, executed at the end of the updates of
    every evaluation while DER_CONNECTED is False: references and PV power zero,
    Vdc_ref held at Vdc. *)
Definition eff_Qref (e : env) : R := if e_conn e then e_Qref e else 0.
Definition eff_Vref (e : env) (Vdc : R) : R := if e_conn e then e_Vdcref e else Vdc.
Definition eff_Ppv (e : env) (pp : R) : R := if e_conn e then pp else 0.
Definition eff_iref (e : env) (i : cx) : cx := if e_conn e then i else Cx 0 0.

(** np.sign and the anti-windup pattern
      if saturated: (if np.sign(d) == np.sign(x): 0 else: d) else: d *)
Definition np_sign (x : R) : R := if rlt 0 x then 1 else if rlt x 0 then -1 else 0.
Definition same_sign (a b : R) : bool := req (np_sign a) (np_sign b).
Definition aw (sat : bool) (d x val : R) : R := if sat then (if same_sign d x then 0 else val) else val.

(** Saturation tests: abs(Kp_GCC*u + x) > m_limit and abs(ia_ref) > iref_limit *)
Definition m_sat (p : prm) (u x : cx) : bool := rlt (m_limit p) (cabs (m_calc p u x)).
Definition i_sat (p : prm) (z : cx) : bool := rlt (iref_limit p) (cabs z).

(** Per-phase derivatives (single_phase.py:262-296, three_phase.py:289-389) *)
Definition di_re (p : prm) (winv : R) (i v vt : cx) : R :=
  (1 / Lf p) * (- Rf p * re i - re v + re vt) + (winv / wbase) * im i.
Definition di_im (p : prm) (winv : R) (i v vt : cx) : R :=
  (1 / Lf p) * (- Rf p * im i - im v + im vt) - (winv / wbase) * re i.
Definition dx_re (p : prm) (u x : cx) : R := aw (m_sat p u x) (Ki_GCC p * re u) (re x) (Ki_GCC p * re u).
Definition dx_im (p : prm) (u x : cx) : R := aw (m_sat p u x) (Ki_GCC p * im u) (im x) (Ki_GCC p * im u).
Definition u_err (p : prm) (u iref i : R) : R := wp p * (- u + iref - i).
Definition du_re (p : prm) (u x iref i : cx) : R :=
  aw (m_sat p u x) (u_err p (re u) (re iref) (re i)) (re u) (u_err p (re u) (re iref) (re i)).
Definition du_im (p : prm) (u x iref i : cx) : R :=
  aw (m_sat p u x) (u_err p (im u) (im iref) (im i)) (im u) (u_err p (im u) (im iref) (im i)).
Definition d_comp (p : prm) (winv : R) (i v vt u x iref : cx) (c : comp) : R :=
  match c with
  | CiR => di_re p winv i v vt | CiI => di_im p winv i v vt
  | CxR => dx_re p u x | CxI => dx_im p u x
  | CuR => du_re p u x iref i | CuI => du_im p u x iref i
  end.
(** DC link and outer loops (single_phase.py:298-319, three_phase.py:391-413) *)
Definition dVdc (p : prm) (pp Sre Vdc : R) : R := (pp - Sre) / (Vdc * Cdc p).
Definition dxDC (p : prm) (Vr Vdc xDC Qr xQ Qpcc : R) : R :=
  aw (i_sat p (ia_ref_calc p Vr Vdc xDC Qr xQ Qpcc)) (Ki_DC p * (Vr - Vdc)) xDC (Ki_DC p * (Vr - Vdc)).
Definition dxQ (p : prm) (iref : cx) (Qr xQ Qpcc : R) : R :=
  aw (i_sat p iref) (- Ki_Q p * (Qr - Qpcc)) xQ (- Ki_Q p * (Qr - Qpcc)).

(** * Single phase: ODE_model, single_phase.py:228-336.  Variables outside the
    11 states of the model have derivative 0. *)
Definition S1_pcc (p : prm) (e : env) (y : st) : cx := S_ph (v_calc p e PA (i_of y PA)) (i_of y PA).
Definition S1_inv (p : prm) (y : st) : cx := S_ph (vt_calc p (y VDC) (u_of y PA) (x_of y PA)) (i_of y PA).
Definition vd1 (p : prm) (e : env) (y : st) : R :=
  vd_single_phase (v_calc p e PA (i_of y PA)) (e_wgrid e) (e_t e) (y WTE).
Definition iref1 (p : prm) (e : env) (y : st) : cx :=
  ia_ref_calc p (e_Vdcref e) (y VDC) (y XDC) (e_Qref e) (y XQ) (im (S1_pcc p e y)).
(** the reference re-evaluated with the set points left by DER_disconnect, used in
    the outer-loop saturation test *)
Definition iref1_test (p : prm) (e : env) (y : st) : cx :=
  ia_ref_calc p (eff_Vref e (y VDC)) (y VDC) (y XDC) (eff_Qref e) (y XQ) (im (S1_pcc p e y)).
Definition ode1 (p : prm) (e : env) (y : st) (v : var) : R :=
  let winv := we_calc (Kp_PLL p) (vd1 p e y) (y XPLL) in
  match v with
  | P PA c => d_comp p winv (i_of y PA) (v_calc p e PA (i_of y PA))
                (vt_calc p (y VDC) (u_of y PA) (x_of y PA)) (u_of y PA) (x_of y PA)
                (eff_iref e (iref1 p e y)) c
  | VDC => dVdc p (eff_Ppv e (Ppv_of p e (y VDC))) (re (S1_inv p y)) (y VDC)
  | XDC => dxDC p (eff_Vref e (y VDC)) (y VDC) (y XDC) (eff_Qref e) (y XQ) (im (S1_pcc p e y))
  | XQ => dxQ p (iref1_test p e y) (eff_Qref e) (y XQ) (im (S1_pcc p e y))
  | XPLL => Ki_PLL p * vd1 p e y
  | WTE => winv
  | _ => 0
  end.

(** * Three phase: ODE_model, three_phase.py:263-459 *)
Definition v3_of (p : prm) (e : env) (y : st) k : cx := v_calc p e k (i_of y k).
Definition vt3_of (p : prm) (y : st) k : cx := vt_calc p (y VDC) (u_of y k) (x_of y k).
Definition sum3 (f : phase -> cx) : cx := cadd (cadd (f PA) (f PB)) (f PC).
Definition S3_pcc (p : prm) (e : env) (y : st) : cx := sum3 (fun k => S_ph (v3_of p e y k) (i_of y k)).
Definition S3_inv (p : prm) (y : st) : cx := sum3 (fun k => S_ph (vt3_of p y k) (i_of y k)).
Definition vd3 (p : prm) (e : env) (y : st) : R :=
  vd_three_phase (v3_of p e y PA) (v3_of p e y PB) (v3_of p e y PC) (e_wgrid e) (e_t e) (y WTE).
Definition iref3a (p : prm) (e : env) (y : st) : cx :=
  ia_ref_calc p (e_Vdcref e) (y VDC) (y XDC) (e_Qref e) (y XQ) (im (S3_pcc p e y)).
(** ib_ref_calc, ic_ref_calc, DER_utilities.py:124-153 *)
Definition rot (k : phase) (z : cx) : cx := match k with PA => z | PB => Ub_calc z | PC => Uc_calc z end.
Definition iref3_test (p : prm) (e : env) (y : st) : cx :=
  ia_ref_calc p (eff_Vref e (y VDC)) (y VDC) (y XDC) (eff_Qref e) (y XQ) (im (S3_pcc p e y)).
Definition ode3 (p : prm) (e : env) (y : st) (v : var) : R :=
  let winv := we_calc (Kp_PLL p) (vd3 p e y) (y XPLL) in
  match v with
  | P k c => d_comp p winv (i_of y k) (v3_of p e y k) (vt3_of p y k) (u_of y k) (x_of y k)
               (eff_iref e (rot k (iref3a p e y))) c
  | VDC => dVdc p (eff_Ppv e (Ppv_of p e (y VDC))) (re (S3_inv p y)) (y VDC)
  | XDC => dxDC p (eff_Vref e (y VDC)) (y VDC) (y XDC) (eff_Qref e) (y XQ) (im (S3_pcc p e y))
  | XQ => dxQ p (iref3_test p e y) (eff_Qref e) (y XQ) (im (S3_pcc p e y))
  | XPLL => Ki_PLL p * vd3 p e y
  | WTE => winv
  | VRF => (1 / Tfilter p) * (Urms_calc (v3_of p e y PA) (v3_of p e y PB) (v3_of p e y PC) - y VRF)
  | XP => 0
  end.

(** * Balanced three phase: three_phase_balanced.py:147-402.  Phases b and c are
    rotated copies of phase a (update_inverter_states, update_voltages). *)
Definition vb_of (p : prm) (e : env) (y : st) k : cx := rot k (v_calc p e PA (i_of y PA)).
Definition Sb_pcc (p : prm) (e : env) (y : st) : cx :=
  sum3 (fun k => S_ph (vb_of p e y k) (rot k (i_of y PA))).
Definition Sb_inv (p : prm) (y : st) : cx :=
  sum3 (fun k => S_ph (vt_calc p (y VDC) (rot k (u_of y PA)) (rot k (x_of y PA))) (rot k (i_of y PA))).
Definition vdb (p : prm) (e : env) (y : st) : R :=
  vd_three_phase (vb_of p e y PA) (vb_of p e y PB) (vb_of p e y PC) (e_wgrid e) (e_t e) (y WTE).
Definition irefb (p : prm) (e : env) (y : st) : cx :=
  ia_ref_calc p (e_Vdcref e) (y VDC) (y XDC) (e_Qref e) (y XQ) (im (Sb_pcc p e y)).
Definition irefb_test (p : prm) (e : env) (y : st) : cx :=
  ia_ref_calc p (eff_Vref e (y VDC)) (y VDC) (y XDC) (eff_Qref e) (y XQ) (im (Sb_pcc p e y)).
Definition odeb (p : prm) (e : env) (y : st) (v : var) : R :=
  let winv := we_calc (Kp_PLL p) (vdb p e y) (y XPLL) in
  match v with
  | P PA c => d_comp p winv (i_of y PA) (v_calc p e PA (i_of y PA))
                (vt_calc p (y VDC) (u_of y PA) (x_of y PA)) (u_of y PA) (x_of y PA)
                (eff_iref e (irefb p e y)) c
  | VDC => dVdc p (eff_Ppv e (Ppv_of p e (y VDC))) (re (Sb_inv p y)) (y VDC)
  | XDC => dxDC p (eff_Vref e (y VDC)) (y VDC) (y XDC) (eff_Qref e) (y XQ) (im (Sb_pcc p e y))
  | XQ => dxQ p (irefb_test p e y) (eff_Qref e) (y XQ) (im (Sb_pcc p e y))
  | XPLL => Ki_PLL p * vdb p e y
  | WTE => winv
  | _ => 0
  end.

(** * Single phase, constant Vdc: single_phase_constant_Vdc.py:230-339.  Vdc is the
    constant [e_Vconst]; the outer loop controls active power. *)
Definition Sc_inv (p : prm) (e : env) (y : st) : cx :=
  S_ph (vt_calc p (e_Vconst e) (u_of y PA) (x_of y PA)) (i_of y PA).
Definition irefc (p : prm) (e : env) (y : st) : cx :=
  ia_ref_activepower p (Ppv_of p e (e_Vconst e)) (re (Sc_inv p e y)) (y XP) (e_Qref e) (y XQ) (im (S1_pcc p e y)).
Definition irefc_test (p : prm) (e : env) (y : st) : cx :=
  ia_ref_activepower p (eff_Ppv e (Ppv_of p e (e_Vconst e))) (re (Sc_inv p e y)) (y XP) (eff_Qref e) (y XQ) (im (S1_pcc p e y)).
Definition odec (p : prm) (e : env) (y : st) (v : var) : R :=
  let winv := we_calc (Kp_PLL p) (vd1 p e y) (y XPLL) in
  let perr := eff_Ppv e (Ppv_of p e (e_Vconst e)) - re (Sc_inv p e y) in
  match v with
  | P PA c => d_comp p winv (i_of y PA) (v_calc p e PA (i_of y PA))
                (vt_calc p (e_Vconst e) (u_of y PA) (x_of y PA)) (u_of y PA) (x_of y PA)
                (eff_iref e (irefc p e y)) c
  | XP => aw (i_sat p (irefc_test p e y)) (Ki_P p * perr) (y XP) (Ki_P p * perr)
  | XQ => dxQ p (irefc_test p e y) (eff_Qref e) (y XQ) (im (S1_pcc p e y))
  | XPLL => Ki_PLL p * vd1 p e y
  | WTE => winv
  | _ => 0
  end.

