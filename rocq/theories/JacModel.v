(** Model of jac_ODE_model, the Jacobian handed to the solvers, of the DER models
      /repo/pvder/DER_components_single_phase.py:338-504,
      /repo/pvder/DER_components_three_phase.py:462-929,
      /repo/pvder/DER_components_three_phase_balanced.py:370-533,
      /repo/pvder/DER_components_single_phase_constant_Vdc.py:334-489.
    Each case is one assignment J[varInd[row],varInd[column]] = expr (transcribed
    entry by entry; [aw sat d x e] is the repeated pattern
      if sat: (if np.sign(d)==np.sign(x): J=0.0 else: J=e) else: J=e).
    Entries the code never assigns keep the 0 of np.zeros
    (DER_check_and_initialize.py:518-567); the last case is that 0.
    The literals 0.866025403 and 0.8660254037 of the three-phase files are the
    parameters k9 and k10, instantiated in [jac3] and [jacb]. *)
From Coq Require Import List.
From Verif Require Import RBase PhasorModel PVModel ODEModel.
Import ListNotations.
Open Scope R_scope.

(** single_phase.py:338-504 *)
Definition jac1 (p : prm) (e : env) (y : st) (v w : var) : R :=
  let va := v_calc p e PA (i_of y PA) in
  let vd := vd1 p e y in
  let ra := cabs va in
  let theta_a := e_wgrid e * e_t e + cphase va - PI / 2 in
  let Spcc := S1_pcc p e y in
  let ia_ref := eff_iref e (iref1 p e y) in
  let iref_test := iref1_test p e y in
  match v, w with
  | VDC, VDC => (((- (((q_charge * Np (e_mod e)) * Irs) * (Vdcbase p ^ 2))) / (((((Cdc p * k_boltz) * A_ideal)
      * Ns (e_mod e)) * Tactual (e_mod e)) * Sbase)) * (exp (((q_charge * y VDC) * Vdcbase p) / (((k_boltz *
      A_ideal) * Ns (e_mod e)) * Tactual (e_mod e)))))
  | VDC, P PA CiR => ((- (y (P PA CxR) + (Kp_GCC p * y (P PA CuR)))) / (4 * Cdc p))
  | VDC, P PA CiI => ((- (y (P PA CxI) + (Kp_GCC p * y (P PA CuI)))) / (4 * Cdc p))
  | VDC, P PA CxR => ((- y (P PA CiR)) / (4 * Cdc p))
  | VDC, P PA CxI => ((- y (P PA CiI)) / (4 * Cdc p))
  | VDC, P PA CuR => ((- (Kp_GCC p * y (P PA CiR))) / (4 * Cdc p))
  | VDC, P PA CuI => ((- (Kp_GCC p * y (P PA CiI))) / (4 * Cdc p))
  | XDC, VDC => aw (i_sat p iref_test) (Ki_DC p * (eff_Vref e (y VDC) - y VDC)) (y XDC) (- Ki_DC p)
  | XQ, P PA CiR => aw (i_sat p iref_test) ((- Ki_Q p) * (eff_Qref e - im Spcc)) (y XQ) ((Ki_Q p * im va) / 2)
  | XQ, P PA CiI => aw (i_sat p iref_test) ((- Ki_Q p) * (eff_Qref e - im Spcc)) (y XQ) (- ((Ki_Q p * re va) /
      2))
  | XPLL, WTE => ((Ki_PLL p * ra) * (((- (cos (theta_a))) * (sin (y WTE))) + ((cos (theta_a - (PI / 2))) *
      (cos (y WTE)))))
  | WTE, XPLL => 1
  | WTE, WTE => ((Kp_PLL p * ra) * (((- (cos (theta_a))) * (sin (y WTE))) + ((cos (theta_a - (PI / 2))) * (cos
      (y WTE)))))
  | P PA CiR, VDC => ((y (P PA CxR) + (y (P PA CuR) * Kp_GCC p)) / (2 * Lf p))
  | P PA CiR, XPLL => (y (P PA CiI) / wbase)
  | P PA CiR, WTE => ((((Kp_PLL p * y (P PA CiI)) * ra) / wbase) * (((- (cos (theta_a))) * (sin (y WTE))) +
      ((cos (theta_a - (PI / 2))) * (cos (y WTE)))))
  | P PA CiR, P PA CiR => ((- Rf p) / Lf p)
  | P PA CiR, P PA CiI => (((y XPLL + (Kp_PLL p * vd)) + ((2 * PI) * 60)) / wbase)
  | P PA CiR, P PA CxR => (y VDC / (2 * Lf p))
  | P PA CiR, P PA CuR => ((y VDC * Kp_GCC p) / (2 * Lf p))
  | P PA CiI, VDC => ((y (P PA CxI) + (y (P PA CuI) * Kp_GCC p)) / (2 * Lf p))
  | P PA CiI, XPLL => ((- y (P PA CiR)) / wbase)
  | P PA CiI, WTE => ((((Kp_PLL p * y (P PA CiR)) * ra) / wbase) * (((- (cos (theta_a))) * (sin (y WTE))) +
      ((cos (theta_a - (PI / 2))) * (cos (y WTE)))))
  | P PA CiI, P PA CiR => ((- ((y XPLL + (Kp_PLL p * vd)) + ((2 * PI) * 60))) / wbase)
  | P PA CiI, P PA CiI => ((- Rf p) / Lf p)
  | P PA CiI, P PA CxI => (y VDC / (2 * Lf p))
  | P PA CiI, P PA CuI => ((y VDC * Kp_GCC p) / (2 * Lf p))
  | P PA CxR, P PA CuR => aw (m_sat p (u_of y PA) (x_of y PA)) (Ki_GCC p * y (P PA CuR)) (y (P PA CxR))
      (Ki_GCC p)
  | P PA CxI, P PA CuI => aw (m_sat p (u_of y PA) (x_of y PA)) (Ki_GCC p * y (P PA CuI)) (y (P PA CxI))
      (Ki_GCC p)
  | P PA CuR, VDC => aw (m_sat p (u_of y PA) (x_of y PA)) (wp p * (((- y (P PA CuR)) + re ia_ref) - y (P PA
      CiR))) (y (P PA CuR)) ((- wp p) * Kp_DC p)
  | P PA CuR, XDC => aw (m_sat p (u_of y PA) (x_of y PA)) (wp p * (((- y (P PA CuR)) + re ia_ref) - y (P PA
      CiR))) (y (P PA CuR)) (wp p)
  | P PA CuR, P PA CiR => aw (m_sat p (u_of y PA) (x_of y PA)) (wp p * (((- y (P PA CuR)) + re ia_ref) - y (P
      PA CiR))) (y (P PA CuR)) (- wp p)
  | P PA CuR, P PA CuR => aw (m_sat p (u_of y PA) (x_of y PA)) (wp p * (((- y (P PA CuR)) + re ia_ref) - y (P
      PA CiR))) (y (P PA CuR)) (- wp p)
  | P PA CuI, XQ => aw (m_sat p (u_of y PA) (x_of y PA)) (wp p * (((- y (P PA CuI)) + im ia_ref) - y (P PA
      CiI))) (y (P PA CuI)) (wp p)
  | P PA CuI, P PA CiR => aw (m_sat p (u_of y PA) (x_of y PA)) (wp p * (((- y (P PA CuI)) + im ia_ref) - y (P
      PA CiI))) (y (P PA CuI)) (((Kp_Q p * wp p) * im va) / 2)
  | P PA CuI, P PA CiI => aw (m_sat p (u_of y PA) (x_of y PA)) (wp p * (((- y (P PA CuI)) + im ia_ref) - y (P
      PA CiI))) (y (P PA CuI)) ((- wp p) - (((Kp_Q p * wp p) * re va) / 2))
  | P PA CuI, P PA CuI => aw (m_sat p (u_of y PA) (x_of y PA)) (wp p * (((- y (P PA CuI)) + im ia_ref) - y (P
      PA CiI))) (y (P PA CuI)) (- wp p)
  | _, _ => 0
  end.

(** three_phase.py:462-929 *)
Definition jac3_at (k9 k10 : R) (p : prm) (e : env) (y : st) (v w : var) : R :=
  let va := v3_of p e y PA in let vb := v3_of p e y PB in let vc := v3_of p e y PC in
  let vd := vd3 p e y in
  let ra := cabs va in
  let theta_a := e_wgrid e * e_t e + cphase va - PI / 2 in
  let rb := cabs vb in
  let theta_b := e_wgrid e * e_t e + cphase vb - PI / 2 in
  let rc := cabs vc in
  let theta_c := e_wgrid e * e_t e + cphase vc - PI / 2 in
  let Spcc := S3_pcc p e y in
  let ia_ref := eff_iref e (rot PA (iref3a p e y)) in
  let ib_ref := eff_iref e (rot PB (iref3a p e y)) in
  let ic_ref := eff_iref e (rot PC (iref3a p e y)) in
  let iref_test := iref3_test p e y in
  match v, w with
  | VDC, VDC => (((- (((q_charge * Np (e_mod e)) * Irs) * (Vdcbase p ^ 2))) / (((((Cdc p * k_boltz) * A_ideal)
      * Ns (e_mod e)) * Tactual (e_mod e)) * Sbase)) * (exp (((q_charge * y VDC) * Vdcbase p) / (((k_boltz *
      A_ideal) * Ns (e_mod e)) * Tactual (e_mod e)))))
  | VDC, P PA CiR => ((- (y (P PA CxR) + (Kp_GCC p * y (P PA CuR)))) / (4 * Cdc p))
  | VDC, P PA CiI => ((- (y (P PA CxI) + (Kp_GCC p * y (P PA CuI)))) / (4 * Cdc p))
  | VDC, P PA CxR => ((- y (P PA CiR)) / (4 * Cdc p))
  | VDC, P PA CxI => ((- y (P PA CiI)) / (4 * Cdc p))
  | VDC, P PA CuR => ((- (Kp_GCC p * y (P PA CiR))) / (4 * Cdc p))
  | VDC, P PA CuI => ((- (Kp_GCC p * y (P PA CiI))) / (4 * Cdc p))
  | VDC, P PB CiR => ((- (y (P PB CxR) + (Kp_GCC p * y (P PB CuR)))) / (4 * Cdc p))
  | VDC, P PB CiI => ((- (y (P PB CxI) + (Kp_GCC p * y (P PB CuI)))) / (4 * Cdc p))
  | VDC, P PB CxR => ((- y (P PB CiR)) / (4 * Cdc p))
  | VDC, P PB CxI => ((- y (P PB CiI)) / (4 * Cdc p))
  | VDC, P PB CuR => ((- (Kp_GCC p * y (P PB CiR))) / (4 * Cdc p))
  | VDC, P PB CuI => ((- (Kp_GCC p * y (P PB CiI))) / (4 * Cdc p))
  | VDC, P PC CiR => ((- (y (P PC CxR) + (Kp_GCC p * y (P PC CuR)))) / (4 * Cdc p))
  | VDC, P PC CiI => ((- (y (P PC CxI) + (Kp_GCC p * y (P PC CuI)))) / (4 * Cdc p))
  | VDC, P PC CxR => ((- y (P PC CiR)) / (4 * Cdc p))
  | VDC, P PC CxI => ((- y (P PC CiI)) / (4 * Cdc p))
  | VDC, P PC CuR => ((- (Kp_GCC p * y (P PC CiR))) / (4 * Cdc p))
  | VDC, P PC CuI => ((- (Kp_GCC p * y (P PC CiI))) / (4 * Cdc p))
  | XDC, VDC => aw (i_sat p iref_test) (Ki_DC p * (eff_Vref e (y VDC) - y VDC)) (y XDC) (- Ki_DC p)
  | XQ, P PA CiR => aw (i_sat p iref_test) ((- Ki_Q p) * (eff_Qref e - im Spcc)) (y XQ) ((Ki_Q p * im va) / 2)
  | XQ, P PA CiI => aw (i_sat p iref_test) ((- Ki_Q p) * (eff_Qref e - im Spcc)) (y XQ) (- ((Ki_Q p * re va) /
      2))
  | XQ, P PB CiR => aw (i_sat p iref_test) ((- Ki_Q p) * (eff_Qref e - im Spcc)) (y XQ) ((Ki_Q p * im vb) / 2)
  | XQ, P PB CiI => aw (i_sat p iref_test) ((- Ki_Q p) * (eff_Qref e - im Spcc)) (y XQ) (- ((Ki_Q p * re vb) /
      2))
  | XQ, P PC CiR => aw (i_sat p iref_test) ((- Ki_Q p) * (eff_Qref e - im Spcc)) (y XQ) ((Ki_Q p * im vc) / 2)
  | XQ, P PC CiI => aw (i_sat p iref_test) ((- Ki_Q p) * (eff_Qref e - im Spcc)) (y XQ) (- ((Ki_Q p * re vc) /
      2))
  | XPLL, WTE => (((2 / 3) * Ki_PLL p) * (((((((- ra) * (cos (theta_a))) * (sin (y WTE))) + ((((1/2) * rb) *
      (cos (theta_b))) * (sin (y WTE)))) + (((k10 * rb) * (cos (theta_b))) * (cos (y WTE)))) + ((((1/2) * rc)
      * (cos (theta_c))) * (sin (y WTE)))) - (((k10 * rc) * (cos (theta_c))) * (cos (y WTE)))))
  | WTE, XPLL => 1
  | WTE, WTE => (((2 / 3) * Kp_PLL p) * (((((((- ra) * (cos (theta_a))) * (sin (y WTE))) + ((((1/2) * rb) *
      (cos (theta_b))) * (sin (y WTE)))) + (((k10 * rb) * (cos (theta_b))) * (cos (y WTE)))) + ((((1/2) * rc)
      * (cos (theta_c))) * (sin (y WTE)))) - (((k10 * rc) * (cos (theta_c))) * (cos (y WTE)))))
  | P PA CiR, VDC => ((y (P PA CxR) + (y (P PA CuR) * Kp_GCC p)) / (2 * Lf p))
  | P PA CiR, XPLL => (y (P PA CiI) / wbase)
  | P PA CiR, WTE => (((2 / 3) * ((Kp_PLL p * y (P PA CiI)) / wbase)) * (((((((- ra) * (cos (theta_a))) * (sin
      (y WTE))) + ((((1/2) * rb) * (cos (theta_b))) * (sin (y WTE)))) + (((k10 * rb) * (cos (theta_b))) * (cos
      (y WTE)))) + ((((1/2) * rc) * (cos (theta_c))) * (sin (y WTE)))) - (((k10 * rc) * (cos (theta_c))) *
      (cos (y WTE)))))
  | P PA CiR, P PA CiR => ((- Rf p) / Lf p)
  | P PA CiR, P PA CiI => (((y XPLL + (Kp_PLL p * vd)) + ((2 * PI) * 60)) / wbase)
  | P PA CiR, P PA CxR => (y VDC / (2 * Lf p))
  | P PA CiR, P PA CuR => ((y VDC * Kp_GCC p) / (2 * Lf p))
  | P PA CiI, VDC => ((y (P PA CxI) + (y (P PA CuI) * Kp_GCC p)) / (2 * Lf p))
  | P PA CiI, XPLL => ((- y (P PA CiR)) / wbase)
  | P PA CiI, WTE => (((- (2 / 3)) * ((Kp_PLL p * y (P PA CiR)) / wbase)) * (((((((- ra) * (cos (theta_a))) *
      (sin (y WTE))) + ((((1/2) * rb) * (cos (theta_b))) * (sin (y WTE)))) + (((k10 * rb) * (cos (theta_b))) *
      (cos (y WTE)))) + ((((1/2) * rc) * (cos (theta_c))) * (sin (y WTE)))) - (((k10 * rc) * (cos (theta_c)))
      * (cos (y WTE)))))
  | P PA CiI, P PA CiR => ((- ((y XPLL + (Kp_PLL p * vd)) + ((2 * PI) * 60))) / wbase)
  | P PA CiI, P PA CiI => ((- Rf p) / Lf p)
  | P PA CiI, P PA CxI => (y VDC / (2 * Lf p))
  | P PA CiI, P PA CuI => ((y VDC * Kp_GCC p) / (2 * Lf p))
  | P PA CxR, P PA CuR => aw (m_sat p (u_of y PA) (x_of y PA)) (Ki_GCC p * y (P PA CuR)) (y (P PA CxR))
      (Ki_GCC p)
  | P PA CxI, P PA CuI => aw (m_sat p (u_of y PA) (x_of y PA)) (Ki_GCC p * y (P PA CuI)) (y (P PA CxI))
      (Ki_GCC p)
  | P PA CuR, VDC => aw (m_sat p (u_of y PA) (x_of y PA)) (wp p * (((- y (P PA CuR)) + re ia_ref) - y (P PA
      CiR))) (y (P PA CuR)) ((- wp p) * Kp_DC p)
  | P PA CuR, XDC => aw (m_sat p (u_of y PA) (x_of y PA)) (wp p * (((- y (P PA CuR)) + re ia_ref) - y (P PA
      CiR))) (y (P PA CuR)) (wp p)
  | P PA CuR, P PA CiR => aw (m_sat p (u_of y PA) (x_of y PA)) (wp p * (((- y (P PA CuR)) + re ia_ref) - y (P
      PA CiR))) (y (P PA CuR)) (- wp p)
  | P PA CuR, P PA CuR => aw (m_sat p (u_of y PA) (x_of y PA)) (wp p * (((- y (P PA CuR)) + re ia_ref) - y (P
      PA CiR))) (y (P PA CuR)) (- wp p)
  | P PA CuI, XQ => aw (m_sat p (u_of y PA) (x_of y PA)) (wp p * (((- y (P PA CuI)) + im ia_ref) - y (P PA
      CiI))) (y (P PA CuI)) (wp p)
  | P PA CuI, P PA CiR => aw (m_sat p (u_of y PA) (x_of y PA)) (wp p * (((- y (P PA CuI)) + im ia_ref) - y (P
      PA CiI))) (y (P PA CuI)) (((Kp_Q p * wp p) * im va) / 2)
  | P PA CuI, P PA CiI => aw (m_sat p (u_of y PA) (x_of y PA)) (wp p * (((- y (P PA CuI)) + im ia_ref) - y (P
      PA CiI))) (y (P PA CuI)) ((- wp p) - (((Kp_Q p * wp p) * re va) / 2))
  | P PA CuI, P PA CuI => aw (m_sat p (u_of y PA) (x_of y PA)) (wp p * (((- y (P PA CuI)) + im ia_ref) - y (P
      PA CiI))) (y (P PA CuI)) (- wp p)
  | P PA CuI, P PB CiR => aw (m_sat p (u_of y PA) (x_of y PA)) (wp p * (((- y (P PA CuI)) + im ia_ref) - y (P
      PA CiI))) (y (P PA CuI)) (((Kp_Q p * wp p) * im vb) / 2)
  | P PA CuI, P PB CiI => aw (m_sat p (u_of y PA) (x_of y PA)) (wp p * (((- y (P PA CuI)) + im ia_ref) - y (P
      PA CiI))) (y (P PA CuI)) (- (((Kp_Q p * wp p) * re vb) / 2))
  | P PA CuI, P PC CiR => aw (m_sat p (u_of y PA) (x_of y PA)) (wp p * (((- y (P PA CuI)) + im ia_ref) - y (P
      PA CiI))) (y (P PA CuI)) (((Kp_Q p * wp p) * im vc) / 2)
  | P PA CuI, P PC CiI => aw (m_sat p (u_of y PA) (x_of y PA)) (wp p * (((- y (P PA CuI)) + im ia_ref) - y (P
      PA CiI))) (y (P PA CuI)) (- (((Kp_Q p * wp p) * re vc) / 2))
  | P PB CiR, VDC => ((y (P PB CxR) + (y (P PB CuR) * Kp_GCC p)) / (2 * Lf p))
  | P PB CiR, XPLL => (y (P PB CiI) / wbase)
  | P PB CiR, WTE => (((2 / 3) * ((Kp_PLL p * y (P PB CiI)) / wbase)) * (((((((- ra) * (cos (theta_a))) * (sin
      (y WTE))) + ((((1/2) * rb) * (cos (theta_b))) * (sin (y WTE)))) + (((k10 * rb) * (cos (theta_b))) * (cos
      (y WTE)))) + ((((1/2) * rc) * (cos (theta_c))) * (sin (y WTE)))) - (((k10 * rc) * (cos (theta_c))) *
      (cos (y WTE)))))
  | P PB CiR, P PB CiR => ((- Rf p) / Lf p)
  | P PB CiR, P PB CiI => (((y XPLL + (Kp_PLL p * vd)) + ((2 * PI) * 60)) / wbase)
  | P PB CiR, P PB CxR => (y VDC / (2 * Lf p))
  | P PB CiR, P PB CuR => ((y VDC * Kp_GCC p) / (2 * Lf p))
  | P PB CiI, VDC => ((y (P PB CxI) + (y (P PB CuI) * Kp_GCC p)) / (2 * Lf p))
  | P PB CiI, XPLL => ((- y (P PB CiR)) / wbase)
  | P PB CiI, WTE => (((- (2 / 3)) * ((Kp_PLL p * y (P PB CiR)) / wbase)) * (((((((- ra) * (cos (theta_a))) *
      (sin (y WTE))) + ((((1/2) * rb) * (cos (theta_b))) * (sin (y WTE)))) + (((k10 * rb) * (cos (theta_b))) *
      (cos (y WTE)))) + ((((1/2) * rc) * (cos (theta_c))) * (sin (y WTE)))) - (((k10 * rc) * (cos (theta_c)))
      * (cos (y WTE)))))
  | P PB CiI, P PB CiR => ((- ((y XPLL + (Kp_PLL p * vd)) + ((2 * PI) * 60))) / wbase)
  | P PB CiI, P PB CiI => ((- Rf p) / Lf p)
  | P PB CiI, P PB CxI => (y VDC / (2 * Lf p))
  | P PB CiI, P PB CuI => ((y VDC * Kp_GCC p) / (2 * Lf p))
  | P PB CxR, P PB CuR => aw (m_sat p (u_of y PB) (x_of y PB)) (Ki_GCC p * y (P PB CuR)) (y (P PB CxR))
      (Ki_GCC p)
  | P PB CxI, P PB CuI => aw (m_sat p (u_of y PB) (x_of y PB)) (Ki_GCC p * y (P PB CuI)) (y (P PB CxI))
      (Ki_GCC p)
  | P PB CuR, VDC => aw (m_sat p (u_of y PB) (x_of y PB)) (wp p * (((- y (P PB CuR)) + re ib_ref) - y (P PB
      CiR))) (y (P PB CuR)) (((1/2) * wp p) * Kp_DC p)
  | P PB CuR, XDC => aw (m_sat p (u_of y PB) (x_of y PB)) (wp p * (((- y (P PB CuR)) + re ib_ref) - y (P PB
      CiR))) (y (P PB CuR)) ((- (1/2)) * wp p)
  | P PB CuR, XQ => aw (m_sat p (u_of y PB) (x_of y PB)) (wp p * (((- y (P PB CuR)) + re ib_ref) - y (P PB
      CiR))) (y (P PB CuR)) (k9 * wp p)
  | P PB CuR, P PA CiR => aw (m_sat p (u_of y PB) (x_of y PB)) (wp p * (((- y (P PB CuR)) + re ib_ref) - y (P
      PB CiR))) (y (P PB CuR)) (k9 * (((Kp_Q p * wp p) * im va) / 2))
  | P PB CuR, P PA CiI => aw (m_sat p (u_of y PB) (x_of y PB)) (wp p * (((- y (P PB CuR)) + re ib_ref) - y (P
      PB CiR))) (y (P PB CuR)) ((- k9) * (((Kp_Q p * wp p) * re va) / 2))
  | P PB CuR, P PB CiR => aw (m_sat p (u_of y PB) (x_of y PB)) (wp p * (((- y (P PB CuR)) + re ib_ref) - y (P
      PB CiR))) (y (P PB CuR)) ((- wp p) + (k9 * (((Kp_Q p * wp p) * im vb) / 2)))
  | P PB CuR, P PB CiI => aw (m_sat p (u_of y PB) (x_of y PB)) (wp p * (((- y (P PB CuR)) + re ib_ref) - y (P
      PB CiR))) (y (P PB CuR)) ((- k9) * (((Kp_Q p * wp p) * re vb) / 2))
  | P PB CuR, P PB CuR => aw (m_sat p (u_of y PB) (x_of y PB)) (wp p * (((- y (P PB CuR)) + re ib_ref) - y (P
      PB CiR))) (y (P PB CuR)) (- wp p)
  | P PB CuR, P PC CiR => aw (m_sat p (u_of y PB) (x_of y PB)) (wp p * (((- y (P PB CuR)) + re ib_ref) - y (P
      PB CiR))) (y (P PB CuR)) (k9 * (((Kp_Q p * wp p) * im vc) / 2))
  | P PB CuR, P PC CiI => aw (m_sat p (u_of y PB) (x_of y PB)) (wp p * (((- y (P PB CuR)) + re ib_ref) - y (P
      PB CiR))) (y (P PB CuR)) ((- k9) * (((Kp_Q p * wp p) * re vc) / 2))
  | P PB CuI, VDC => aw (m_sat p (u_of y PB) (x_of y PB)) (wp p * (((- y (P PB CuI)) + im ib_ref) - y (P PB
      CiI))) (y (P PB CuI)) ((k9 * Kp_DC p) * wp p)
  | P PB CuI, XDC => aw (m_sat p (u_of y PB) (x_of y PB)) (wp p * (((- y (P PB CuI)) + im ib_ref) - y (P PB
      CiI))) (y (P PB CuI)) ((- k9) * wp p)
  | P PB CuI, XQ => aw (m_sat p (u_of y PB) (x_of y PB)) (wp p * (((- y (P PB CuI)) + im ib_ref) - y (P PB
      CiI))) (y (P PB CuI)) ((- (1/2)) * wp p)
  | P PB CuI, P PA CiR => aw (m_sat p (u_of y PB) (x_of y PB)) (wp p * (((- y (P PB CuI)) + im ib_ref) - y (P
      PB CiI))) (y (P PB CuI)) (- (((Kp_Q p * wp p) * im va) / 4))
  | P PB CuI, P PA CiI => aw (m_sat p (u_of y PB) (x_of y PB)) (wp p * (((- y (P PB CuI)) + im ib_ref) - y (P
      PB CiI))) (y (P PB CuI)) (((Kp_Q p * wp p) * re va) / 4)
  | P PB CuI, P PB CiR => aw (m_sat p (u_of y PB) (x_of y PB)) (wp p * (((- y (P PB CuI)) + im ib_ref) - y (P
      PB CiI))) (y (P PB CuI)) (- (((Kp_Q p * wp p) * im vb) / 4))
  | P PB CuI, P PB CiI => aw (m_sat p (u_of y PB) (x_of y PB)) (wp p * (((- y (P PB CuI)) + im ib_ref) - y (P
      PB CiI))) (y (P PB CuI)) ((- wp p) + (((Kp_Q p * wp p) * re vb) / 4))
  | P PB CuI, P PB CuI => aw (m_sat p (u_of y PB) (x_of y PB)) (wp p * (((- y (P PB CuI)) + im ib_ref) - y (P
      PB CiI))) (y (P PB CuI)) (- wp p)
  | P PB CuI, P PC CiR => aw (m_sat p (u_of y PB) (x_of y PB)) (wp p * (((- y (P PB CuI)) + im ib_ref) - y (P
      PB CiI))) (y (P PB CuI)) (- (((Kp_Q p * wp p) * im vc) / 4))
  | P PB CuI, P PC CiI => aw (m_sat p (u_of y PB) (x_of y PB)) (wp p * (((- y (P PB CuI)) + im ib_ref) - y (P
      PB CiI))) (y (P PB CuI)) (((Kp_Q p * wp p) * re vc) / 4)
  | P PC CiR, VDC => ((y (P PC CxR) + (y (P PC CuR) * Kp_GCC p)) / (2 * Lf p))
  | P PC CiR, XPLL => (y (P PC CiI) / wbase)
  | P PC CiR, WTE => (((2 / 3) * ((Kp_PLL p * y (P PC CiI)) / wbase)) * (((((((- ra) * (cos (theta_a))) * (sin
      (y WTE))) + ((((1/2) * rb) * (cos (theta_b))) * (sin (y WTE)))) + (((k10 * rb) * (cos (theta_b))) * (cos
      (y WTE)))) + ((((1/2) * rc) * (cos (theta_c))) * (sin (y WTE)))) - (((k10 * rc) * (cos (theta_c))) *
      (cos (y WTE)))))
  | P PC CiR, P PC CiR => ((- Rf p) / Lf p)
  | P PC CiR, P PC CiI => (((y XPLL + (Kp_PLL p * vd)) + ((2 * PI) * 60)) / wbase)
  | P PC CiR, P PC CxR => (y VDC / (2 * Lf p))
  | P PC CiR, P PC CuR => ((y VDC * Kp_GCC p) / (2 * Lf p))
  | P PC CiI, VDC => ((y (P PC CxI) + (y (P PC CuI) * Kp_GCC p)) / (2 * Lf p))
  | P PC CiI, XPLL => ((- y (P PC CiR)) / wbase)
  | P PC CiI, WTE => (((- (2 / 3)) * ((Kp_PLL p * y (P PC CiR)) / wbase)) * (((((((- ra) * (cos (theta_a))) *
      (sin (y WTE))) + ((((1/2) * rb) * (cos (theta_b))) * (sin (y WTE)))) + (((k10 * rb) * (cos (theta_b))) *
      (cos (y WTE)))) + ((((1/2) * rc) * (cos (theta_c))) * (sin (y WTE)))) - (((k10 * rc) * (cos (theta_c)))
      * (cos (y WTE)))))
  | P PC CiI, P PC CiR => ((- ((y XPLL + (Kp_PLL p * vd)) + ((2 * PI) * 60))) / wbase)
  | P PC CiI, P PC CiI => ((- Rf p) / Lf p)
  | P PC CiI, P PC CxI => (y VDC / (2 * Lf p))
  | P PC CiI, P PC CuI => ((y VDC * Kp_GCC p) / (2 * Lf p))
  | P PC CxR, P PC CuR => aw (m_sat p (u_of y PC) (x_of y PC)) (Ki_GCC p * y (P PC CuR)) (y (P PC CxR))
      (Ki_GCC p)
  | P PC CxI, P PC CuI => aw (m_sat p (u_of y PC) (x_of y PC)) (Ki_GCC p * y (P PC CuI)) (y (P PC CxI))
      (Ki_GCC p)
  | P PC CuR, VDC => aw (m_sat p (u_of y PC) (x_of y PC)) (wp p * (((- y (P PC CuR)) + re ic_ref) - y (P PC
      CiR))) (y (P PC CuR)) (((1/2) * wp p) * Kp_DC p)
  | P PC CuR, XDC => aw (m_sat p (u_of y PC) (x_of y PC)) (wp p * (((- y (P PC CuR)) + re ic_ref) - y (P PC
      CiR))) (y (P PC CuR)) ((- (1/2)) * wp p)
  | P PC CuR, XQ => aw (m_sat p (u_of y PC) (x_of y PC)) (wp p * (((- y (P PC CuR)) + re ic_ref) - y (P PC
      CiR))) (y (P PC CuR)) ((- k9) * wp p)
  | P PC CuR, P PA CiR => aw (m_sat p (u_of y PC) (x_of y PC)) (wp p * (((- y (P PC CuR)) + re ic_ref) - y (P
      PC CiR))) (y (P PC CuR)) ((- k9) * (((Kp_Q p * wp p) * im va) / 2))
  | P PC CuR, P PA CiI => aw (m_sat p (u_of y PC) (x_of y PC)) (wp p * (((- y (P PC CuR)) + re ic_ref) - y (P
      PC CiR))) (y (P PC CuR)) (k9 * (((Kp_Q p * wp p) * re va) / 2))
  | P PC CuR, P PB CiR => aw (m_sat p (u_of y PC) (x_of y PC)) (wp p * (((- y (P PC CuR)) + re ic_ref) - y (P
      PC CiR))) (y (P PC CuR)) ((- k9) * (((Kp_Q p * wp p) * im vb) / 2))
  | P PC CuR, P PB CiI => aw (m_sat p (u_of y PC) (x_of y PC)) (wp p * (((- y (P PC CuR)) + re ic_ref) - y (P
      PC CiR))) (y (P PC CuR)) (k9 * (((Kp_Q p * wp p) * re vb) / 2))
  | P PC CuR, P PC CiR => aw (m_sat p (u_of y PC) (x_of y PC)) (wp p * (((- y (P PC CuR)) + re ic_ref) - y (P
      PC CiR))) (y (P PC CuR)) ((- wp p) - (k9 * (((Kp_Q p * wp p) * im vc) / 2)))
  | P PC CuR, P PC CiI => aw (m_sat p (u_of y PC) (x_of y PC)) (wp p * (((- y (P PC CuR)) + re ic_ref) - y (P
      PC CiR))) (y (P PC CuR)) (k9 * (((Kp_Q p * wp p) * re vc) / 2))
  | P PC CuR, P PC CuR => aw (m_sat p (u_of y PC) (x_of y PC)) (wp p * (((- y (P PC CuR)) + re ic_ref) - y (P
      PC CiR))) (y (P PC CuR)) (- wp p)
  | P PC CuI, VDC => aw (m_sat p (u_of y PC) (x_of y PC)) (wp p * (((- y (P PC CuI)) + im ic_ref) - y (P PC
      CiI))) (y (P PC CuI)) (((- k10) * Kp_DC p) * wp p)
  | P PC CuI, XDC => aw (m_sat p (u_of y PC) (x_of y PC)) (wp p * (((- y (P PC CuI)) + im ic_ref) - y (P PC
      CiI))) (y (P PC CuI)) (k10 * wp p)
  | P PC CuI, XQ => aw (m_sat p (u_of y PC) (x_of y PC)) (wp p * (((- y (P PC CuI)) + im ic_ref) - y (P PC
      CiI))) (y (P PC CuI)) ((- (1/2)) * wp p)
  | P PC CuI, P PA CiR => aw (m_sat p (u_of y PC) (x_of y PC)) (wp p * (((- y (P PC CuI)) + im ic_ref) - y (P
      PC CiI))) (y (P PC CuI)) ((((- Kp_Q p) * wp p) * im va) / 4)
  | P PC CuI, P PA CiI => aw (m_sat p (u_of y PC) (x_of y PC)) (wp p * (((- y (P PC CuI)) + im ic_ref) - y (P
      PC CiI))) (y (P PC CuI)) (((Kp_Q p * wp p) * re va) / 4)
  | P PC CuI, P PB CiR => aw (m_sat p (u_of y PC) (x_of y PC)) (wp p * (((- y (P PC CuI)) + im ic_ref) - y (P
      PC CiI))) (y (P PC CuI)) ((((- Kp_Q p) * wp p) * im vb) / 4)
  | P PC CuI, P PB CiI => aw (m_sat p (u_of y PC) (x_of y PC)) (wp p * (((- y (P PC CuI)) + im ic_ref) - y (P
      PC CiI))) (y (P PC CuI)) (((Kp_Q p * wp p) * re vb) / 4)
  | P PC CuI, P PC CiR => aw (m_sat p (u_of y PC) (x_of y PC)) (wp p * (((- y (P PC CuI)) + im ic_ref) - y (P
      PC CiI))) (y (P PC CuI)) (- (((Kp_Q p * wp p) * im vc) / 4))
  | P PC CuI, P PC CiI => aw (m_sat p (u_of y PC) (x_of y PC)) (wp p * (((- y (P PC CuI)) + im ic_ref) - y (P
      PC CiI))) (y (P PC CuI)) ((- wp p) + (((Kp_Q p * wp p) * re vc) / 4))
  | P PC CuI, P PC CuI => aw (m_sat p (u_of y PC) (x_of y PC)) (wp p * (((- y (P PC CuI)) + im ic_ref) - y (P
      PC CiI))) (y (P PC CuI)) (- wp p)
  | _, _ => 0
  end.
Definition k9_code : R := 866025403 / 1000000000.
Definition k10_code : R := 8660254037 / 10000000000.
Definition jac3 := jac3_at k9_code k10_code.

(** three_phase_balanced.py:370-533 *)
Definition jacb_at (k10 : R) (p : prm) (e : env) (y : st) (v w : var) : R :=
  let va := vb_of p e y PA in let vb := vb_of p e y PB in let vc := vb_of p e y PC in
  let vd := vdb p e y in
  let ra := cabs va in
  let theta_a := e_wgrid e * e_t e + cphase va - PI / 2 in
  let rb := cabs vb in
  let theta_b := e_wgrid e * e_t e + cphase vb - PI / 2 in
  let rc := cabs vc in
  let theta_c := e_wgrid e * e_t e + cphase vc - PI / 2 in
  let Spcc := Sb_pcc p e y in
  let ia_ref := eff_iref e (irefb p e y) in
  let iref_test := irefb_test p e y in
  match v, w with
  | VDC, VDC => (((- (((q_charge * Np (e_mod e)) * Irs) * (Vdcbase p ^ 2))) / (((((Cdc p * k_boltz) * A_ideal)
      * Ns (e_mod e)) * Tactual (e_mod e)) * Sbase)) * (exp (((q_charge * y VDC) * Vdcbase p) / (((k_boltz *
      A_ideal) * Ns (e_mod e)) * Tactual (e_mod e)))))
  | VDC, P PA CiR => ((- (y (P PA CxR) + (Kp_GCC p * y (P PA CuR)))) / (4 * Cdc p))
  | VDC, P PA CiI => ((- (y (P PA CxI) + (Kp_GCC p * y (P PA CuI)))) / (4 * Cdc p))
  | VDC, P PA CxR => ((- y (P PA CiR)) / (4 * Cdc p))
  | VDC, P PA CxI => ((- y (P PA CiI)) / (4 * Cdc p))
  | VDC, P PA CuR => ((- (Kp_GCC p * y (P PA CiR))) / (4 * Cdc p))
  | VDC, P PA CuI => ((- (Kp_GCC p * y (P PA CiI))) / (4 * Cdc p))
  | XDC, VDC => aw (i_sat p iref_test) (Ki_DC p * (eff_Vref e (y VDC) - y VDC)) (y XDC) (- Ki_DC p)
  | XQ, P PA CiR => aw (i_sat p iref_test) ((- Ki_Q p) * (eff_Qref e - im Spcc)) (y XQ) ((Ki_Q p * im va) / 2)
  | XQ, P PA CiI => aw (i_sat p iref_test) ((- Ki_Q p) * (eff_Qref e - im Spcc)) (y XQ) (- ((Ki_Q p * re va) /
      2))
  | XPLL, WTE => (((2 / 3) * Ki_PLL p) * (((((((- ra) * (cos (theta_a))) * (sin (y WTE))) + ((((1/2) * rb) *
      (cos (theta_b))) * (sin (y WTE)))) + (((k10 * rb) * (cos (theta_b))) * (cos (y WTE)))) + ((((1/2) * rc)
      * (cos (theta_c))) * (sin (y WTE)))) - (((k10 * rc) * (cos (theta_c))) * (cos (y WTE)))))
  | WTE, XPLL => 1
  | WTE, WTE => (((2 / 3) * Kp_PLL p) * (((((((- ra) * (cos (theta_a))) * (sin (y WTE))) + ((((1/2) * rb) *
      (cos (theta_b))) * (sin (y WTE)))) + (((k10 * rb) * (cos (theta_b))) * (cos (y WTE)))) + ((((1/2) * rc)
      * (cos (theta_c))) * (sin (y WTE)))) - (((k10 * rc) * (cos (theta_c))) * (cos (y WTE)))))
  | P PA CiR, VDC => ((y (P PA CxR) + (y (P PA CuR) * Kp_GCC p)) / (2 * Lf p))
  | P PA CiR, XPLL => (y (P PA CiI) / wbase)
  | P PA CiR, WTE => (((2 / 3) * ((Kp_PLL p * y (P PA CiI)) / wbase)) * (((((((- ra) * (cos (theta_a))) * (sin
      (y WTE))) + ((((1/2) * rb) * (cos (theta_b))) * (sin (y WTE)))) + (((k10 * rb) * (cos (theta_b))) * (cos
      (y WTE)))) + ((((1/2) * rc) * (cos (theta_c))) * (sin (y WTE)))) - (((k10 * rc) * (cos (theta_c))) *
      (cos (y WTE)))))
  | P PA CiR, P PA CiR => ((- Rf p) / Lf p)
  | P PA CiR, P PA CiI => (((y XPLL + (Kp_PLL p * vd)) + ((2 * PI) * 60)) / wbase)
  | P PA CiR, P PA CxR => (y VDC / (2 * Lf p))
  | P PA CiR, P PA CuR => ((y VDC * Kp_GCC p) / (2 * Lf p))
  | P PA CiI, VDC => ((y (P PA CxI) + (y (P PA CuI) * Kp_GCC p)) / (2 * Lf p))
  | P PA CiI, XPLL => ((- y (P PA CiR)) / wbase)
  | P PA CiI, WTE => (((- (2 / 3)) * ((Kp_PLL p * y (P PA CiR)) / wbase)) * (((((((- ra) * (cos (theta_a))) *
      (sin (y WTE))) + ((((1/2) * rb) * (cos (theta_b))) * (sin (y WTE)))) + (((k10 * rb) * (cos (theta_b))) *
      (cos (y WTE)))) + ((((1/2) * rc) * (cos (theta_c))) * (sin (y WTE)))) - (((k10 * rc) * (cos (theta_c)))
      * (cos (y WTE)))))
  | P PA CiI, P PA CiR => ((- ((y XPLL + (Kp_PLL p * vd)) + ((2 * PI) * 60))) / wbase)
  | P PA CiI, P PA CiI => ((- Rf p) / Lf p)
  | P PA CiI, P PA CxI => (y VDC / (2 * Lf p))
  | P PA CiI, P PA CuI => ((y VDC * Kp_GCC p) / (2 * Lf p))
  | P PA CxR, P PA CuR => aw (m_sat p (u_of y PA) (x_of y PA)) (Ki_GCC p * y (P PA CuR)) (y (P PA CxR))
      (Ki_GCC p)
  | P PA CxI, P PA CuI => aw (m_sat p (u_of y PA) (x_of y PA)) (Ki_GCC p * y (P PA CuI)) (y (P PA CxI))
      (Ki_GCC p)
  | P PA CuR, VDC => aw (m_sat p (u_of y PA) (x_of y PA)) (wp p * (((- y (P PA CuR)) + re ia_ref) - y (P PA
      CiR))) (y (P PA CuR)) ((- wp p) * Kp_DC p)
  | P PA CuR, XDC => aw (m_sat p (u_of y PA) (x_of y PA)) (wp p * (((- y (P PA CuR)) + re ia_ref) - y (P PA
      CiR))) (y (P PA CuR)) (wp p)
  | P PA CuR, P PA CiR => aw (m_sat p (u_of y PA) (x_of y PA)) (wp p * (((- y (P PA CuR)) + re ia_ref) - y (P
      PA CiR))) (y (P PA CuR)) (- wp p)
  | P PA CuR, P PA CuR => aw (m_sat p (u_of y PA) (x_of y PA)) (wp p * (((- y (P PA CuR)) + re ia_ref) - y (P
      PA CiR))) (y (P PA CuR)) (- wp p)
  | P PA CuI, XQ => aw (m_sat p (u_of y PA) (x_of y PA)) (wp p * (((- y (P PA CuI)) + im ia_ref) - y (P PA
      CiI))) (y (P PA CuI)) (wp p)
  | P PA CuI, P PA CiR => aw (m_sat p (u_of y PA) (x_of y PA)) (wp p * (((- y (P PA CuI)) + im ia_ref) - y (P
      PA CiI))) (y (P PA CuI)) (((Kp_Q p * wp p) * im va) / 2)
  | P PA CuI, P PA CiI => aw (m_sat p (u_of y PA) (x_of y PA)) (wp p * (((- y (P PA CuI)) + im ia_ref) - y (P
      PA CiI))) (y (P PA CuI)) ((- wp p) - (((Kp_Q p * wp p) * re va) / 2))
  | P PA CuI, P PA CuI => aw (m_sat p (u_of y PA) (x_of y PA)) (wp p * (((- y (P PA CuI)) + im ia_ref) - y (P
      PA CiI))) (y (P PA CuI)) (- wp p)
  | _, _ => 0
  end.
Definition jacb := jacb_at k10_code.

(** single_phase_constant_Vdc.py:334-489 *)
Definition jacc (p : prm) (e : env) (y : st) (v w : var) : R :=
  let va := v_calc p e PA (i_of y PA) in
  let vd := vd1 p e y in
  let ra := cabs va in
  let theta_a := e_wgrid e * e_t e + cphase va - PI / 2 in
  let Spcc := S1_pcc p e y in
  let Sinv := Sc_inv p e y in
  let Ppv := eff_Ppv e (Ppv_of p e (e_Vconst e)) in
  let ia_ref := eff_iref e (irefc p e y) in
  match v, w with
  | XQ, P PA CiR => aw (i_sat p (Cx (y XP + (Kp_P p * (Ppv - re Sinv))) (y XQ - (Kp_Q p * (eff_Qref e - im
      Spcc))))) ((- Ki_Q p) * (eff_Qref e - im Spcc)) (y XQ) ((Ki_Q p * im va) / 2)
  | XQ, P PA CiI => aw (i_sat p (Cx (y XP + (Kp_P p * (Ppv - re Sinv))) (y XQ - (Kp_Q p * (eff_Qref e - im
      Spcc))))) ((- Ki_Q p) * (eff_Qref e - im Spcc)) (y XQ) (- ((Ki_Q p * re va) / 2))
  | XP, P PA CiR => aw (i_sat p (Cx (y XP + (Kp_P p * (Ppv - re Sinv))) (y XQ - (Kp_Q p * (eff_Qref e - im
      Spcc))))) (Ki_P p * (eff_Vref e (y VDC) - e_Vconst e)) (y XP) ((Ki_P p * im va) / 2)
  | XP, P PA CiI => aw (i_sat p (Cx (y XP + (Kp_P p * (Ppv - re Sinv))) (y XQ - (Kp_Q p * (eff_Qref e - im
      Spcc))))) (Ki_P p * (eff_Vref e (y VDC) - e_Vconst e)) (y XP) (- ((Ki_P p * re va) / 2))
  | XPLL, WTE => ((Ki_PLL p * ra) * (((- (cos (theta_a))) * (sin (y WTE))) + ((cos (theta_a - (PI / 2))) *
      (cos (y WTE)))))
  | WTE, XPLL => 1
  | WTE, WTE => ((Kp_PLL p * ra) * (((- (cos (theta_a))) * (sin (y WTE))) + ((cos (theta_a - (PI / 2))) * (cos
      (y WTE)))))
  | P PA CiR, XPLL => (y (P PA CiI) / wbase)
  | P PA CiR, WTE => ((((Kp_PLL p * y (P PA CiI)) * ra) / wbase) * (((- (cos (theta_a))) * (sin (y WTE))) +
      ((cos (theta_a - (PI / 2))) * (cos (y WTE)))))
  | P PA CiR, P PA CiR => ((- Rf p) / Lf p)
  | P PA CiR, P PA CiI => (((y XPLL + (Kp_PLL p * vd)) + ((2 * PI) * 60)) / wbase)
  | P PA CiR, P PA CxR => (e_Vconst e / (2 * Lf p))
  | P PA CiR, P PA CuR => ((e_Vconst e * Kp_GCC p) / (2 * Lf p))
  | P PA CiI, XPLL => ((- y (P PA CiR)) / wbase)
  | P PA CiI, WTE => ((((Kp_PLL p * y (P PA CiR)) * ra) / wbase) * (((- (cos (theta_a))) * (sin (y WTE))) +
      ((cos (theta_a - (PI / 2))) * (cos (y WTE)))))
  | P PA CiI, P PA CiR => ((- ((y XPLL + (Kp_PLL p * vd)) + ((2 * PI) * 60))) / wbase)
  | P PA CiI, P PA CiI => ((- Rf p) / Lf p)
  | P PA CiI, P PA CxI => (e_Vconst e / (2 * Lf p))
  | P PA CiI, P PA CuI => ((e_Vconst e * Kp_GCC p) / (2 * Lf p))
  | P PA CxR, P PA CuR => aw (m_sat p (u_of y PA) (x_of y PA)) (Ki_GCC p * y (P PA CuR)) (y (P PA CxR))
      (Ki_GCC p)
  | P PA CxI, P PA CuI => aw (m_sat p (u_of y PA) (x_of y PA)) (Ki_GCC p * y (P PA CuI)) (y (P PA CxI))
      (Ki_GCC p)
  | P PA CuR, XP => aw (m_sat p (u_of y PA) (x_of y PA)) (wp p * (((- y (P PA CuR)) + re ia_ref) - y (P PA
      CiR))) (y (P PA CuR)) (wp p)
  | P PA CuR, P PA CiR => aw (m_sat p (u_of y PA) (x_of y PA)) (wp p * (((- y (P PA CuR)) + re ia_ref) - y (P
      PA CiR))) (y (P PA CuR)) (- wp p)
  | P PA CuR, P PA CuR => aw (m_sat p (u_of y PA) (x_of y PA)) (wp p * (((- y (P PA CuR)) + re ia_ref) - y (P
      PA CiR))) (y (P PA CuR)) (- wp p)
  | P PA CuI, XQ => aw (m_sat p (u_of y PA) (x_of y PA)) (wp p * (((- y (P PA CuI)) + im ia_ref) - y (P PA
      CiI))) (y (P PA CuI)) (wp p)
  | P PA CuI, P PA CiR => aw (m_sat p (u_of y PA) (x_of y PA)) (wp p * (((- y (P PA CuI)) + im ia_ref) - y (P
      PA CiI))) (y (P PA CuI)) (((Kp_Q p * wp p) * im va) / 2)
  | P PA CuI, P PA CiI => aw (m_sat p (u_of y PA) (x_of y PA)) (wp p * (((- y (P PA CuI)) + im ia_ref) - y (P
      PA CiI))) (y (P PA CuI)) ((- wp p) - (((Kp_Q p * wp p) * re va) / 2))
  | P PA CuI, P PA CuI => aw (m_sat p (u_of y PA) (x_of y PA)) (wp p * (((- y (P PA CuI)) + im ia_ref) - y (P
      PA CiI))) (y (P PA CuI)) (- wp p)
  | _, _ => 0
  end.

(** State lists, DER_check_and_initialize.py:518-567 (initialize_jacobian) *)
Definition abc_states (k : phase) : list var := [P k CiR; P k CiI; P k CxR; P k CxI; P k CuR; P k CuI].
Definition states1 : list var := abc_states PA ++ [VDC; XDC; XQ; XPLL; WTE].
Definition states3 : list var := abc_states PA ++ abc_states PB ++ abc_states PC ++ [VDC; XDC; XQ; XPLL; WTE; VRF].
Definition statesb : list var := states1.
Definition statesc : list var := abc_states PA ++ [XP; XQ; XPLL; WTE].
