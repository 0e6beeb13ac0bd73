(** Model of jac_ODE_model of the three-phase DER with constant DC voltage,
    /repo/pvder/DER_components_three_phase_constant_Vdc.py:463-865; conventions of
    JacModel.v (one case per assigned entry, [aw] for the anti-windup pattern, 0 for
    the entries the code never assigns; k9, k10 are the literals 0.866025403 and
    0.8660254037). *)
From Coq Require Import List.
From Verif Require Import RBase PhasorModel PVModel ODEModel JacModel Const3Model.
Import ListNotations.
Open Scope R_scope.

Definition jac3c_at (k9 k10 : R) (p : prm) (e : env) (y : st) (v w : var) : R :=
  let va := v3_of p e y PA in let vb := v3_of p e y PB in let vc := v3_of p e y PC in
  let vd := vd3 p e y in
  let ra := cabs va in
  let theta_a := e_wgrid e * e_t e + cphase va - PI / 2 in
  let rb := cabs vb in
  let theta_b := e_wgrid e * e_t e + cphase vb - PI / 2 in
  let rc := cabs vc in
  let theta_c := e_wgrid e * e_t e + cphase vc - PI / 2 in
  let Spcc := S3_pcc p e y in
  let Sinv := S3c_inv p e y in
  let Ppv := eff_Ppv e (Ppv_of p e (e_Vconst e)) in
  let ia_ref := eff_iref e (rot PA (iref3c p e y)) in
  let ib_ref := eff_iref e (rot PB (iref3c p e y)) in
  let ic_ref := eff_iref e (rot PC (iref3c p e y)) in
  match v, w with
  | XQ, P PA CiR => aw (i_sat p (Cx (y XP + (Kp_P p * (Ppv - re Sinv))) (y XQ - (Kp_Q p * (eff_Qref e - im
      Spcc))))) ((- Ki_Q p) * (eff_Qref e - im Spcc)) (y XQ) ((Ki_Q p * im va) / 2)
  | XQ, P PA CiI => aw (i_sat p (Cx (y XP + (Kp_P p * (Ppv - re Sinv))) (y XQ - (Kp_Q p * (eff_Qref e - im
      Spcc))))) ((- Ki_Q p) * (eff_Qref e - im Spcc)) (y XQ) (- ((Ki_Q p * re va) / 2))
  | XP, P PA CiR => aw (i_sat p (Cx (y XP + (Kp_P p * (Ppv - re Sinv))) (y XQ - (Kp_Q p * (eff_Qref e - im
      Spcc))))) (Ki_P p * (Ppv - re Sinv)) (y XP) ((Ki_P p * im va) / 2)
  | XP, P PA CiI => aw (i_sat p (Cx (y XP + (Kp_P p * (Ppv - re Sinv))) (y XQ - (Kp_Q p * (eff_Qref e - im
      Spcc))))) (Ki_P p * (Ppv - re Sinv)) (y XP) (- ((Ki_P p * re va) / 2))
  | XPLL, WTE => ((Ki_PLL p * ra) * (((- (cos (theta_a))) * (sin (y WTE))) + ((cos (theta_a - (PI / 2))) *
      (cos (y WTE)))))
  | WTE, XPLL => 1
  | WTE, WTE => ((Kp_PLL p * ra) * (((- (cos (theta_a))) * (sin (y WTE))) + ((cos (theta_a - (PI / 2))) * (cos
      (y WTE)))))
  | P PA CiR, XPLL => (y (P PA CiI) / wbase)
  | P PA CiR, WTE => ((((Kp_PLL p * y (P PA CiI)) * ra) / wbase) * (((- (cos (theta_a))) * (sin (y WTE))) +
      ((cos (theta_a - (PI / 2))) * (cos (y WTE)))))
  | P PA CiR, P PA CiR => ((- Rf p) / Lf p)
  | P PA CiR, P PA CiI => (((y XPLL + (Kp_PLL p * vd)) + ((2 * PI) * 60)) / wbase)
  | P PA CiR, P PA CxR => (e_Vconst e / (2 * Lf p))
  | P PA CiR, P PA CuR => ((e_Vconst e * Kp_GCC p) / (2 * Lf p))
  | P PA CiI, XPLL => ((- y (P PA CiR)) / wbase)
  | P PA CiI, WTE => ((((Kp_PLL p * y (P PA CiR)) * ra) / wbase) * (((- (cos (theta_a))) * (sin (y WTE))) +
      ((cos (theta_a - (PI / 2))) * (cos (y WTE)))))
  | P PA CiI, P PA CiR => ((- ((y XPLL + (Kp_PLL p * vd)) + ((2 * PI) * 60))) / wbase)
  | P PA CiI, P PA CiI => ((- Rf p) / Lf p)
  | P PA CiI, P PA CxI => (e_Vconst e / (2 * Lf p))
  | P PA CiI, P PA CuI => ((e_Vconst e * Kp_GCC p) / (2 * Lf p))
  | P PA CxR, P PA CuR => aw (m_sat p (u_of y PA) (x_of y PA)) (Ki_GCC p * y (P PA CuR)) (y (P PA CxR))
      (Ki_GCC p)
  | P PA CxI, P PA CuI => aw (m_sat p (u_of y PA) (x_of y PA)) (Ki_GCC p * y (P PA CuI)) (y (P PA CxI))
      (Ki_GCC p)
  | P PA CuR, XP => aw (m_sat p (u_of y PA) (x_of y PA)) (wp p * (((- y (P PA CuR)) + re ia_ref) - y (P PA
      CiR))) (y (P PA CuR)) (wp p)
  | P PA CuR, P PA CiR => aw (m_sat p (u_of y PA) (x_of y PA)) (wp p * (((- y (P PA CuR)) + re ia_ref) - y (P
      PA CiR))) (y (P PA CuR)) (- wp p)
  | P PA CuR, P PA CuR => aw (m_sat p (u_of y PA) (x_of y PA)) (wp p * (((- y (P PA CuR)) + re ia_ref) - y (P
      PA CiR))) (y (P PA CuR)) (- wp p)
  | P PA CuI, XQ => aw (m_sat p (u_of y PA) (x_of y PA)) (wp p * (((- y (P PA CuI)) + im ia_ref) - y (P PA
      CiI))) (y (P PA CuI)) (wp p)
  | P PA CuI, P PA CiR => aw (m_sat p (u_of y PA) (x_of y PA)) (wp p * (((- y (P PA CuI)) + im ia_ref) - y (P
      PA CiI))) (y (P PA CuI)) (((Kp_Q p * wp p) * im va) / 2)
  | P PA CuI, P PA CiI => aw (m_sat p (u_of y PA) (x_of y PA)) (wp p * (((- y (P PA CuI)) + im ia_ref) - y (P
      PA CiI))) (y (P PA CuI)) ((- wp p) - (((Kp_Q p * wp p) * re va) / 2))
  | P PA CuI, P PA CuI => aw (m_sat p (u_of y PA) (x_of y PA)) (wp p * (((- y (P PA CuI)) + im ia_ref) - y (P
      PA CiI))) (y (P PA CuI)) (- wp p)
  | P PB CiR, XPLL => (y (P PB CiI) / wbase)
  | P PB CiR, WTE => (((2 / 3) * ((Kp_PLL p * y (P PB CiI)) / wbase)) * (((((((- ra) * (cos (theta_a))) * (sin
      (y WTE))) + ((((1/2) * rb) * (cos (theta_b))) * (sin (y WTE)))) + (((k10 * rb) * (cos (theta_b))) * (cos
      (y WTE)))) + ((((1/2) * rc) * (cos (theta_c))) * (sin (y WTE)))) - (((k10 * rc) * (cos (theta_c))) *
      (cos (y WTE)))))
  | P PB CiR, P PB CiR => ((- Rf p) / Lf p)
  | P PB CiR, P PB CiI => (((y XPLL + (Kp_PLL p * vd)) + ((2 * PI) * 60)) / wbase)
  | P PB CiR, P PB CxR => (e_Vconst e / (2 * Lf p))
  | P PB CiR, P PB CuR => ((e_Vconst e * Kp_GCC p) / (2 * Lf p))
  | P PB CiI, XPLL => ((- y (P PB CiR)) / wbase)
  | P PB CiI, WTE => (((- (2 / 3)) * ((Kp_PLL p * y (P PB CiR)) / wbase)) * (((((((- ra) * (cos (theta_a))) *
      (sin (y WTE))) + ((((1/2) * rb) * (cos (theta_b))) * (sin (y WTE)))) + (((k10 * rb) * (cos (theta_b))) *
      (cos (y WTE)))) + ((((1/2) * rc) * (cos (theta_c))) * (sin (y WTE)))) - (((k10 * rc) * (cos (theta_c)))
      * (cos (y WTE)))))
  | P PB CiI, P PB CiR => ((- ((y XPLL + (Kp_PLL p * vd)) + ((2 * PI) * 60))) / wbase)
  | P PB CiI, P PB CiI => ((- Rf p) / Lf p)
  | P PB CiI, P PB CxI => (e_Vconst e / (2 * Lf p))
  | P PB CiI, P PB CuI => ((e_Vconst e * Kp_GCC p) / (2 * Lf p))
  | P PB CxR, P PB CuR => aw (m_sat p (u_of y PB) (x_of y PB)) (Ki_GCC p * y (P PB CuR)) (y (P PB CxR))
      (Ki_GCC p)
  | P PB CxI, P PB CuI => aw (m_sat p (u_of y PB) (x_of y PB)) (Ki_GCC p * y (P PB CuI)) (y (P PB CxI))
      (Ki_GCC p)
  | P PB CuR, XQ => aw (m_sat p (u_of y PB) (x_of y PB)) (wp p * (((- y (P PB CuR)) + re ib_ref) - y (P PB
      CiR))) (y (P PB CuR)) (k9 * wp p)
  | P PB CuR, XP => aw (m_sat p (u_of y PB) (x_of y PB)) (wp p * (((- y (P PB CuR)) + re ib_ref) - y (P PB
      CiR))) (y (P PB CuR)) ((- (1/2)) * wp p)
  | P PB CuR, P PA CiR => aw (m_sat p (u_of y PB) (x_of y PB)) (wp p * (((- y (P PB CuR)) + re ib_ref) - y (P
      PB CiR))) (y (P PB CuR)) (k9 * (((Kp_Q p * wp p) * im va) / 2))
  | P PB CuR, P PA CiI => aw (m_sat p (u_of y PB) (x_of y PB)) (wp p * (((- y (P PB CuR)) + re ib_ref) - y (P
      PB CiR))) (y (P PB CuR)) ((- k9) * (((Kp_Q p * wp p) * re va) / 2))
  | P PB CuR, P PB CiR => aw (m_sat p (u_of y PB) (x_of y PB)) (wp p * (((- y (P PB CuR)) + re ib_ref) - y (P
      PB CiR))) (y (P PB CuR)) ((- wp p) + (k9 * (((Kp_Q p * wp p) * im vb) / 2)))
  | P PB CuR, P PB CiI => aw (m_sat p (u_of y PB) (x_of y PB)) (wp p * (((- y (P PB CuR)) + re ib_ref) - y (P
      PB CiR))) (y (P PB CuR)) ((- k9) * (((Kp_Q p * wp p) * re vb) / 2))
  | P PB CuR, P PB CuR => aw (m_sat p (u_of y PB) (x_of y PB)) (wp p * (((- y (P PB CuR)) + re ib_ref) - y (P
      PB CiR))) (y (P PB CuR)) (- wp p)
  | P PB CuR, P PC CiR => aw (m_sat p (u_of y PB) (x_of y PB)) (wp p * (((- y (P PB CuR)) + re ib_ref) - y (P
      PB CiR))) (y (P PB CuR)) (k9 * (((Kp_Q p * wp p) * im vc) / 2))
  | P PB CuR, P PC CiI => aw (m_sat p (u_of y PB) (x_of y PB)) (wp p * (((- y (P PB CuR)) + re ib_ref) - y (P
      PB CiR))) (y (P PB CuR)) ((- k9) * (((Kp_Q p * wp p) * re vc) / 2))
  | P PB CuI, XQ => aw (m_sat p (u_of y PB) (x_of y PB)) (wp p * (((- y (P PB CuI)) + im ib_ref) - y (P PB
      CiI))) (y (P PB CuI)) ((- (1/2)) * wp p)
  | P PB CuI, XP => aw (m_sat p (u_of y PB) (x_of y PB)) (wp p * (((- y (P PB CuI)) + im ib_ref) - y (P PB
      CiI))) (y (P PB CuI)) ((- k9) * wp p)
  | P PB CuI, P PA CiR => aw (m_sat p (u_of y PB) (x_of y PB)) (wp p * (((- y (P PB CuI)) + im ib_ref) - y (P
      PB CiI))) (y (P PB CuI)) (- (((Kp_Q p * wp p) * im va) / 4))
  | P PB CuI, P PA CiI => aw (m_sat p (u_of y PB) (x_of y PB)) (wp p * (((- y (P PB CuI)) + im ib_ref) - y (P
      PB CiI))) (y (P PB CuI)) (((Kp_Q p * wp p) * re va) / 4)
  | P PB CuI, P PB CiR => aw (m_sat p (u_of y PB) (x_of y PB)) (wp p * (((- y (P PB CuI)) + im ib_ref) - y (P
      PB CiI))) (y (P PB CuI)) (- (((Kp_Q p * wp p) * im vb) / 4))
  | P PB CuI, P PB CiI => aw (m_sat p (u_of y PB) (x_of y PB)) (wp p * (((- y (P PB CuI)) + im ib_ref) - y (P
      PB CiI))) (y (P PB CuI)) ((- wp p) + (((Kp_Q p * wp p) * re vb) / 4))
  | P PB CuI, P PB CuI => aw (m_sat p (u_of y PB) (x_of y PB)) (wp p * (((- y (P PB CuI)) + im ib_ref) - y (P
      PB CiI))) (y (P PB CuI)) (- wp p)
  | P PB CuI, P PC CiR => aw (m_sat p (u_of y PB) (x_of y PB)) (wp p * (((- y (P PB CuI)) + im ib_ref) - y (P
      PB CiI))) (y (P PB CuI)) (- (((Kp_Q p * wp p) * im vc) / 4))
  | P PB CuI, P PC CiI => aw (m_sat p (u_of y PB) (x_of y PB)) (wp p * (((- y (P PB CuI)) + im ib_ref) - y (P
      PB CiI))) (y (P PB CuI)) (((Kp_Q p * wp p) * re vc) / 4)
  | P PC CiR, XPLL => (y (P PC CiI) / wbase)
  | P PC CiR, WTE => (((2 / 3) * ((Kp_PLL p * y (P PC CiI)) / wbase)) * (((((((- ra) * (cos (theta_a))) * (sin
      (y WTE))) + ((((1/2) * rb) * (cos (theta_b))) * (sin (y WTE)))) + (((k10 * rb) * (cos (theta_b))) * (cos
      (y WTE)))) + ((((1/2) * rc) * (cos (theta_c))) * (sin (y WTE)))) - (((k10 * rc) * (cos (theta_c))) *
      (cos (y WTE)))))
  | P PC CiR, P PC CiR => ((- Rf p) / Lf p)
  | P PC CiR, P PC CiI => (((y XPLL + (Kp_PLL p * vd)) + ((2 * PI) * 60)) / wbase)
  | P PC CiR, P PC CxR => (e_Vconst e / (2 * Lf p))
  | P PC CiR, P PC CuR => ((e_Vconst e * Kp_GCC p) / (2 * Lf p))
  | P PC CiI, XPLL => ((- y (P PC CiR)) / wbase)
  | P PC CiI, WTE => (((- (2 / 3)) * ((Kp_PLL p * y (P PC CiR)) / wbase)) * (((((((- ra) * (cos (theta_a))) *
      (sin (y WTE))) + ((((1/2) * rb) * (cos (theta_b))) * (sin (y WTE)))) + (((k10 * rb) * (cos (theta_b))) *
      (cos (y WTE)))) + ((((1/2) * rc) * (cos (theta_c))) * (sin (y WTE)))) - (((k10 * rc) * (cos (theta_c)))
      * (cos (y WTE)))))
  | P PC CiI, P PC CiR => ((- ((y XPLL + (Kp_PLL p * vd)) + ((2 * PI) * 60))) / wbase)
  | P PC CiI, P PC CiI => ((- Rf p) / Lf p)
  | P PC CiI, P PC CxI => (e_Vconst e / (2 * Lf p))
  | P PC CiI, P PC CuI => ((e_Vconst e * Kp_GCC p) / (2 * Lf p))
  | P PC CxR, P PC CuR => aw (m_sat p (u_of y PC) (x_of y PC)) (Ki_GCC p * y (P PC CuR)) (y (P PC CxR))
      (Ki_GCC p)
  | P PC CxI, P PC CuI => aw (m_sat p (u_of y PC) (x_of y PC)) (Ki_GCC p * y (P PC CuI)) (y (P PC CxI))
      (Ki_GCC p)
  | P PC CuR, XQ => aw (m_sat p (u_of y PC) (x_of y PC)) (wp p * (((- y (P PC CuR)) + re ic_ref) - y (P PC
      CiR))) (y (P PC CuR)) ((- k9) * wp p)
  | P PC CuR, XP => aw (m_sat p (u_of y PC) (x_of y PC)) (wp p * (((- y (P PC CuR)) + re ic_ref) - y (P PC
      CiR))) (y (P PC CuR)) ((- (1/2)) * wp p)
  | P PC CuR, P PA CiR => aw (m_sat p (u_of y PC) (x_of y PC)) (wp p * (((- y (P PC CuR)) + re ic_ref) - y (P
      PC CiR))) (y (P PC CuR)) ((- k9) * (((Kp_Q p * wp p) * im va) / 2))
  | P PC CuR, P PA CiI => aw (m_sat p (u_of y PC) (x_of y PC)) (wp p * (((- y (P PC CuR)) + re ic_ref) - y (P
      PC CiR))) (y (P PC CuR)) (k9 * (((Kp_Q p * wp p) * re va) / 2))
  | P PC CuR, P PB CiR => aw (m_sat p (u_of y PC) (x_of y PC)) (wp p * (((- y (P PC CuR)) + re ic_ref) - y (P
      PC CiR))) (y (P PC CuR)) ((- k9) * (((Kp_Q p * wp p) * im vb) / 2))
  | P PC CuR, P PB CiI => aw (m_sat p (u_of y PC) (x_of y PC)) (wp p * (((- y (P PC CuR)) + re ic_ref) - y (P
      PC CiR))) (y (P PC CuR)) (k9 * (((Kp_Q p * wp p) * re vb) / 2))
  | P PC CuR, P PC CiR => aw (m_sat p (u_of y PC) (x_of y PC)) (wp p * (((- y (P PC CuR)) + re ic_ref) - y (P
      PC CiR))) (y (P PC CuR)) ((- wp p) - (k9 * (((Kp_Q p * wp p) * im vc) / 2)))
  | P PC CuR, P PC CiI => aw (m_sat p (u_of y PC) (x_of y PC)) (wp p * (((- y (P PC CuR)) + re ic_ref) - y (P
      PC CiR))) (y (P PC CuR)) (k9 * (((Kp_Q p * wp p) * re vc) / 2))
  | P PC CuR, P PC CuR => aw (m_sat p (u_of y PC) (x_of y PC)) (wp p * (((- y (P PC CuR)) + re ic_ref) - y (P
      PC CiR))) (y (P PC CuR)) (- wp p)
  | P PC CuI, XQ => aw (m_sat p (u_of y PC) (x_of y PC)) (wp p * (((- y (P PC CuI)) + im ic_ref) - y (P PC
      CiI))) (y (P PC CuI)) ((- (1/2)) * wp p)
  | P PC CuI, XP => aw (m_sat p (u_of y PC) (x_of y PC)) (wp p * (((- y (P PC CuI)) + im ic_ref) - y (P PC
      CiI))) (y (P PC CuI)) (k10 * wp p)
  | P PC CuI, P PA CiR => aw (m_sat p (u_of y PC) (x_of y PC)) (wp p * (((- y (P PC CuI)) + im ic_ref) - y (P
      PC CiI))) (y (P PC CuI)) ((((- Kp_Q p) * wp p) * im va) / 4)
  | P PC CuI, P PA CiI => aw (m_sat p (u_of y PC) (x_of y PC)) (wp p * (((- y (P PC CuI)) + im ic_ref) - y (P
      PC CiI))) (y (P PC CuI)) (((Kp_Q p * wp p) * re va) / 4)
  | P PC CuI, P PB CiR => aw (m_sat p (u_of y PC) (x_of y PC)) (wp p * (((- y (P PC CuI)) + im ic_ref) - y (P
      PC CiI))) (y (P PC CuI)) ((((- Kp_Q p) * wp p) * im vb) / 4)
  | P PC CuI, P PB CiI => aw (m_sat p (u_of y PC) (x_of y PC)) (wp p * (((- y (P PC CuI)) + im ic_ref) - y (P
      PC CiI))) (y (P PC CuI)) (((Kp_Q p * wp p) * re vb) / 4)
  | P PC CuI, P PC CiR => aw (m_sat p (u_of y PC) (x_of y PC)) (wp p * (((- y (P PC CuI)) + im ic_ref) - y (P
      PC CiI))) (y (P PC CuI)) (- (((Kp_Q p * wp p) * im vc) / 4))
  | P PC CuI, P PC CiI => aw (m_sat p (u_of y PC) (x_of y PC)) (wp p * (((- y (P PC CuI)) + im ic_ref) - y (P
      PC CiI))) (y (P PC CuI)) ((- wp p) + (((Kp_Q p * wp p) * re vc) / 4))
  | P PC CuI, P PC CuI => aw (m_sat p (u_of y PC) (x_of y PC)) (wp p * (((- y (P PC CuI)) + im ic_ref) - y (P
      PC CiI))) (y (P PC CuI)) (- wp p)
  | _, _ => 0
  end.
Definition jac3c := jac3c_at k9_code k10_code.
(** State list, DER_check_and_initialize.py:518-567 *)
Definition states3c : list var := abc_states PA ++ abc_states PB ++ abc_states PC ++ [XP; XQ; XPLL; WTE].
