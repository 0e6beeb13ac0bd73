(** Model of the compiled three-phase implementation,
    /repo/pvder/DER_components_three_phase_numba.py with
    /repo/pvder/utility_functions_numba.py and /repo/pvder/constants.py, over exact reals.

    The code of these files does not call the implementation modelled in ODEModel:
    every function is transcribed here again, with the argument order of the file
    (the functions keep their Python names).  A state vector is the list of numbers
    the solver passes and [vec] is NumPy indexing.  Shared with ODEModel (because
    the code shares them: class PVDER_ModelUtilities) are only va_calc, vb_calc,
    vc_calc and Vdc_actual, and the inputs [prm], [env] with the simplifications
    stated there.  @numba.njit is taken to preserve the meaning of the decorated
    function (numba is not modelled). *)
From Verif Require Import RBase PhasorModel PVModel ODEModel.
From Verif Require NbUtil NbConst.
(** lines 75-78 *)
Definition Iph_calc (Tactual Sinsol : R) : R :=
  (NbConst.Iscr + NbConst.Kv * (Tactual - NbConst.T0)) * (Sinsol / 100).
(** lines 80-92; the exponential is taken not to overflow (see C49) *)
Definition Ppv_calc (Tactual Iph Vdc_actual Np Ns Sbase : R) : R :=
  let Ipv := Np * Iph - Np * NbConst.Irs *
     (exp ((NbConst.q * Vdc_actual) / (NbConst.k * Tactual * NbConst.A * Ns)) - 1) in
  Rmax 0 (Ipv * Vdc_actual) / Sbase.
(** lines 94-99, 101-106 *)
Definition diR_calc (i vt v : cx) (winv Rf Lf wbase : R) : R :=
  (1 / Lf) * (- Rf * re i - re v + re vt) + (winv / wbase) * im i.
Definition diI_calc (i vt v : cx) (winv Rf Lf wbase : R) : R :=
  (1 / Lf) * (- Rf * im i - im v + im vt) - (winv / wbase) * re i.
(** lines 108-113, 115-120 *)
Definition duR_calc (i u i_ref : cx) (wp : R) : R := wp * (- re u + re i_ref - re i).
Definition duI_calc (i u i_ref : cx) (wp : R) : R := wp * (- im u + im i_ref - im i).
(** lines 122-127, 129-134 *)
Definition dxR_calc (u : cx) (Ki_GCC : R) : R := Ki_GCC * re u.
Definition dxI_calc (u : cx) (Ki_GCC : R) : R := Ki_GCC * im u.
(** lines 136-141, 143-148, 150-155 *)
Definition dVdc_calc (Vdc Ppv : R) (S_ : cx) (C : R) : R := (Ppv - re S_) / (Vdc * C).
Definition dxDC_calc (Vdc Vdc_ref Ki_DC : R) : R := Ki_DC * (Vdc_ref - Vdc).
Definition dxQ_calc (S_ : cx) (Q_ref Ki_Q : R) : R := - Ki_Q * (Q_ref - im S_).
(** lines 157-162 *)
Definition m_abs_calc (u x : cx) (Kp_GCC : R) : R := cabs (cadd (cscale Kp_GCC u) x).
(** lines 165-183 *)
Definition du_calc (u x i i_ref : cx) (wp Kp_GCC m_limit : R) : R * R :=
  if rlt m_limit (m_abs_calc u x Kp_GCC) then
    let duR := if req (np_sign (duR_calc i u i_ref wp)) (np_sign (re u)) then 0 else duR_calc i u i_ref wp in
    let duI := if req (np_sign (duI_calc i u i_ref wp)) (np_sign (im u)) then 0 else duI_calc i u i_ref wp in
    (duR, duI)
  else (duR_calc i u i_ref wp, duI_calc i u i_ref wp).
(** lines 185-207 *)
Definition dx_logic (u x : cx) (Ki_GCC Kp_GCC m_limit : R) : R * R :=
  if rlt m_limit (m_abs_calc u x Kp_GCC) then
    let dxR := if req (np_sign (dxR_calc u Ki_GCC)) (np_sign (re x)) then 0 else dxR_calc u Ki_GCC in
    let dxI := if req (np_sign (dxI_calc u Ki_GCC)) (np_sign (im x)) then 0 else dxI_calc u Ki_GCC in
    (dxR, dxI)
  else (dxR_calc u Ki_GCC, dxI_calc u Ki_GCC).
(** lines 209-222 *)
Definition dxDC_logic (xDC xQ Vdc : R) (S_ : cx) (Vdc_ref Q_ref Ki_DC Kp_DC Kp_Q iref_limit : R) : R :=
  if rlt iref_limit (cabs (NbUtil.ia_ref_Vdc_Q_control_calc xDC xQ Vdc S_ Vdc_ref Q_ref Kp_DC Kp_Q)) then
    if req (np_sign (dxDC_calc Vdc Vdc_ref Ki_DC)) (np_sign xDC) then 0 else dxDC_calc Vdc Vdc_ref Ki_DC
  else dxDC_calc Vdc Vdc_ref Ki_DC.
(** lines 224-237 *)
Definition dxQ_logic (xDC xQ Vdc : R) (S_ : cx) (Vdc_ref Q_ref Ki_Q Kp_DC Kp_Q iref_limit : R) : R :=
  if rlt iref_limit (cabs (NbUtil.ia_ref_Vdc_Q_control_calc xDC xQ Vdc S_ Vdc_ref Q_ref Kp_DC Kp_Q)) then
    if req (np_sign (dxQ_calc S_ Q_ref Ki_Q)) (np_sign xQ) then 0 else dxQ_calc S_ Q_ref Ki_Q
  else dxQ_calc S_ Q_ref Ki_Q.
(** lines 239-245 *)
Definition dxPLL_calc (vd Ki_PLL : R) : R := Ki_PLL * vd.

(** lines 25-47: iaR_id = 0, ..., wte_id = 22 *)
Definition iaR_id := 0%nat.  Definition iaI_id := 1%nat.
Definition xaR_id := 2%nat.  Definition xaI_id := 3%nat.
Definition uaR_id := 4%nat.  Definition uaI_id := 5%nat.
Definition ibR_id := 6%nat.  Definition ibI_id := 7%nat.
Definition xbR_id := 8%nat.  Definition xbI_id := 9%nat.
Definition ubR_id := 10%nat. Definition ubI_id := 11%nat.
Definition icR_id := 12%nat. Definition icI_id := 13%nat.
Definition xcR_id := 14%nat. Definition xcI_id := 15%nat.
Definition ucR_id := 16%nat. Definition ucI_id := 17%nat.
Definition Vdc_id := 18%nat. Definition xDC_id := 19%nat. Definition xQ_id := 20%nat.
Definition xPLL_id := 21%nat. Definition wte_id := 22%nat.
Definition vec (y : list R) (n : nat) : R := nth n y 0.

(** The attributes left by update_inverter_states (lines 49-73). *)
Record inv := Inv { ia : cx; xa : cx; ua : cx; ib : cx; xb : cx; ub : cx; ic : cx; xc : cx; uc : cx;
                    Vdc : R; xDC : R; xQ : R; xPLL : R; wte : R }.
Definition j (x : R) : cx := cmul (Cx 0 1) (RtoCx x).
Definition update_inverter_states
  (iaR iaI xaR xaI uaR uaI ibR ibI xbR xbI ubR ubI icR icI xcR xcI ucR ucI Vdc xDC xQ xPLL wte : R) : inv :=
  Inv (cadd (RtoCx iaR) (j iaI)) (cadd (RtoCx xaR) (j xaI)) (cadd (RtoCx uaR) (j uaI))
      (cadd (RtoCx ibR) (j ibI)) (cadd (RtoCx xbR) (j xbI)) (cadd (RtoCx ubR) (j ubI))
      (cadd (RtoCx icR) (j icI)) (cadd (RtoCx xcR) (j xcI)) (cadd (RtoCx ucR) (j ucI))
      Vdc xDC xQ xPLL wte.
(** lines 426-434: the call of update_inverter_states in ODE_model *)
Definition unpack (y : list R) : inv :=
  update_inverter_states (vec y iaR_id) (vec y iaI_id) (vec y xaR_id) (vec y xaI_id) (vec y uaR_id) (vec y uaI_id)
    (vec y ibR_id) (vec y ibI_id) (vec y xbR_id) (vec y xbI_id) (vec y ubR_id) (vec y ubI_id)
    (vec y icR_id) (vec y icI_id) (vec y xcR_id) (vec y xcI_id) (vec y ucR_id) (vec y ucI_id)
    (vec y Vdc_id) (vec y xDC_id) (vec y xQ_id) (vec y xPLL_id) (vec y wte_id).
(** y0, lines 290-299 *)
Definition y0 (s : inv) : list R :=
  [re (ia s); im (ia s); re (xa s); im (xa s); re (ua s); im (ua s);
   re (ib s); im (ib s); re (xb s); im (xb s); re (ub s); im (ub s);
   re (ic s); im (ic s); re (xc s); im (xc s); re (uc s); im (uc s);
   Vdc s; xDC s; xQ s; xPLL s; wte s].

(** update_Ppv, lines 301-312: Iph is the value for the current insolation and
    temperature (the cached Iph is recomputed whenever one of them changes) *)
Definition Ppv_of (p : prm) (e : env) (Vdc : R) : R :=
  Ppv_calc (Tactual (e_mod e)) (Iph_calc (Tactual (e_mod e)) (Sinsol (e_mod e)))
           (Vdc_actual (Vdcmpp_max p) (Vdcbase p) Vdc) (Np (e_mod e)) (Ns (e_mod e)) Sbase.

(** ODE_model, lines 414-510, with update_voltages (314-334), update_power
    (355-383), update_iref (385-398), update_inverter_frequency (399-414) inlined in
    the order of the calls; the four let-bindings after [winv] are the attributes
    after disconnect_or_reconnect (DER_features.py:235-251). *)
Definition ODE_model (p : prm) (e : env) (y : list R) : list R :=
  let s := unpack y in
  let Ppv0 := Ppv_of p e (Vdc s) in
  let ma := NbUtil.m_calc (Kp_GCC p) (ua s) (xa s) in
  let mb := NbUtil.m_calc (Kp_GCC p) (ub s) (xb s) in
  let mc := NbUtil.m_calc (Kp_GCC p) (uc s) (xc s) in
  let vta := NbUtil.vt_calc ma (Vdc s) in
  let vtb := NbUtil.vt_calc mb (Vdc s) in
  let vtc := NbUtil.vt_calc mc (Vdc s) in
  let va := v_calc p e PA (ia s) in
  let vb := v_calc p e PB (ib s) in
  let vc := v_calc p e PC (ic s) in
  let S_ := NbUtil.S_calc vta vtb vtc (ia s) (ib s) (ic s) in
  let S_PCC := NbUtil.S_calc va vb vc (ia s) (ib s) (ic s) in
  let ia_ref0 := NbUtil.ia_ref_Vdc_Q_control_calc (xDC s) (xQ s) (Vdc s) S_PCC (e_Vdcref e) (e_Qref e) (Kp_DC p) (Kp_Q p) in
  let ib_ref0 := NbUtil.Ub_calc ia_ref0 in
  let ic_ref0 := NbUtil.Uc_calc ia_ref0 in
  let '(vat, vbt, vct) := NbUtil.phasor_to_time va vb vc (e_wgrid e) (e_t e) in
  let '(vd, vq, v0) := NbUtil.abc_to_dq0 vat vbt vct (wte s) in
  let we := NbUtil.we_calc (xPLL s) vd (Kp_PLL p) in
  let winv := we in
  let Q_ref := if e_conn e then e_Qref e else 0 in
  let Vdc_ref := if e_conn e then e_Vdcref e else Vdc s in
  let Ppv := if e_conn e then Ppv0 else 0 in
  let ia_ref := if e_conn e then ia_ref0 else Cx 0 0 in
  let ib_ref := if e_conn e then ib_ref0 else Cx 0 0 in
  let ic_ref := if e_conn e then ic_ref0 else Cx 0 0 in
  let diaR := diR_calc (ia s) vta va winv (Rf p) (Lf p) wbase in
  let diaI := diI_calc (ia s) vta va winv (Rf p) (Lf p) wbase in
  let '(dxaR, dxaI) := dx_logic (ua s) (xa s) (Ki_GCC p) (Kp_GCC p) (m_limit p) in
  let '(duaR, duaI) := du_calc (ua s) (xa s) (ia s) ia_ref (wp p) (Kp_GCC p) (m_limit p) in
  let dibR := diR_calc (ib s) vtb vb winv (Rf p) (Lf p) wbase in
  let dibI := diI_calc (ib s) vtb vb winv (Rf p) (Lf p) wbase in
  let '(dxbR, dxbI) := dx_logic (ub s) (xb s) (Ki_GCC p) (Kp_GCC p) (m_limit p) in
  let '(dubR, dubI) := du_calc (ub s) (xb s) (ib s) ib_ref (wp p) (Kp_GCC p) (m_limit p) in
  let dicR := diR_calc (ic s) vtc vc winv (Rf p) (Lf p) wbase in
  let dicI := diI_calc (ic s) vtc vc winv (Rf p) (Lf p) wbase in
  let '(dxcR, dxcI) := dx_logic (uc s) (xc s) (Ki_GCC p) (Kp_GCC p) (m_limit p) in
  let '(ducR, ducI) := du_calc (uc s) (xc s) (ic s) ic_ref (wp p) (Kp_GCC p) (m_limit p) in
  let dVdc := dVdc_calc (Vdc s) Ppv S_ (Cdc p) in
  let dxDC := dxDC_logic (xDC s) (xQ s) (Vdc s) S_PCC Vdc_ref Q_ref (Ki_DC p) (Kp_DC p) (Kp_Q p) (iref_limit p) in
  let dxQ := dxQ_logic (xDC s) (xQ s) (Vdc s) S_PCC Vdc_ref Q_ref (Ki_Q p) (Kp_DC p) (Kp_Q p) (iref_limit p) in
  let dxPLL := dxPLL_calc vd (Ki_PLL p) in
  let dwte := we in
  [diaR; diaI; dxaR; dxaI; duaR; duaI;
   dibR; dibI; dxbR; dxbI; dubR; dubI;
   dicR; dicI; dxcR; dxcI; ducR; ducI;
   dVdc; dxDC; dxQ; dxPLL; dwte].
