(** Model of /repo/pvder/DER_components_three_phase_no_Vrms_filter.py: the
    three-phase implementation without voltage filter, on the vectors the solver
    passes.  Inputs and simplifications as in ODEModel. *)
From Verif Require Import RBase PhasorModel PVModel ODEModel.
From Verif Require Nb.
(** update_inverter_states, lines 148-170; ODE_model unpacks y (lines 265-274):
    iaR + 1j*iaI, ... *)
Definition unpack (y : list R) : Nb.inv :=
  match y with
  | [iaR; iaI; xaR; xaI; uaR; uaI; ibR; ibI; xbR; xbI; ubR; ubI; icR; icI; xcR; xcI; ucR; ucI;
     Vdc; xDC; xQ; xPLL; wte] =>
      Nb.Inv (Cx iaR iaI) (Cx xaR xaI) (Cx uaR uaI) (Cx ibR ibI) (Cx xbR xbI) (Cx ubR ubI)
             (Cx icR icI) (Cx xcR xcI) (Cx ucR ucI) Vdc xDC xQ xPLL wte
  | _ => Nb.unpack []
  end.
(** the anti-windup blocks, e.g. lines 291-304 and 306-319 *)
Definition gate (lim : R) (z : cx) (d x : R) : R :=
  if rlt lim (cabs z) then (if req (np_sign d) (np_sign x) then 0 else d) else d.
(** ODE_model, lines 262-456 (unpacking a vector of another length raises
    ValueError; see [C97] for the lengths) *)
Definition ODE_model (p : prm) (e : env) (y : list R) : list R :=
  let s := unpack y in
  let m u x := cadd (cscale (Kp_GCC p) u) x in
  let vt u x := cmul (m u x) (RtoCx (Nb.Vdc s / 2)) in
  let vta := vt (Nb.ua s) (Nb.xa s) in let vtb := vt (Nb.ub s) (Nb.xb s) in let vtc := vt (Nb.uc s) (Nb.xc s) in
  let va := v_calc p e PA (Nb.ia s) in let vb := v_calc p e PB (Nb.ib s) in let vc := v_calc p e PC (Nb.ic s) in
  let power a b c := cscale (1 / 2) (cadd (cadd (cmul a (conj (Nb.ia s))) (cmul b (conj (Nb.ib s)))) (cmul c (conj (Nb.ic s)))) in
  let S_ := power vta vtb vtc in
  let S_PCC := power va vb vc in
  let iref Vr Qr := Cx (Nb.xDC s + Kp_DC p * (Vr - Nb.Vdc s)) (Nb.xQ s - Kp_Q p * (Qr - im S_PCC)) in
  let ia_ref0 := iref (e_Vdcref e) (e_Qref e) in
  let '(vat, vbt, vct) := phasor_to_time va vb vc (e_wgrid e) (e_t e) in
  let '(vd, _, _) := abc_to_dq0 vat vbt vct (Nb.wte s) in
  let we := Kp_PLL p * vd + Nb.xPLL s + 2 * PI * 60 in
  let Q_ref := if e_conn e then e_Qref e else 0 in
  let Vdc_ref := if e_conn e then e_Vdcref e else Nb.Vdc s in
  let Ppv := if e_conn e then ODEModel.Ppv_of p e (Nb.Vdc s) else 0 in
  let ia_ref := if e_conn e then ia_ref0 else Cx 0 0 in
  let ib_ref := if e_conn e then Ub_calc ia_ref0 else Cx 0 0 in
  let ic_ref := if e_conn e then Uc_calc ia_ref0 else Cx 0 0 in
  let diR i v w := (1 / Lf p) * (- Rf p * re i - re v + re w) + (we / wbase) * im i in
  let diI i v w := (1 / Lf p) * (- Rf p * im i - im v + im w) - (we / wbase) * re i in
  let dx u x du xx := gate (m_limit p) (m u x) (Ki_GCC p * du) xx in
  let du u x i r uu := gate (m_limit p) (m u x) (wp p * (- uu + r - i)) uu in
  [diR (Nb.ia s) va vta; diI (Nb.ia s) va vta;
   dx (Nb.ua s) (Nb.xa s) (re (Nb.ua s)) (re (Nb.xa s)); dx (Nb.ua s) (Nb.xa s) (im (Nb.ua s)) (im (Nb.xa s));
   du (Nb.ua s) (Nb.xa s) (re (Nb.ia s)) (re ia_ref) (re (Nb.ua s)); du (Nb.ua s) (Nb.xa s) (im (Nb.ia s)) (im ia_ref) (im (Nb.ua s));
   diR (Nb.ib s) vb vtb; diI (Nb.ib s) vb vtb;
   dx (Nb.ub s) (Nb.xb s) (re (Nb.ub s)) (re (Nb.xb s)); dx (Nb.ub s) (Nb.xb s) (im (Nb.ub s)) (im (Nb.xb s));
   du (Nb.ub s) (Nb.xb s) (re (Nb.ib s)) (re ib_ref) (re (Nb.ub s)); du (Nb.ub s) (Nb.xb s) (im (Nb.ib s)) (im ib_ref) (im (Nb.ub s));
   diR (Nb.ic s) vc vtc; diI (Nb.ic s) vc vtc;
   dx (Nb.uc s) (Nb.xc s) (re (Nb.uc s)) (re (Nb.xc s)); dx (Nb.uc s) (Nb.xc s) (im (Nb.uc s)) (im (Nb.xc s));
   du (Nb.uc s) (Nb.xc s) (re (Nb.ic s)) (re ic_ref) (re (Nb.uc s)); du (Nb.uc s) (Nb.xc s) (im (Nb.ic s)) (im ic_ref) (im (Nb.uc s));
   (Ppv - re S_) / (Nb.Vdc s * Cdc p);
   gate (iref_limit p) (iref Vdc_ref Q_ref) (Ki_DC p * (Vdc_ref - Nb.Vdc s)) (Nb.xDC s);
   gate (iref_limit p) (iref Vdc_ref Q_ref) (- Ki_Q p * (Q_ref - im S_PCC)) (Nb.xQ s);
   Ki_PLL p * vd;
   we].
