(** Model of the post-processing of a solution, collect_full_trajectory and the
    time_series_* methods of /repo/pvder/dynamic_simulation.py:372-645, 717-885, with the
    helpers of /repo/pvder/utility_functions.py:16-38, 41-47, 253-268; and of the
    frequency estimate of /repo/pvder/DER_utilities.py:236-284.

    The numpy expressions act on each stored time point separately, so a series is a
    function mapped over the stored points.  A stored point is the row of the solution
    (state [y]; which column is which state is C54) with the inputs of the model at that
    time ([env]: time, grid phasors and frequency, load, PV module, external voltages):
    that the events used in the post-processing are those of the simulation is the
    subject of C04-C06 and C58. *)
From Verif Require Import RBase PhasorModel PVModel ODEModel GridModel.
From Coq Require Import List.
Import ListNotations.
Import RBase.
Open Scope R_scope.

(** the model types (DER_model_type) with their own collect_states branch *)
Inductive kind := K1 | K3 | KB | KC.     (* single, three phase, balanced, constant Vdc *)
(** membership in templates.three_phase_models *)
Definition is3 (k : kind) : bool := match k with K3 | KB => true | _ => false end.

(** collect_states, 769-885: phases b and c of the balanced model are rotated copies;
    the DC voltage of the constant-Vdc model is the attribute DER_model.Vdc.
    collect_full_trajectory 723-737: i = iR + 1j*iI etc. *)
Definition ts_i (k : kind) (y : st) (f : phase) : cx := match k with KB => rot f (i_of y PA) | _ => i_of y f end.
Definition ts_u (k : kind) (y : st) (f : phase) : cx := match k with KB => rot f (u_of y PA) | _ => u_of y f end.
Definition ts_x (k : kind) (y : st) (f : phase) : cx := match k with KB => rot f (x_of y PA) | _ => x_of y f end.
Definition ts_Vdc (k : kind) (e : env) (y : st) : R := match k with KC => e_Vconst e | _ => y VDC end.

(** time_series_duty_cycle 389-412, m_time_series: Kp_GCC*u_t + x_t *)
Definition ts_m (p : prm) (k : kind) (y : st) (f : phase) : cx := cadd (cscale (Kp_GCC p) (ts_u k y f)) (ts_x k y f).
(** time_series_inv_terminal_voltage 445-454: m_t*(Vdc_t/2) *)
Definition ts_vt (p : prm) (k : kind) (e : env) (y : st) (f : phase) : cx := cscale (ts_Vdc k e y / 2) (ts_m p k y f).
(** time_series_PCC_LV_side_voltage 415-442 *)
Definition ts_v (p : prm) (k : kind) (e : env) (y : st) (f : phase) : cx :=
  match e_grid e with
  | Some g =>
    let vg := match f with PA => vag g | PB => vbg g | PC => vcg g end in
    let i := ts_i k y f in let a := a_tr p in
    cmul (cadd (cscale (1/a) (cadd vg (cmul (cscale (1/a) i) (Z2 g)))) (cmul i (Z1 p)))
         (cdiv (cscale a (cscale a (Zload1 g))) (cadd (cscale (a * a) (cadd (Z1 p) (Zload1 g))) (Z2 g)))
  | None => match f with PA => e_va e | PB => e_vb e | PC => e_vc e end
  end.
(** time_series_PCC_HV_side_voltage 372-386 *)
Definition ts_vHV (p : prm) (k : kind) (e : env) (g : grid) (y : st) (f : phase) : cx :=
  let vg := match f with PA => vag g | PB => vbg g | PC => vcg g end in
  if (match f with PA => true | _ => is3 k end)
  then csub (cadd vg (cmul (cscale (1 / a_tr p) (ts_i k y f)) (Z2 g)))
            (cmul (cscale (1 / a_tr p) (ts_v p k e y f)) (cdiv (Z2 g) (Zload1 g)))
  else vg.
(** time_series_S 592-614: S_t and S_PCC_t *)
Definition ts_S (p : prm) (k : kind) (e : env) (y : st) : cx :=
  if is3 k then S_t_three (ts_vt p k e y PA) (ts_vt p k e y PB) (ts_vt p k e y PC) (ts_i k y PA) (ts_i k y PB) (ts_i k y PC)
  else cscale (1/2) (cmul (ts_vt p k e y PA) (conj (ts_i k y PA))).
Definition ts_S_PCC (p : prm) (k : kind) (e : env) (y : st) : cx :=
  if is3 k then S_t_three (ts_v p k e y PA) (ts_v p k e y PB) (ts_v p k e y PC) (ts_i k y PA) (ts_i k y PB) (ts_i k y PC)
  else cscale (1/2) (cmul (ts_v p k e y PA) (conj (ts_i k y PA))).
(** Urms_time_series and Uphrms_time_series, utility_functions.py:16-30; np.square *)
Definition Urms_series (a b c : cx) : R := sqrt ((Rsqr (cabs a) + Rsqr (cabs b) + Rsqr (cabs c)) / 3) / sqrt 2.
Definition Uph_series (a : cx) : R := cabs a / sqrt 2.
(** time_series_RMS 457-478 *)
Definition ts_Vtrms p k e y := if is3 k then Urms_series (ts_vt p k e y PA) (ts_vt p k e y PB) (ts_vt p k e y PC)
                               else Urms_series (ts_vt p k e y PA) (ts_vt p k e y PA) (ts_vt p k e y PA).
Definition ts_Vrms p k e y := if is3 k then Urms_series (ts_v p k e y PA) (ts_v p k e y PB) (ts_v p k e y PC)
                              else Urms_series (ts_v p k e y PA) (ts_v p k e y PA) (ts_v p k e y PA).
Definition ts_Irms k y := if is3 k then Urms_series (ts_i k y PA) (ts_i k y PB) (ts_i k y PC)
                          else Urms_series (ts_i k y PA) (ts_i k y PA) (ts_i k y PA).
Definition ts_Varms p k e y := if is3 k then Uph_series (ts_v p k e y PA) else ts_Vrms p k e y.
(** three-phase types only *)
Definition ts_Vbrms p k e y := Uph_series (ts_v p k e y PB).
Definition ts_Vcrms p k e y := Uph_series (ts_v p k e y PC).
Definition ts_Vgrms (g : grid) : R := Urms_series (vag g) (vbg g) (vcg g).
Definition ts_Vhvrms p k e g y : R := Urms_series (ts_vHV p k e g y PA) (ts_vHV p k e g y PB) (ts_vHV p k e g y PC).
(** time_series_Ppv 575-590: Ppv_calc(Vdc_actual) whatever the connection status *)
Definition ts_Ppv (p : prm) (k : kind) (e : env) (y : st) : R :=
  Ppv_val (e_mod e) (Vdc_actual (Vdcmpp_max p) (Vdcbase p) (ts_Vdc k e y)).
(** time_series_PLL 517-551: vd and we *)
Definition ts_vd (p : prm) (k : kind) (e : env) (y : st) : R :=
  if is3 k then vd_three_phase (ts_v p k e y PA) (ts_v p k e y PB) (ts_v p k e y PC) (e_wgrid e) (e_t e) (y WTE)
  else vd_single_phase (ts_v p k e y PA) (e_wgrid e) (e_t e) (y WTE).
Definition ts_we (p : prm) (k : kind) (e : env) (y : st) : R := we_calc (Kp_PLL p) (ts_vd p k e y) (y XPLL).
(** time_series_power_transfer 641-645; np.angle *)
Definition ts_Ptransfer (p : prm) (k : kind) (e : env) (g : grid) (y : st) : R :=
  ts_Vhvrms p k e g y * ts_Vgrms g * sin (cphase (ts_vHV p k e g y PA) - cphase (vag g)) / cabs (Z2 g).

(** a series over the stored points *)
Definition series {A} (f : env -> st -> A) (pts : list (env * st)) : list A := map (fun q => f (fst q) (snd q)) pts.

(** * Frequency estimate *)
(** attributes _westimate, _va_previous (or _vag_previous), _t_estimate_frequency_previous
    and wgrid_measured; _del_t_frequency_estimate = DEFAULT_DELTA_T (defaults.py:34) *)
Record fest := Fest { f_west : R; f_vprev : cx; f_tprev : R; f_meas : R }.
Definition del_t_est : R := 1 / 1000.
(** wgrid_estimate_calc, DER_utilities.py:274-284 *)
Definition wgrid_estimate_calc (s : fest) (phi_new phi_prev : R) : R :=
  let del_f := (phi_new - phi_prev) / (2 * PI * del_t_est) in
  2 * PI * (f_meas s / (2 * PI) + del_f).
(** wgrid_estimate 250-271, then update_inverter_frequency stores the result in
    wgrid_measured (e.g. three_phase.py:251) *)
Definition wgrid_step (s : fest) (t : R) (v : cx) : fest :=
  let s1 := if rlt (f_tprev s) t
            then if rlt 0 (Rabs (cphase (f_vprev s) - cphase v))
                 then Fest (wgrid_estimate_calc s (cphase v) (cphase (f_vprev s))) v t (f_meas s)
                 else s
            else s in
  Fest (f_west s1) (f_vprev s1) (f_tprev s1) (f_west s1).
Definition wgrid_run (s : fest) (l : list (R * cx)) : fest := fold_left (fun s q => wgrid_step s (fst q) (snd q)) l s.
(** class attributes 52-53, initialize_DER 234-235 and the first measurement at t = 0 *)
Definition wgrid_init (v : cx) : fest := Fest (2 * PI * 60) v 0 (2 * PI * 60).
