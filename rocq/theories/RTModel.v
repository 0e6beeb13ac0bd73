(** Model of the ride-through, trip and connection logic of
    /repo/pvder/DER_features.py (class PVDER_SmartFeatures).
    Printing/logging (print_VRT_events, print_reconnect_events, LogUtil) has no
    effect on the state and is left out. *)
From Verif Require Import Base EventsModel VdcModel.

(** Ride-through zone dictionaries, DER_features.py:313-314, templates.py:127-167.
    [z_mode]: 'mandatory_operation' / 'momentary_cessation' / any other string. *)
Inductive zmode := Mandatory | Cessation | OtherMode.
Definition is_cessation (m : zmode) : bool := match m with Cessation => true | _ => false end.
Record zone := Zone {
  z_V : Q;       (* V_threshold, fraction of Vrms_ref *)
  z_t : Q;       (* t_threshold *)
  z_tmin : Q;    (* t_min_ridethrough *)
  z_mode : zmode;
  z_start : Q;   (* t_start, 0.0 = timer not running *)
  z_breach : bool }.
Definition set_start (z : zone) x := Zone (z_V z) (z_t z) (z_tmin z) (z_mode z) x (z_breach z).
Definition set_breach (z : zone) := Zone (z_V z) (z_t z) (z_tmin z) (z_mode z) 0 true.

(** Low-frequency zones, templates.py:169-176. *)
Record fzone := FZone { f_F : Q; f_limit : Q; f_start : Q }.
Definition set_fstart (z : fzone) x := FZone (f_F z) (f_limit z) x.

(** Vrms_measurement_type, DER_features.py:413-428. *)
Inductive mtype := MMinimum | MAverage | MFiltered | MOtherType.

(** What the surrounding DER model has computed before the ride-through logic
    runs (three_phase.py:263-291): RMS voltages, PLL frequency we/(2 pi), DC
    link voltage. *)
Record meas := Meas { m_min : Q; m_avg : Q; m_filt : Q; m_f : Q; m_vdc : Q }.

(** Urms_min_calc, utility_functions.py:92-97, on the RMS values |u|/sqrt 2 of
    the three phases (division by the constant commutes with min). *)
Definition Urms_min_calc (a b c : Q) : Q := py_min (py_min a b) c.

Record rt := RT {
  (* settings *)
  r_vref : Q;            (* Vrms_ref *)
  r_tstable : Q;         (* t_stable *)
  r_mtype : mtype;
  r_disdelay : Q; r_recdelay : Q; r_restore : bool;   (* VRT_delays *)
  r_lven : bool; r_hven : bool; r_lfen : bool;        (* LVRT/HVRT/LFRT_ENABLE *)
  r_delf : Q;            (* del_f *)
  r_setpoint : Q;        (* set_Vdc_ref()*Vbase, volts *)
  (* flags, timers, zones *)
  r_lv : list zone; r_hv : list zone; r_lf : list fzone;
  r_lvtrip : bool; r_hvtrip : bool; r_lftrip : bool;
  r_lvmc : bool; r_hvmc : bool;
  r_trip : bool; r_mc : bool;        (* DER_TRIP, DER_MOMENTARY_CESSATION *)
  r_conn : bool;                     (* DER_CONNECTED *)
  r_rtlock : Q; r_connlock : Q;      (* RT_logic_t_lock, connect_logic_t_lock *)
  r_tdis : Q; r_trec : Q;            (* t_disconnect_start, t_reconnect_start *)
  (* outputs *)
  r_vve : bool; r_vwe : bool;        (* VOLT_VAR_ENABLE, VOLT_WATT_ENABLE *)
  r_qref : Q; r_ppv : Q;
  r_iref : Q * Q * (Q * Q) * (Q * Q);
  r_vdc : vdc                        (* Vdc_ref and its schedule *)
}.

(** field updates *)
Definition up_lv (s : rt) lv trip mc := RT (r_vref s) (r_tstable s) (r_mtype s) (r_disdelay s) (r_recdelay s) (r_restore s) (r_lven s) (r_hven s) (r_lfen s) (r_delf s) (r_setpoint s) lv (r_hv s) (r_lf s) trip (r_hvtrip s) (r_lftrip s) mc (r_hvmc s) (r_trip s) (r_mc s) (r_conn s) (r_rtlock s) (r_connlock s) (r_tdis s) (r_trec s) (r_vve s) (r_vwe s) (r_qref s) (r_ppv s) (r_iref s) (r_vdc s).
Definition up_hv (s : rt) hv trip mc := RT (r_vref s) (r_tstable s) (r_mtype s) (r_disdelay s) (r_recdelay s) (r_restore s) (r_lven s) (r_hven s) (r_lfen s) (r_delf s) (r_setpoint s) (r_lv s) hv (r_lf s) (r_lvtrip s) trip (r_lftrip s) (r_lvmc s) mc (r_trip s) (r_mc s) (r_conn s) (r_rtlock s) (r_connlock s) (r_tdis s) (r_trec s) (r_vve s) (r_vwe s) (r_qref s) (r_ppv s) (r_iref s) (r_vdc s).
Definition up_lf (s : rt) lf trip := RT (r_vref s) (r_tstable s) (r_mtype s) (r_disdelay s) (r_recdelay s) (r_restore s) (r_lven s) (r_hven s) (r_lfen s) (r_delf s) (r_setpoint s) (r_lv s) (r_hv s) lf (r_lvtrip s) (r_hvtrip s) trip (r_lvmc s) (r_hvmc s) (r_trip s) (r_mc s) (r_conn s) (r_rtlock s) (r_connlock s) (r_tdis s) (r_trec s) (r_vve s) (r_vwe s) (r_qref s) (r_ppv s) (r_iref s) (r_vdc s).
Definition up_flags (s : rt) trip mc := RT (r_vref s) (r_tstable s) (r_mtype s) (r_disdelay s) (r_recdelay s) (r_restore s) (r_lven s) (r_hven s) (r_lfen s) (r_delf s) (r_setpoint s) (r_lv s) (r_hv s) (r_lf s) (r_lvtrip s) (r_hvtrip s) (r_lftrip s) (r_lvmc s) (r_hvmc s) trip mc (r_conn s) (r_rtlock s) (r_connlock s) (r_tdis s) (r_trec s) (r_vve s) (r_vwe s) (r_qref s) (r_ppv s) (r_iref s) (r_vdc s).
Definition up_locks (s : rt) rl cl := RT (r_vref s) (r_tstable s) (r_mtype s) (r_disdelay s) (r_recdelay s) (r_restore s) (r_lven s) (r_hven s) (r_lfen s) (r_delf s) (r_setpoint s) (r_lv s) (r_hv s) (r_lf s) (r_lvtrip s) (r_hvtrip s) (r_lftrip s) (r_lvmc s) (r_hvmc s) (r_trip s) (r_mc s) (r_conn s) rl cl (r_tdis s) (r_trec s) (r_vve s) (r_vwe s) (r_qref s) (r_ppv s) (r_iref s) (r_vdc s).
Definition up_conn (s : rt) conn td tr v := RT (r_vref s) (r_tstable s) (r_mtype s) (r_disdelay s) (r_recdelay s) (r_restore s) (r_lven s) (r_hven s) (r_lfen s) (r_delf s) (r_setpoint s) (r_lv s) (r_hv s) (r_lf s) (r_lvtrip s) (r_hvtrip s) (r_lftrip s) (r_lvmc s) (r_hvmc s) (r_trip s) (r_mc s) conn (r_rtlock s) (r_connlock s) td tr (r_vve s) (r_vwe s) (r_qref s) (r_ppv s) (r_iref s) v.
Definition up_out (s : rt) vve vwe q p i v := RT (r_vref s) (r_tstable s) (r_mtype s) (r_disdelay s) (r_recdelay s) (r_restore s) (r_lven s) (r_hven s) (r_lfen s) (r_delf s) (r_setpoint s) (r_lv s) (r_hv s) (r_lf s) (r_lvtrip s) (r_hvtrip s) (r_lftrip s) (r_lvmc s) (r_hvmc s) (r_trip s) (r_mc s) (r_conn s) (r_rtlock s) (r_connlock s) (r_tdis s) (r_trec s) vve vwe q p i v.

(** get_Vrms_measured, DER_features.py:413-428. *)
Definition get_Vrms_measured (s : rt) (m : meas) : res Q :=
  match r_mtype s with
  | MMinimum => Ok (m_min m) | MAverage => Ok (m_avg m) | MFiltered => Ok (m_filt m)
  | MOtherType => Raise ValueError
  end.

(** Body of the loop of LVRT, DER_features.py:336-369, for one zone.
    Threads the zone together with LVRT_TRIP and LVRT_MOMENTARY_CESSATION.
    (The elif at 358 is always true where it is reached.) *)
Definition lv_zone (vref V t : Q) (z : zone) (trip mc : bool) : zone * bool * bool :=
  let thr := z_V z * vref in
  if (qlt V thr && negb (z_breach z))%bool then
    if qeq (z_start z) 0 then (set_start z t, trip, mc)
    else if qle (t - z_start z) (z_t z) then
      if (is_cessation (z_mode z) && negb mc)%bool then
        if qle (z_tmin z) (t - z_start z) then (z, trip, true) else (z, trip, mc)
      else (z, trip, mc)
    else if qle (z_t z) (t - z_start z) then (set_breach z, true, mc)
    else (z, trip, mc)
  else if qlt thr V then
    if qlt 0 (z_start z) then (set_start z 0, trip, false) else (z, trip, mc)
  else (z, trip, mc).

(** Body of the loop of HVRT, DER_features.py:377-409. *)
Definition hv_zone (vref V t : Q) (z : zone) (trip mc : bool) : zone * bool * bool :=
  let thr := z_V z * vref in
  if (qlt thr V && negb (z_breach z))%bool then
    if qeq (z_start z) 0 then (set_start z t, trip, mc)
    else if qle (t - z_start z) (z_t z) then
      if (is_cessation (z_mode z) && negb mc)%bool then
        if qle (z_tmin z) (t - z_start z) then (z, trip, true) else (z, trip, mc)
      else (z, trip, mc)
    else if qle (z_t z) (t - z_start z) then (set_breach z, true, mc)
    else (z, trip, mc)
  else if qlt V thr then
    if qlt 0 (z_start z) then (set_start z 0, trip, false) else (z, trip, mc)
  else (z, trip, mc).

(** for key,values in dict.items(): zones are visited in insertion order and
    mutated in place. *)
Fixpoint zones_loop (f : zone -> bool -> bool -> zone * bool * bool)
    (zs : list zone) (trip mc : bool) : list zone * bool * bool :=
  match zs with
  | [] => ([], trip, mc)
  | z :: zs' =>
    let '(z1, trip1, mc1) := f z trip mc in
    let '(zs1, trip2, mc2) := zones_loop f zs' trip1 mc1 in (z1 :: zs1, trip2, mc2)
  end.

(** LVRT, DER_features.py:330-371. *)
Definition LVRT (s : rt) (m : meas) (t : Q) : rt * res unit :=
  match get_Vrms_measured s m with
  | Raise e => (s, Raise e)
  | Ok V =>
    if qlt (r_tstable s) t then
      let '(zs, trip, mc) := zones_loop (lv_zone (r_vref s) V t) (r_lv s) (r_lvtrip s) (r_lvmc s) in
      (up_lv s zs trip mc, Ok tt)
    else (s, Ok tt)
  end.

(** HVRT, DER_features.py:372-411. *)
Definition HVRT (s : rt) (m : meas) (t : Q) : rt * res unit :=
  match get_Vrms_measured s m with
  | Raise e => (s, Raise e)
  | Ok V =>
    if qlt (r_tstable s) t then
      let '(zs, trip, mc) := zones_loop (hv_zone (r_vref s) V t) (r_hv s) (r_hvtrip s) (r_hvmc s) in
      (up_hv s zs trip mc, Ok tt)
    else (s, Ok tt)
  end.

(** DER_reconnect_logic, DER_features.py:253-284. *)
Definition DER_reconnect_logic (s : rt) (m : meas) (t : Q) : rt * res unit :=
  match get_Vrms_measured s m with
  | Raise e => (s, Raise e)
  | Ok _ =>
    if r_conn s then (s, Raise AssertionError)
    else if r_mc s then
      if qlt 0 (r_trec s) then (up_conn s false (r_tdis s) 0 (r_vdc s), Ok tt) else (s, Ok tt)
    else if qlt 0 t then
      if qlt 0 (r_trec s) then
        if qlt (r_recdelay s) (t - r_trec s) then
          if r_restore s then
            let '(v, r) := Vdc_ref_ramp (r_vdc s) t (r_setpoint s) in
            (up_conn s true (r_tdis s) 0 v, r)
          else (up_conn s true (r_tdis s) 0 (r_vdc s), Ok tt)
        else (s, Ok tt)
      else if qeq (r_trec s) 0 then (up_conn s false (r_tdis s) t (r_vdc s), Ok tt)
      else (s, Ok tt)
    else (s, Ok tt)
  end.

(** FRT, DER_features.py:699-741.  First loop (710-716): start timers. *)
Definition f_begin (f t : Q) (z : fzone) : fzone :=
  if (qeq (f_start z) 0 && qlt f (f_F z))%bool then set_fstart z t else z.
(** lines 720-723: reset timers *)
Definition f_reset (f delf : Q) (z : fzone) : fzone :=
  if (qlt (f_F z + delf) f && qlt 0 (f_start z))%bool then set_fstart z 0 else z.
(** lines 725-730: trip *)
Definition f_trips (f t : Q) (z : fzone) : bool :=
  (qle f (f_F z) && qle (f_limit z) (t - f_start z) && qlt 0 (f_start z))%bool.
Definition f_expire (f t : Q) (z : fzone) : fzone := if f_trips f t z then set_fstart z 0 else z.

Definition FRT (s : rt) (m : meas) (t : Q) : rt * res unit :=
  let f := m_f m in
  if qlt (r_tstable s) t then
    if negb (r_lftrip s) then
      let l1 := if existsb (fun z => qeq (f_start z) 0) (r_lf s) then map (f_begin f t) (r_lf s) else r_lf s in
      if existsb (fun z => qlt 0 (f_start z)) l1 then
        let l2 := map (f_reset f (r_delf s)) l1 in
        (up_lf s (map (f_expire f t) l2) (existsb (f_trips f t) l2), Ok tt)
      else (up_lf s l1 (r_lftrip s), Ok tt)
    else DER_reconnect_logic s m t
  else (up_lf s (map (fun z => set_fstart z 0) (r_lf s)) false, Ok tt).

(** update_ridethrough_flags, DER_features.py:164-187.  Note DER_TRIP does not
    include LFRT_TRIP (line 184). *)
Definition update_ridethrough_flags (s : rt) (m : meas) (t : Q) : rt * res unit :=
  if qlt (r_rtlock s) t then
    let s0 := up_locks s t (r_connlock s) in
    let '(s1, r1) := if r_lven s0 then LVRT s0 m t else (s0, Ok tt) in
    match r1 with
    | Raise e => (s1, Raise e)
    | Ok _ =>
      let '(s2, r2) := if r_hven s1 then HVRT s1 m t else (s1, Ok tt) in
      match r2 with
      | Raise e => (s2, Raise e)
      | Ok _ =>
        let '(s3, r3) := if r_lfen s2 then FRT s2 m t else (s2, Ok tt) in
        match r3 with
        | Raise e => (s3, Raise e)
        | Ok _ => (up_flags s3 (r_lvtrip s3 || r_hvtrip s3) (r_lvmc s3 || r_hvmc s3), Ok tt)
        end
      end
    end
  else (s, Ok tt).

(** DER_disconnect, DER_features.py:235-250. *)
Definition DER_disconnect (s : rt) (m : meas) : rt :=
  up_out s false false 0 0 ((0, 0), (0, 0), (0, 0)) (set_vcur (r_vdc s) (m_vdc m)).

(** DER_disconnect_logic, DER_features.py:211-232; line 228 evaluates
    get_Vrms_measured for the log text. *)
Definition DER_disconnect_logic (s : rt) (m : meas) (t : Q) : rt * res unit :=
  if negb (r_conn s) then (s, Raise AssertionError)
  else if qeq (r_tdis s) 0 then (up_conn s true t (r_trec s) (r_vdc s), Ok tt)
  else if qlt (t - r_tdis s) (r_disdelay s) then (s, Ok tt)
  else match get_Vrms_measured s m with
       | Raise e => (s, Raise e)
       | Ok _ => (up_conn s false 0 (r_trec s) (r_vdc s), Ok tt)
       end.

(** disconnect_or_reconnect, DER_features.py:190-208. *)
Definition disconnect_or_reconnect (s : rt) (m : meas) (t : Q) : rt * res unit :=
  let '(s1, r1) :=
    if qlt (r_connlock s) t then
      let s0 := up_locks s (r_rtlock s) t in
      if r_conn s0 then
        if (r_trip s0 || r_mc s0)%bool then DER_disconnect_logic s0 m t else (s0, Ok tt)
      else if negb (r_trip s0) then DER_reconnect_logic s0 m t else (s0, Ok tt)
    else (s, Ok tt) in
  match r1 with
  | Raise e => (s1, Raise e)
  | Ok _ => (if negb (r_conn s1) then DER_disconnect s1 m else s1, Ok tt)
  end.

(** The two calls made by every ODE_model / jac_ODE_model evaluation
    (e.g. three_phase.py:290-291, single_phase.py:258-259). *)
Definition rt_eval (s : rt) (x : Q * meas) : rt * res unit :=
  let '(t, m) := x in
  let '(s1, r1) := update_ridethrough_flags s m t in
  match r1 with
  | Raise e => (s1, Raise e)
  | Ok _ => disconnect_or_reconnect s1 m t
  end.

(** A sequence of evaluations; an exception ends the simulation, later
    evaluations then leave the state as it is. *)
Fixpoint rt_run (s : rt) (xs : list (Q * meas)) : rt * res unit :=
  match xs with
  | [] => (s, Ok tt)
  | x :: xs' => match rt_eval s x with
                | (s1, Ok _) => rt_run s1 xs'
                | (s1, Raise e) => (s1, Raise e)
                end
  end.

(** VRT_initialize (296-329) and FRT_initialize (659-678), class attributes
    (23-31): the state in which a DER starts. The zone lists come from the
    configuration; update_RT_config (578-586) supplies t_start = 0.0 and
    threshold_breach = False when the configuration omits them. *)
Definition rt_init (vref tstable : Q) (mt : mtype) (dd rd : Q) (restore : bool) (lf_en : bool)
   (setp : Q) (lv hv : list zone) (lf : list fzone) (vve vwe : bool) (v : vdc) : rt :=
  RT vref tstable mt dd rd restore true true lf_en (2#100) setp lv hv lf
     false false false false false false false true 0 0 0 0 vve vwe 0 0 ((0,0),(0,0),(0,0)) v.
