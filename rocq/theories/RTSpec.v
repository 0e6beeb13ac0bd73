(** Specification vocabulary for ride-through: statements about the history of
    measured voltages only. *)
From Verif Require Import Base EventsModel VdcModel RTModel.

(** The evaluations that the ride-through logic acts on: later than every
    earlier evaluation (and than time 0) and later than [stable]. *)
Fixpoint processed {A} (lock stable : Q) (xs : list (Q * A)) : list (Q * A) :=
  match xs with
  | [] => []
  | (t, m) :: xs' =>
    if qlt lock t
    then (if qlt stable t then [(t, m)] else []) ++ processed t stable xs'
    else processed lock stable xs'
  end.

(** the voltage selected by Vrms_measurement_type *)
Definition volt (mt : mtype) (m : meas) : Q :=
  match mt with MMinimum => m_min m | MAverage => m_avg m | _ => m_filt m end.
Definition voltages (mt : mtype) (xs : list (Q * meas)) : list (Q * Q) :=
  map (fun x => (fst x, volt mt (snd x))) xs.

(** [history] contains two samples below [thr], more than [dur] apart, and the
    voltage is never above [thr] in between *)
Definition below_longer_than (thr dur : Q) (history : list (Q * Q)) : Prop :=
  exists pre t0 V0 mid t1 V1 post,
    history = pre ++ (t0, V0) :: mid ++ (t1, V1) :: post /\
    V0 < thr /\ (forall t V, In (t, V) mid -> V <= thr) /\ V1 < thr /\ dur < t1 - t0.
Definition above_longer_than (thr dur : Q) (history : list (Q * Q)) : Prop :=
  exists pre t0 V0 mid t1 V1 post,
    history = pre ++ (t0, V0) :: mid ++ (t1, V1) :: post /\
    thr < V0 /\ (forall t V, In (t, V) mid -> thr <= V) /\ thr < V1 /\ dur < t1 - t0.

(** the voltage went below [thr] at time [tau] and has not been above it since *)
Definition below_since (thr : Q) (history : list (Q * Q)) (tau : Q) : Prop :=
  exists pre V0 post, history = pre ++ (tau, V0) :: post /\
    V0 < thr /\ (forall t V, In (t, V) post -> V <= thr).
Definition above_since (thr : Q) (history : list (Q * Q)) (tau : Q) : Prop :=
  exists pre V0 post, history = pre ++ (tau, V0) :: post /\
    thr < V0 /\ (forall t V, In (t, V) post -> thr <= V).
(** [tau] is the first such time *)
Definition entered_below (thr : Q) (history : list (Q * Q)) (tau : Q) : Prop :=
  below_since thr history tau /\ forall tau', below_since thr history tau' -> tau <= tau'.
Definition entered_above (thr : Q) (history : list (Q * Q)) (tau : Q) : Prop :=
  above_since thr history tau /\ forall tau', above_since thr history tau' -> tau <= tau'.

(** a zone as configured: timer stopped, not breached *)
Definition fresh_zone (z : zone) : Prop := z_start z = 0 /\ z_breach z = false.

(** a DER right after initialisation *)
Definition initial (s : rt) : Prop :=
  exists vref ts mt dd rd rest lfen setp lv hv lf vve vwe v,
    s = rt_init vref ts mt dd rd rest lfen setp lv hv lf vve vwe v /\
    (forall z, In z lv -> fresh_zone z) /\ (forall z, In z hv -> fresh_zone z).

(** everything the logic remembers (not the references handed to the
    controllers) *)
Definition logic_state (s : rt) :=
  (r_lv s, r_hv s, r_lf s, (r_lvtrip s, r_hvtrip s, r_lftrip s), (r_lvmc s, r_hvmc s),
   (r_trip s, r_mc s, r_conn s), (r_rtlock s, r_connlock s), (r_tdis s, r_trec s), refs (r_vdc s)).
Definition settings (s : rt) :=
  (r_vref s, r_tstable s, r_mtype s, (r_disdelay s, r_recdelay s, r_restore s),
   (r_lven s, r_hven s, r_lfen s), r_delf s, r_setpoint s).
Definition flagged (s : rt) : bool := r_trip s || r_mc s.
