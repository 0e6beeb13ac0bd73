(** C98: ride-through acts on the voltage measurement that was selected. *)
From Verif Require Import Base EventsModel VdcModel RTModel RTSpec RTProofs RTProperties RTProperties2 MeasModel.

(** Specification: the selected quantity, from the voltages alone. *)
Definition selected (mt : mtype) (c : cls) (x : inputs) : Q :=
  match mt with
  | MAverage => n_rms x
  | MMinimum => match c with
                | SinglePhase | SinglePhaseConstantVdc | ThreePhaseBalanced => n_rms x
                | _ => py_min (py_min (n_a x) (n_b x)) (n_c x)
                end
  | _ => n_last x    (* the filtered RMS voltage *)
  end.
Definition selected_history (mt : mtype) (c : cls) (xs : list inputs) : list (Q * Q) :=
  map (fun x => (n_t x, selected mt c x)) xs.

Lemma observed_volt mt c vf xs : mt = MMinimum \/ mt = MAverage \/ (mt = MFiltered /\ c = ThreePhase) ->
  voltages mt (observed c vf xs) = selected_history mt c xs.
Proof.
  intros H. revert vf. induction xs as [|x xs IH]; intros vf; [reflexivity|].
  cbn [observed voltages map selected_history fst snd]. unfold voltages, selected_history in IH. rewrite IH.
  f_equal. f_equal. destruct H as [->|[->|[-> ->]]]; try destruct c; reflexivity.
Qed.
Lemma processed_map {A B} (f : A -> B) lock stable xs :
  processed lock stable (map (fun x => (fst x, f (snd x))) xs) = map (fun x => (fst x, f (snd x))) (processed lock stable xs).
Proof.
  revert lock. induction xs as [|[t m] xs IH]; intros lock; [reflexivity|].
  cbn [map fst snd processed]. destruct (qlt lock t); [|apply IH].
  rewrite IH, map_app. destruct (qlt stable t); reflexivity.
Qed.

(** With 'minimum' or 'average' on any class, and 'filtered' on the class that has
    the filter, the low-voltage trip is decided by the selected voltage. *)
Theorem C98_selected_voltage_decides_partial :
  forall c mt s0 vf xs s, initial s0 -> r_mtype s0 = mt ->
  mt = MMinimum \/ mt = MAverage \/ (mt = MFiltered /\ c = ThreePhase) ->
  rt_run s0 (observed c vf xs) = (s, Ok tt) ->
  (r_lvtrip s = true <->
   exists z, In z (r_lv s0) /\
     below_longer_than (z_V z * r_vref s0) (z_t z) (processed 0 (r_tstable s0) (selected_history mt c xs)))
  /\
  (r_hvtrip s = true <->
   exists z, In z (r_hv s0) /\
     above_longer_than (z_V z * r_vref s0) (z_t z) (processed 0 (r_tstable s0) (selected_history mt c xs))).
Proof.
  intros c mt s0 vf xs s Hi Hm Hc Hr.
  assert (E : voltages mt (processed 0 (r_tstable s0) (observed c vf xs))
              = processed 0 (r_tstable s0) (selected_history mt c xs)).
  { rewrite <- (observed_volt mt c vf xs Hc). unfold voltages. rewrite processed_map. reflexivity. }
  rewrite <- E, <- Hm. split.
  - apply C14_lvrt_trip_iff_history; assumption.
  - apply C15_hvrt_trip_iff_history; assumption.
Qed.
Print Assumptions C98_selected_voltage_decides_partial.

(** REFUTED for 'filtered' on every other class: the attribute keeps the voltage of
    the initial steady state, so that no voltage history at all has an effect. *)
Lemma observed_frozen c vf xs : c <> ThreePhase -> forall x, In x (observed c vf xs) -> m_filt (snd x) = vf.
Proof.
  intros Hc. induction xs as [|y xs IH]; intros x Hx; [contradiction|].
  assert (E : new_filter c (Some vf) y = Some vf) by (destruct c; reflexivity || congruence).
  cbn [observed] in Hx. rewrite E in Hx. destruct Hx as [<-|Hx]; [reflexivity|apply IH; exact Hx].
Qed.
Theorem C98_filtered_is_frozen_refuted :
  forall c s0 vf, c <> ThreePhase -> initial s0 -> r_lfen s0 = false -> r_mtype s0 = MFiltered ->
  (forall z, In z (r_lv s0) -> z_V z * r_vref s0 <= vf) -> (forall z, In z (r_hv s0) -> vf <= z_V z * r_vref s0) ->
  forall xs, exists s, rt_run s0 (observed c vf xs) = (s, Ok tt)
    /\ r_lvtrip s = false /\ r_hvtrip s = false /\ r_trip s = false /\ r_mc s = false /\ r_conn s = true.
Proof.
  intros c s0 vf Hc Hi Hlf Hm HL HH xs.
  destruct (C18_healthy_voltage s0 (observed c vf xs) Hi Hlf) as (s & E & A & B & C & D & F & _).
  - rewrite Hm; discriminate.
  - intros x z Hx Hz. rewrite Hm. cbn [volt]. rewrite (observed_frozen c vf xs Hc x Hx). auto.
  - intros x z Hx Hz. rewrite Hm. cbn [volt]. rewrite (observed_frozen c vf xs Hc x Hx). auto.
  - exists s. auto 10.
Qed.
Print Assumptions C98_filtered_is_frozen_refuted.

(** ... and without the steady-state initialisation the attribute does not exist. *)
Theorem C98_filtered_missing_refuted :
  forall c xs vmin vrms, c <> ThreePhase ->
  read_voltage MFiltered vmin vrms (fold_left (new_filter c) xs None) = Raise AttributeError.
Proof.
  intros c xs vmin vrms Hc.
  assert (E : fold_left (new_filter c) xs None = None).
  { induction xs as [|x xs IH]; [reflexivity|]. cbn [fold_left]. destruct c; try exact IH. congruence. }
  rewrite E. reflexivity.
Qed.
Print Assumptions C98_filtered_missing_refuted.

(** When the attribute exists the value read is the one the ride-through logic of the
    other properties uses, for every measurement type, including the rejection of an
    unknown one. *)
Theorem C98_reading_agrees :
  forall s m, read_voltage (r_mtype s) (m_min m) (m_avg m) (Some (m_filt m)) = get_Vrms_measured s m.
Proof. intros s m. unfold read_voltage, get_Vrms_measured. destruct (r_mtype s); reflexivity. Qed.
Print Assumptions C98_reading_agrees.

(** A collapse of the voltage to 20 % for 10 s: trips with 'minimum', is not noticed
    with 'filtered' on the class without filter, trips with the filter present. *)
Definition sag (t : Q) : inputs := Inputs t (1#10) (1#10) (1#10) (1#10) (1#10) 60 1.
Definition tmpl_m (mt : mtype) : rt :=
  rt_init (1#2) 0 mt (1#100) (7#4) false false 550 tmpl_lv tmpl_hv tmpl_lf true true vdc0.
Example C98_hypotheses_met :
  let xs := map sag [1#10; 1; 5; 10] in
  initial (tmpl_m MFiltered) /\
  (forall z, In z (r_lv (tmpl_m MFiltered)) -> z_V z * r_vref (tmpl_m MFiltered) <= 1#2) /\
  (forall z, In z (r_hv (tmpl_m MFiltered)) -> 1#2 <= z_V z * r_vref (tmpl_m MFiltered)) /\
  r_trip (fst (rt_run (tmpl_m MMinimum) (observed ThreePhaseNumba (1#2) xs))) = true /\
  r_trip (fst (rt_run (tmpl_m MFiltered) (observed ThreePhaseNumba (1#2) xs))) = false /\
  r_trip (fst (rt_run (tmpl_m MFiltered) (observed ThreePhase (1#2) xs))) = true /\
  snd (rt_run (tmpl_m MFiltered) (observed ThreePhase (1#2) xs)) = Ok tt.
Proof.
  split. { do 14 eexists. split; [reflexivity|]. unfold tmpl_lv, tmpl_hv, fresh_zone.
  split; intros z Hz; simpl in Hz; intuition (subst; split; reflexivity). }
  split. { intros z Hz; simpl in Hz; intuition subst; vm_compute; discriminate. }
  split. { intros z Hz; simpl in Hz; intuition subst; vm_compute; discriminate. }
  vm_compute. auto.
Qed.
