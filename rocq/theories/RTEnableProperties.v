(** Property C105: the ride-through enable flags, and C106: overfrequency. *)
From Verif Require Import Base EventsModel VdcModel RTModel RTSpec RTProofs RTProofs2 RTProofs3 RTProperties RTProperties2 RTProperties4.

(** The user assigns LVRT_ENABLE, HVRT_ENABLE and LFRT_ENABLE (plain attributes,
    set by VRT_initialize/FRT_initialize, DER_features.py:296-329, 659-678) at any
    time between evaluations. *)
Definition set_enable (s : rt) (lv hv lf : bool) : rt :=
  RT (r_vref s) (r_tstable s) (r_mtype s) (r_disdelay s) (r_recdelay s) (r_restore s) lv hv lf (r_delf s) (r_setpoint s)
     (r_lv s) (r_hv s) (r_lf s) (r_lvtrip s) (r_hvtrip s) (r_lftrip s) (r_lvmc s) (r_hvmc s) (r_trip s) (r_mc s) (r_conn s)
     (r_rtlock s) (r_connlock s) (r_tdis s) (r_trec s) (r_vve s) (r_vwe s) (r_qref s) (r_ppv s) (r_iref s) (r_vdc s).

(** low-voltage part and high-voltage part of the state *)
Definition lv_part (s : rt) := (r_lv s, r_lvtrip s, r_lvmc s).
Definition hv_part (s : rt) := (r_hv s, r_hvtrip s, r_hvmc s).
Definition enables (s : rt) := (r_lven s, r_hven s, r_lfen s).

Lemma reconnect_parts s m t : let s' := fst (DER_reconnect_logic s m t) in
  lv_part s' = lv_part s /\ hv_part s' = hv_part s /\ enables s' = enables s /\ r_lftrip s' = r_lftrip s.
Proof.
  destruct (reconnect_frame s m t) as (A & B & _ & C & _). cbv zeta.
  unfold rflags in B. unfold settings in A. unfold lv_part, hv_part, enables.
  injection B; intros. injection A; intros. repeat split; congruence.
Qed.
Lemma FRT_parts s m t : let s' := fst (FRT s m t) in
  lv_part s' = lv_part s /\ hv_part s' = hv_part s /\ enables s' = enables s.
Proof.
  destruct (FRT_frame s m t) as (A & B & _). cbv zeta.
  unfold rflags in B. unfold settings in A. unfold lv_part, hv_part, enables.
  injection B; intros. injection A; intros. repeat split; congruence.
Qed.
Lemma LVRT_parts s m t : let s' := fst (LVRT s m t) in
  hv_part s' = hv_part s /\ enables s' = enables s /\ r_conn s' = r_conn s /\ r_lftrip s' = r_lftrip s /\ outputs s' = outputs s.
Proof.
  unfold LVRT. destruct (get_Vrms_measured s m); [|repeat split]. destruct (qlt _ _); [|repeat split].
  destruct (zones_loop _ _ _ _) as [[za zb] zc]. repeat split.
Qed.
Lemma HVRT_parts s m t : let s' := fst (HVRT s m t) in
  lv_part s' = lv_part s /\ enables s' = enables s /\ r_conn s' = r_conn s /\ r_lftrip s' = r_lftrip s /\ outputs s' = outputs s.
Proof.
  unfold HVRT. destruct (get_Vrms_measured s m); [|repeat split]. destruct (qlt _ _); [|repeat split].
  destruct (zones_loop _ _ _ _) as [[za zb] zc]. repeat split.
Qed.

(** one evaluation leaves a disabled part alone *)
Lemma urf_disabled s m t s' r : update_ridethrough_flags s m t = (s', r) ->
  enables s' = enables s /\ (r_lven s = false -> lv_part s' = lv_part s) /\ (r_hven s = false -> hv_part s' = hv_part s) /\
  (r = Ok tt -> qlt (r_rtlock s) t = true -> r_trip s' = (r_lvtrip s' || r_hvtrip s')%bool /\ r_mc s' = (r_lvmc s' || r_hvmc s')%bool).
Proof.
  unfold update_ridethrough_flags. destruct (qlt (r_rtlock s) t); [|intros [= <- <-]; repeat split; discriminate].
  set (s0 := up_locks s t (r_connlock s)).
  assert (P0 : enables s0 = enables s /\ lv_part s0 = lv_part s /\ hv_part s0 = hv_part s /\ r_lven s0 = r_lven s /\ r_hven s0 = r_hven s) by (repeat split).
  clearbody s0. destruct P0 as (A0 & B0 & C0 & D0 & E0).
  destruct (if r_lven s0 then LVRT s0 m t else (s0, Ok tt)) as [s1 r1] eqn:E1.
  assert (P1 : enables s1 = enables s /\ (r_lven s = false -> lv_part s1 = lv_part s) /\ hv_part s1 = hv_part s).
  { destruct (r_lven s0) eqn:L.
    - destruct (LVRT_parts s0 m t) as (X & Y & _). rewrite E1 in X, Y. cbn [fst] in *. repeat split; congruence.
    - injection E1 as <- <-. auto. }
  clear E1. destruct P1 as (A1 & B1 & C1).
  assert (H1 : r_hven s1 = r_hven s) by (unfold enables in A1; congruence).
  destruct r1 as [[]|e]; [|intros [= <- <-]; repeat split; auto; discriminate].
  destruct (if r_hven s1 then HVRT s1 m t else (s1, Ok tt)) as [s2 r2] eqn:E2.
  assert (P2 : enables s2 = enables s /\ (r_lven s = false -> lv_part s2 = lv_part s) /\ (r_hven s = false -> hv_part s2 = hv_part s)).
  { destruct (r_hven s1) eqn:L.
    - destruct (HVRT_parts s1 m t) as (X & Y & _). rewrite E2 in X, Y. cbn [fst] in *. split; [congruence|]. split; [|congruence].
      intros K. rewrite X. auto.
    - injection E2 as <- <-. repeat split; auto. }
  clear E2. destruct P2 as (A2 & B2 & C2).
  destruct r2 as [[]|e]; [|intros [= <- <-]; repeat split; auto; discriminate].
  destruct (if r_lfen s2 then FRT s2 m t else (s2, Ok tt)) as [s3 r3] eqn:E3.
  assert (P3 : lv_part s3 = lv_part s2 /\ hv_part s3 = hv_part s2 /\ enables s3 = enables s2).
  { destruct (r_lfen s2); [|injection E3 as <- <-; auto]. pose proof (FRT_parts s2 m t) as F. rewrite E3 in F. exact F. }
  clear E3. destruct P3 as (A3 & B3 & C3).
  destruct r3 as [[]|e].
  - intros [= <- <-]. unfold enables, lv_part, hv_part in *. proj. repeat split; try congruence; intros K; [rewrite <- B2, A3 by auto; reflexivity|rewrite <- C2, B3 by auto; reflexivity].
  - intros [= <- <-]. repeat split; try discriminate; [congruence|..]; intros K; [rewrite A3; auto|rewrite B3; auto].
Qed.

Lemma eval_disabled s x s' r : rt_eval s x = (s', r) ->
  enables s' = enables s /\ (r_lven s = false -> lv_part s' = lv_part s) /\ (r_hven s = false -> hv_part s' = hv_part s).
Proof.
  destruct x as [t m]. unfold rt_eval. destruct (update_ridethrough_flags s m t) as [s1 r1] eqn:E1.
  apply urf_disabled in E1 as (A & B & C & _). destruct r1 as [[]|e]; [|intros [= <- <-]; auto].
  intros E2. destruct (dor_frame s1 m t) as (F1 & F2 & _). rewrite E2 in F1, F2. cbn [fst] in *.
  unfold rflags in F2. unfold settings in F1. unfold enables, lv_part, hv_part in *.
  injection F2; intros. injection F1; intros. repeat split; try congruence; intros K; [rewrite <- (B K)|rewrite <- (C K)]; congruence.
Qed.

(** ** C105 *)
(** While LVRT_ENABLE (HVRT_ENABLE) is off, no evaluation - whatever the voltage,
    time, other settings and earlier history, and whether or not it raises - sets
    or clears LVRT_TRIP or LVRT_MOMENTARY_CESSATION (their HVRT counterparts) or
    starts or stops one of its timers. *)
Theorem C105_disabled_side_is_inert :
  forall s x,
  (r_lven s = false -> r_lvtrip (fst (rt_eval s x)) = r_lvtrip s /\ r_lvmc (fst (rt_eval s x)) = r_lvmc s /\ r_lv (fst (rt_eval s x)) = r_lv s) /\
  (r_hven s = false -> r_hvtrip (fst (rt_eval s x)) = r_hvtrip s /\ r_hvmc (fst (rt_eval s x)) = r_hvmc s /\ r_hv (fst (rt_eval s x)) = r_hv s).
Proof.
  intros s x. destruct (rt_eval s x) as [s' r] eqn:E. apply eval_disabled in E as (_ & A & B). cbn [fst].
  split; intros H; [specialize (A H); unfold lv_part in A|specialize (B H); unfold hv_part in B]; repeat split; congruence.
Qed.
Print Assumptions C105_disabled_side_is_inert.

(** A DER on which all three are off from the start is never disconnected, and the
    ride-through logic never touches its references - for every sequence of
    voltages, frequencies and times. *)
Theorem C105_all_disabled :
  forall s0 xs, initial s0 ->
  exists s, rt_run (set_enable s0 false false false) xs = (s, Ok tt) /\
    r_conn s = true /\ r_trip s = false /\ r_mc s = false /\ outputs s = outputs s0.
Proof.
  intros s0 xs Hi. destruct (initial_facts _ Hi) as (F1 & F2 & F3 & F4 & F5 & F6 & F7 & F8 & F9 & F10 & F11 & F12 & F13).
  assert (G : forall xs s, enables s = (false, false, false) -> lv_part s = (r_lv s0, false, false) -> hv_part s = (r_hv s0, false, false) ->
     r_conn s = true -> r_trip s = false -> r_mc s = false -> outputs s = outputs s0 ->
     exists s', rt_run s xs = (s', Ok tt) /\ r_conn s' = true /\ r_trip s' = false /\ r_mc s' = false /\ outputs s' = outputs s0).
  { clear xs. induction xs as [|[t m] xs IH]; intros s He Hl Hh Hc Ht Hm Ho; [exists s; auto|].
    assert (E : exists s', rt_eval s (t, m) = (s', Ok tt) /\ r_conn s' = true /\ r_trip s' = false /\ r_mc s' = false /\ outputs s' = outputs s0).
    { unfold enables in He. injection He as H1 H2 H3. unfold lv_part in Hl. unfold hv_part in Hh.
      injection Hl as L1 L2 L3. injection Hh as K1 K2 K3.
      unfold rt_eval, update_ridethrough_flags.
      destruct (qlt (r_rtlock s) t).
      - proj. rewrite H1. cbv beta iota zeta. proj. rewrite H2. cbv beta iota zeta. proj. rewrite H3. cbv beta iota zeta. unfold disconnect_or_reconnect. proj. rewrite Hc, L2, L3, K2, K3. cbn [orb].
        destruct (qlt (r_connlock s) t); proj; rewrite Hc; cbn [negb]; eexists; (split; [reflexivity|]); unfold outputs in *; proj; auto.
      - unfold disconnect_or_reconnect. destruct (qlt (r_connlock s) t); proj; rewrite ?Hc, ?Ht, ?Hm; cbn [orb negb]; proj; rewrite ?Hc; cbn [negb];
        eexists; (split; [reflexivity|]); unfold outputs in *; proj; auto. }
    destruct E as (s1 & E & C1 & T1 & M1 & O1). cbn [rt_run]. rewrite E.
    destruct (eval_disabled s (t, m) s1 _ E) as (A & B & C).
    assert (X : r_lven s = false /\ r_hven s = false) by (unfold enables in He; split; congruence). destruct X as [X Y].
    apply IH; try congruence; [rewrite B by auto; exact Hl|rewrite C by auto; exact Hh]. }
  apply G; auto; unfold set_enable, enables, lv_part, hv_part, outputs; proj; try reflexivity; congruence.
Qed.
Print Assumptions C105_all_disabled.

(** With only LVRT_ENABLE off, no sequence of voltages below the high-voltage
    thresholds - however low and long - disconnects the DER; and symmetrically. *)
Lemma hv_quiet vref V t zs : (forall z, In z zs -> fresh_zone z /\ V <= z_V z * vref) ->
  zones_loop (hv_zone vref V t) zs false false = (zs, false, false).
Proof.
  induction zs as [|z zs IH]; intros H; [reflexivity|]. cbn [zones_loop].
  destruct (H z (or_introl eq_refl)) as [[F1 F2] L].
  assert (E : hv_zone vref V t z false false = (z, false, false)).
  { unfold hv_zone. assert (A : qlt (z_V z * vref) V = false) by (apply qlt_false; lra). rewrite A. cbn [andb].
    destruct (qlt V (z_V z * vref)); [|reflexivity]. assert (B : qlt 0 (z_start z) = false) by (apply qlt_false; rewrite F1; lra).
    now rewrite B. }
  rewrite E, IH by (intros; apply H; now right). reflexivity.
Qed.
Lemma lv_quiet vref V t zs : (forall z, In z zs -> fresh_zone z /\ z_V z * vref <= V) ->
  zones_loop (lv_zone vref V t) zs false false = (zs, false, false).
Proof.
  induction zs as [|z zs IH]; intros H; [reflexivity|]. cbn [zones_loop].
  destruct (H z (or_introl eq_refl)) as [[F1 F2] L].
  assert (E : lv_zone vref V t z false false = (z, false, false)).
  { unfold lv_zone. assert (A : qlt V (z_V z * vref) = false) by (apply qlt_false; lra). rewrite A. cbn [andb].
    destruct (qlt (z_V z * vref) V); [|reflexivity]. assert (B : qlt 0 (z_start z) = false) by (apply qlt_false; rewrite F1; lra).
    now rewrite B. }
  rewrite E, IH by (intros; apply H; now right). reflexivity.
Qed.

(** nothing flagged, connected, frequency ride-through off *)
Definition calm (s0 s : rt) : Prop :=
  settings s = settings s0 /\ lv_part s = (r_lv s0, false, false) /\ hv_part s = (r_hv s0, false, false) /\
  r_conn s = true /\ r_trip s = false /\ r_mc s = false /\ outputs s = outputs s0.
Lemma calm_locks s0 s a b : calm s0 s -> calm s0 (up_locks s a b).
Proof. intros H. exact H. Qed.
Lemma calm_flags s0 s : calm s0 s -> calm s0 (up_flags s false false).
Proof. intros (A & B & C & D & _ & _ & G). repeat split; auto. Qed.
Lemma dor_calm s0 s m t : calm s0 s -> exists s', disconnect_or_reconnect s m t = (s', Ok tt) /\ calm s0 s'.
Proof.
  intros H. pose proof H as (A & B & C & D & E & F & G). unfold disconnect_or_reconnect.
  destruct (qlt (r_connlock s) t); proj; rewrite ?D, ?E, ?F; cbn [orb]; proj; rewrite ?D; cbn [negb]; eexists; split; [reflexivity|exact H|reflexivity|exact H].
Qed.
Lemma eval_calm s0 s t m : calm s0 s -> r_lfen s0 = false -> r_mtype s0 <> MOtherType ->
  (r_lven s0 = true -> forall z, In z (r_lv s0) -> fresh_zone z /\ z_V z * r_vref s0 <= volt (r_mtype s0) m) ->
  (r_hven s0 = true -> forall z, In z (r_hv s0) -> fresh_zone z /\ volt (r_mtype s0) m <= z_V z * r_vref s0) ->
  exists s', rt_eval s (t, m) = (s', Ok tt) /\ calm s0 s'.
Proof.
  intros H Hlf Hm HL HH. unfold rt_eval, update_ridethrough_flags.
  destruct (qlt (r_rtlock s) t); [|now apply dor_calm].
  set (s1 := up_locks s t (r_connlock s)). assert (H1 : calm s0 s1) by exact H. clearbody s1. clear s H.
  assert (Hs : forall q, calm s0 q -> r_lven q = r_lven s0 /\ r_hven q = r_hven s0 /\ r_lfen q = false /\ r_vref q = r_vref s0 /\ r_mtype q = r_mtype s0).
  { intros q (A & _). apply settings_inj in A. decompose [and] A. repeat split; congruence. }
  assert (G : forall q, calm s0 q -> get_Vrms_measured q m = Ok (volt (r_mtype s0) m)).
  { intros q Hq. destruct (Hs q Hq) as (_ & _ & _ & _ & E). rewrite <- E. apply get_V_ok. congruence. }
  assert (P1 : exists s2, (if r_lven s1 then LVRT s1 m t else (s1, Ok tt)) = (s2, Ok tt) /\ calm s0 s2).
  { destruct (Hs s1 H1) as (E1 & _ & _ & E4 & _). destruct (r_lven s1) eqn:L; [|exists s1; auto].
    unfold LVRT. rewrite (G s1 H1). destruct (qlt _ _); [|exists s1; auto].
    pose proof H1 as (_ & B & _). unfold lv_part in B. injection B as B1 B2 B3. rewrite B1, B2, B3, E4, lv_quiet by (apply HL; congruence).
    eexists. split; [reflexivity|]. destruct H1 as (A & _ & C). repeat split; try apply C; auto. }
  destruct P1 as (s2 & -> & H2).
  assert (P2 : exists s3, (if r_hven s2 then HVRT s2 m t else (s2, Ok tt)) = (s3, Ok tt) /\ calm s0 s3).
  { destruct (Hs s2 H2) as (_ & E1 & _ & E4 & _). destruct (r_hven s2) eqn:L; [|exists s2; auto].
    unfold HVRT. rewrite (G s2 H2). destruct (qlt _ _); [|exists s2; auto].
    pose proof H2 as (_ & _ & B & _). unfold hv_part in B. injection B as B1 B2 B3. rewrite B1, B2, B3, E4, hv_quiet by (apply HH; congruence).
    eexists. split; [reflexivity|]. destruct H2 as (A & A' & _ & C). repeat split; try apply C; auto. }
  destruct P2 as (s3 & -> & H3).
  destruct (Hs s3 H3) as (_ & _ & E & _). rewrite E.
  pose proof H3 as (_ & B & C & _). unfold lv_part in B. unfold hv_part in C. injection B as _ B2 B3. injection C as _ C2 C3.
  rewrite B2, B3, C2, C3. cbn [orb]. apply dor_calm, calm_flags, H3.
Qed.
Lemma run_calm s0 xs : r_lfen s0 = false -> r_mtype s0 <> MOtherType ->
  (forall t m, In (t, m) xs ->
    (r_lven s0 = true -> forall z, In z (r_lv s0) -> fresh_zone z /\ z_V z * r_vref s0 <= volt (r_mtype s0) m) /\
    (r_hven s0 = true -> forall z, In z (r_hv s0) -> fresh_zone z /\ volt (r_mtype s0) m <= z_V z * r_vref s0)) ->
  forall s, calm s0 s -> exists s', rt_run s xs = (s', Ok tt) /\ calm s0 s'.
Proof.
  intros Hlf Hm. induction xs as [|[t m] xs IH]; intros H s Hs; [exists s; auto|].
  destruct (H t m (or_introl eq_refl)) as [A B].
  destruct (eval_calm s0 s t m Hs Hlf Hm A B) as (s1 & E & H1). cbn [rt_run]. rewrite E. apply IH; [|exact H1].
  intros t' m' Hin. exact (H t' m' (or_intror Hin)).
Qed.

Theorem C105_low_voltage_ignored :
  forall s0 xs, initial s0 -> r_mtype s0 <> MOtherType ->
  (forall t m z, In (t, m) xs -> In z (r_hv s0) -> volt (r_mtype s0) m <= z_V z * r_vref s0) ->
  exists s, rt_run (set_enable s0 false true false) xs = (s, Ok tt) /\
    r_conn s = true /\ r_trip s = false /\ r_mc s = false /\ outputs s = outputs s0.
Proof.
  intros s0 xs Hi Hm H. destruct (initial_facts _ Hi) as (F1 & F2 & F3 & F4 & F5 & F6 & F7 & F8 & F9 & F10 & F11 & F12 & F13 & F14).
  pose proof (run_calm (set_enable s0 false true false) xs eq_refl Hm) as R.
  match type of R with ?A -> _ => assert (HA : A) end.
  { intros t m Hin. split; [discriminate|]. intros _ z Hz. split; [exact (F14 z Hz)|exact (H t m z Hin Hz)]. }
  destruct (R HA (set_enable s0 false true false)) as (s & E & C).
  - unfold calm, lv_part, hv_part, set_enable; proj. rewrite F8, F9, F10, F11. auto 12.
  - exists s. split; [exact E|]. destruct C as (_ & _ & _ & C1 & C2 & C3 & C4). auto.
Qed.
Print Assumptions C105_low_voltage_ignored.
Theorem C105_high_voltage_ignored :
  forall s0 xs, initial s0 -> r_mtype s0 <> MOtherType ->
  (forall t m z, In (t, m) xs -> In z (r_lv s0) -> z_V z * r_vref s0 <= volt (r_mtype s0) m) ->
  exists s, rt_run (set_enable s0 true false false) xs = (s, Ok tt) /\
    r_conn s = true /\ r_trip s = false /\ r_mc s = false /\ outputs s = outputs s0.
Proof.
  intros s0 xs Hi Hm H. destruct (initial_facts _ Hi) as (F1 & F2 & F3 & F4 & F5 & F6 & F7 & F8 & F9 & F10 & F11 & F12 & F13 & F14).
  pose proof (run_calm (set_enable s0 true false false) xs eq_refl Hm) as R.
  match type of R with ?A -> _ => assert (HA : A) end.
  { intros t m Hin. split; [|discriminate]. intros _ z Hz. split; [exact (F13 z Hz)|exact (H t m z Hin Hz)]. }
  destruct (R HA (set_enable s0 true false false)) as (s & E & C).
  - unfold calm, lv_part, hv_part, set_enable; proj. rewrite F8, F9, F10, F11. auto 12.
  - exists s. split; [exact E|]. destruct C as (_ & _ & _ & C1 & C2 & C3 & C4). auto.
Qed.
Print Assumptions C105_high_voltage_ignored.

(** Switching LVRT off during momentary cessation does not end the cessation: the
    DER stays disconnected, whatever the voltage does. *)
Theorem C105_disabling_does_not_release :
  forall s xs s', r_conn s = false -> r_mc s = true -> r_lvmc s = true ->
  rt_run (set_enable s false (r_hven s) false) xs = (s', Ok tt) -> r_conn s' = false.
Proof.
  intros s xs s' Hc Hm Hl. set (q := set_enable s false (r_hven s) false).
  assert (P : r_conn q = false /\ r_mc q = true /\ r_lvmc q = true /\ r_lven q = false /\ r_lfen q = false) by (repeat split; assumption).
  clearbody q. revert q P. induction xs as [|[t m] xs IH]; intros q P H; [injection H as <-; tauto|].
  apply run_cons in H as (s1 & E & H). apply (IH s1); auto. destruct P as (P1 & P2 & P3 & P4 & P5).
  destruct (eval_disabled q (t, m) s1 _ E) as (A & B & _). specialize (B P4). unfold lv_part in B. unfold enables in A.
  assert (X : r_lvmc s1 = true /\ r_lven s1 = false /\ r_lfen s1 = false) by (repeat split; congruence). destruct X as (X1 & X2 & X3).
  apply eval_split in E as (s2 & E1 & E2).
  destruct (urf_conn q m t s2 _ P5 E1) as (C1 & _).
  assert (M : r_mc s2 = true).
  { pose proof (urf_disabled q m t s2 _ E1) as (_ & L & _ & D). destruct (qlt (r_rtlock q) t) eqn:K.
    - destruct (D eq_refl eq_refl) as [_ ->]. specialize (L P4). unfold lv_part in L.
      assert (Y : r_lvmc s2 = true) by congruence. now rewrite Y.
    - rewrite urf_unprocessed in E1 by auto. congruence. }
  destruct (dor_conn s2 m t s1 E2) as (D1 & _).
  destruct (dor_frame s2 m t) as (_ & _ & _ & _ & _ & F6 & _). rewrite E2 in F6. cbn [fst] in F6.
  split; [|split; [congruence|auto]].
  unfold cstep in D1. rewrite C1, P1, M in D1. destruct (qlt (r_connlock s2) t); [|congruence]. destruct (r_trip s2); congruence.
Qed.
Print Assumptions C105_disabling_does_not_release.

Example C105_hypotheses_met :
  let low := [(1, Meas 0 0 0 60 1); (10, Meas 0 0 0 60 1); (20, Meas 0 0 0 60 1)] in
  initial (tmpl false) /\
  (forall t m z, In (t, m) low -> In z (r_hv (tmpl false)) -> volt MMinimum m <= z_V z * r_vref (tmpl false)) /\
  r_conn (fst (rt_run (tmpl false) low)) = false /\
  r_conn (fst (rt_run (set_enable (tmpl false) false true false) low)) = true.
Proof.
  cbv zeta. split; [apply tmpl_initial|]. split; [|split; vm_compute; reflexivity].
  intros t m z Hin Hz. simpl in Hin, Hz. unfold volt. intuition (subst; match goal with H : _ = (_, _) |- _ => injection H as <- <- | H : (_, _) = (_, _) |- _ => injection H as <- <- end; vm_compute; discriminate).
Qed.
Example C105_release_hypotheses_met :
  let s := fst (rt_run (tmpl false) [smp (1#10) (4#10); smp (7#10) (4#10); smp (72#100) (4#10)]) in
  r_conn s = false /\ r_mc s = true /\ r_lvmc s = true /\
  snd (rt_run (set_enable s false (r_hven s) false) [smp 1 1; smp 100 1]) = Ok tt.
Proof. vm_compute. repeat split; reflexivity. Qed.

(** ** C106: overfrequency *)
(** HFRT_ENABLE, HFRT_TRIP and HFRT_dict are assigned (DER_features.py:667-676,
    690-696, 755-762) and read by no evaluation, so they are not part of [rt].
    The theorem: two histories that differ only in frequencies above every
    low-frequency threshold (plus its dead band) lead to the same state - a
    sustained overfrequency of any size is treated exactly as nominal
    frequency. *)
Definition same_but_high (s : rt) (x y : Q * meas) : Prop :=
  fst x = fst y /\ m_min (snd x) = m_min (snd y) /\ m_avg (snd x) = m_avg (snd y) /\ m_filt (snd x) = m_filt (snd y) /\
  m_vdc (snd x) = m_vdc (snd y) /\
  forall z, In z (r_lf s) -> f_F z < f_F z + r_delf s < m_f (snd x) /\ f_F z + r_delf s < m_f (snd y).

Lemma FRT_high s t a b c d f g :
  (forall z, In z (r_lf s) -> f_F z < f_F z + r_delf s < f /\ f_F z + r_delf s < g) ->
  FRT s (Meas a b c f d) t = FRT s (Meas a b c g d) t.
Proof.
  intros H. unfold FRT. cbn [m_f]. destruct (qlt (r_tstable s) t); [|reflexivity].
  destruct (negb (r_lftrip s)); [|reflexivity].
  assert (B : map (f_begin f t) (r_lf s) = r_lf s /\ map (f_begin g t) (r_lf s) = r_lf s).
  { split; rewrite <- (map_id (r_lf s)) at 2; apply map_ext_in; intros z Hz; destruct (H z Hz) as [[H0 H1] H2]; unfold f_begin.
    - assert (E : qlt f (f_F z) = false) by (apply qlt_false; lra). now rewrite E, andb_false_r.
    - assert (E : qlt g (f_F z) = false) by (apply qlt_false; lra). now rewrite E, andb_false_r. }
  destruct B as [-> ->].
  replace (if existsb (fun z => qeq (f_start z) 0) (r_lf s) then r_lf s else r_lf s) with (r_lf s) by (destruct (existsb _ _); reflexivity).
  destruct (existsb (fun z => qlt 0 (f_start z)) (r_lf s)); [|reflexivity].
  assert (R : map (f_reset f (r_delf s)) (r_lf s) = map (f_reset g (r_delf s)) (r_lf s)).
  { apply map_ext_in. intros z Hz. destruct (H z Hz) as [[H0 H1] H2]. unfold f_reset.
    assert (E1 : qlt (f_F z + r_delf s) f = true) by (apply qlt_iff; lra).
    assert (E2 : qlt (f_F z + r_delf s) g = true) by (apply qlt_iff; lra). now rewrite E1, E2. }
  rewrite R. set (l := map (f_reset g (r_delf s)) (r_lf s)).
  assert (T : forall z, In z l -> f_trips f t z = false /\ f_trips g t z = false).
  { intros z Hz. unfold l in Hz. apply in_map_iff in Hz as (z0 & <- & Hz). destruct (H z0 Hz) as [[H0 H1] H2].
    assert (F : f_F (f_reset g (r_delf s) z0) = f_F z0) by (unfold f_reset; destruct (_ && _)%bool; reflexivity).
    unfold f_trips. rewrite F. assert (E1 : qle f (f_F z0) = false) by (apply qle_false; lra).
    assert (E2 : qle g (f_F z0) = false) by (apply qle_false; lra). now rewrite E1, E2. }
  assert (X1 : map (f_expire f t) l = map (f_expire g t) l).
  { apply map_ext_in. intros z Hz. unfold f_expire. destruct (T z Hz) as [-> ->]. reflexivity. }
  assert (X2 : existsb (f_trips f t) l = existsb (f_trips g t) l).
  { clear - T. induction l as [|z l IH]; [reflexivity|]. cbn [existsb]. destruct (T z (or_introl eq_refl)) as [-> ->]. cbn [orb].
    apply IH. intros; apply T; now right. }
  now rewrite X1, X2.
Qed.

(** the parts of a sample other than the frequency decide everything else *)
Lemma eval_high s x y : same_but_high s x y -> rt_eval s x = rt_eval s y.
Proof.
  destruct x as [t [a b c f d]], y as [t' [a' b' c' g d']]. unfold same_but_high; cbn [fst snd m_min m_avg m_filt m_vdc m_f].
  intros (<- & <- & <- & <- & <- & H). unfold rt_eval.
  assert (E : update_ridethrough_flags s (Meas a b c f d) t = update_ridethrough_flags s (Meas a b c g d) t).
  { unfold update_ridethrough_flags. destruct (qlt (r_rtlock s) t); [|reflexivity].
    set (s0 := up_locks s t (r_connlock s)).
    assert (H0 : r_lf s0 = r_lf s /\ r_delf s0 = r_delf s) by (split; reflexivity). clearbody s0.
    change (LVRT s0 (Meas a b c g d) t) with (LVRT s0 (Meas a b c f d) t).
    destruct (if r_lven s0 then LVRT s0 (Meas a b c f d) t else (s0, Ok tt)) as [s1 r1] eqn:E1.
    assert (H1 : r_lf s1 = r_lf s /\ r_delf s1 = r_delf s).
    { destruct (r_lven s0); [|injection E1 as <- _; exact H0]. unfold LVRT in E1.
      destruct (get_Vrms_measured _ _); [|injection E1 as <- _; exact H0]. destruct (qlt _ _); [|injection E1 as <- _; exact H0].
      destruct (zones_loop _ _ _ _) as [[za zb] zc]. injection E1 as <- _. exact H0. }
    clear E1. destruct r1 as [u1|e]; [|reflexivity].
    change (HVRT s1 (Meas a b c g d) t) with (HVRT s1 (Meas a b c f d) t).
    destruct (if r_hven s1 then HVRT s1 (Meas a b c f d) t else (s1, Ok tt)) as [s2 r2] eqn:E2.
    assert (H2 : r_lf s2 = r_lf s /\ r_delf s2 = r_delf s).
    { destruct (r_hven s1); [|injection E2 as <- _; exact H1]. unfold HVRT in E2.
      destruct (get_Vrms_measured _ _); [|injection E2 as <- _; exact H1]. destruct (qlt _ _); [|injection E2 as <- _; exact H1].
      destruct (zones_loop _ _ _ _) as [[za zb] zc]. injection E2 as <- _. exact H1. }
    clear E2. destruct r2 as [u2|e]; [|reflexivity].
    rewrite (FRT_high s2 t a b c d f g); [reflexivity|].
    destruct H2 as [-> ->]. exact H. }
  rewrite E. reflexivity.
Qed.

(** thresholds and dead band are never changed *)
Definition lf_fixed (s : rt) := (map f_F (r_lf s), r_delf s).
Lemma FRT_fixed s m t : lf_fixed (fst (FRT s m t)) = lf_fixed s.
Proof.
  unfold lf_fixed. f_equal.
  2:{ destruct (FRT_frame s m t) as (A & _). apply settings_inj in A. tauto. }
  unfold FRT. destruct (qlt (r_tstable s) t).
  - destruct (r_lftrip s) eqn:L; cbn [negb].
    + destruct (reconnect_frame s m t) as (_ & _ & A & _). now rewrite A.
    + assert (B : forall g, (forall z, f_F (g z) = f_F z) -> forall l, map f_F (map g l) = map f_F l).
      { intros g Hg l. rewrite map_map. apply map_ext. exact Hg. }
      assert (B1 : forall z, f_F (f_begin (m_f m) t z) = f_F z) by (intros z; unfold f_begin; destruct (_ && _)%bool; reflexivity).
      assert (B2 : forall z, f_F (f_reset (m_f m) (r_delf s) z) = f_F z) by (intros z; unfold f_reset; destruct (_ && _)%bool; reflexivity).
      assert (B3 : forall z, f_F (f_expire (m_f m) t z) = f_F z) by (intros z; unfold f_expire; destruct (f_trips _ _ _); reflexivity).
      destruct (existsb (fun z => qeq (f_start z) 0) (r_lf s)).
      * destruct (existsb (fun z => qlt 0 (f_start z)) _); cbn [fst]; proj; rewrite ?(B _ B3), ?(B _ B2), ?(B _ B1); reflexivity.
      * destruct (existsb (fun z => qlt 0 (f_start z)) _); cbn [fst]; proj; rewrite ?(B _ B3), ?(B _ B2), ?(B _ B1); reflexivity.
  - cbn [fst]; proj. rewrite map_map. reflexivity.
Qed.
Lemma eval_fixed s x : lf_fixed (fst (rt_eval s x)) = lf_fixed s.
Proof.
  destruct x as [t m]. unfold rt_eval. destruct (update_ridethrough_flags s m t) as [s1 r1] eqn:E1.
  assert (F1 : lf_fixed s1 = lf_fixed s).
  { revert E1. unfold update_ridethrough_flags. destruct (qlt (r_rtlock s) t); [|intros [= <- _]; reflexivity].
    set (s0 := up_locks s t (r_connlock s)).
    assert (H0 : lf_fixed s0 = lf_fixed s) by reflexivity. clearbody s0.
    destruct (if r_lven s0 then LVRT s0 m t else (s0, Ok tt)) as [q1 p1] eqn:E1.
    assert (H1 : lf_fixed q1 = lf_fixed s).
    { destruct (r_lven s0); [|injection E1 as <- _; exact H0]. unfold LVRT in E1.
      destruct (get_Vrms_measured _ _); [|injection E1 as <- _; exact H0]. destruct (qlt _ _); [|injection E1 as <- _; exact H0].
      destruct (zones_loop _ _ _ _) as [[za zb] zc]. injection E1 as <- _. exact H0. }
    destruct p1 as [u1|e]; [|intros [= <- _]; exact H1].
    destruct (if r_hven q1 then HVRT q1 m t else (q1, Ok tt)) as [q2 p2] eqn:E2.
    assert (H2 : lf_fixed q2 = lf_fixed s).
    { destruct (r_hven q1); [|injection E2 as <- _; exact H1]. unfold HVRT in E2.
      destruct (get_Vrms_measured _ _); [|injection E2 as <- _; exact H1]. destruct (qlt _ _); [|injection E2 as <- _; exact H1].
      destruct (zones_loop _ _ _ _) as [[za zb] zc]. injection E2 as <- _. exact H1. }
    destruct p2 as [u2|e]; [|intros [= <- _]; exact H2].
    destruct (if r_lfen q2 then FRT q2 m t else (q2, Ok tt)) as [q3 p3] eqn:E3.
    assert (H3 : lf_fixed q3 = lf_fixed s).
    { destruct (r_lfen q2); [|injection E3 as <- _; exact H2]. pose proof (FRT_fixed q2 m t) as F. rewrite E3 in F. cbn [fst] in F. congruence. }
    destruct p3 as [u3|e]; intros [= <- _]; exact H3. }
  destruct r1 as [u|e]; [|exact F1].
  destruct (dor_frame s1 m t) as (A & _ & B & _). apply settings_inj in A. unfold lf_fixed in *.
  cbv zeta in B. rewrite B. rewrite <- F1. f_equal. tauto.
Qed.
Lemma high_fixed s s' x y : lf_fixed s' = lf_fixed s -> same_but_high s x y -> same_but_high s' x y.
Proof.
  unfold lf_fixed. intros F (A & B & C & D & E & H). injection F as F1 F2. repeat (split; [assumption|]).
  assert (K : forall q, In q (map f_F (r_lf s')) -> q < q + r_delf s' < m_f (snd x) /\ q + r_delf s' < m_f (snd y)).
  { rewrite F1, F2. intros q Hq. apply in_map_iff in Hq as (z & <- & Hz). now apply H. }
  intros z Hz. apply K, in_map, Hz.
Qed.

(** The property "a frequency that stays above the high-frequency threshold for
    longer than its clearing time trips the DER" is false: high frequencies are
    not looked at. *)
Theorem C106_overfrequency_refuted :
  forall s xs ys, Forall2 (same_but_high s) xs ys -> rt_run s xs = rt_run s ys.
Proof.
  intros s xs ys H.
  assert (G : forall q, lf_fixed q = lf_fixed s -> rt_run q xs = rt_run q ys).
  { induction H as [|x y xs ys Hx H IH]; intros q Hq; [reflexivity|]. cbn [rt_run].
    rewrite (eval_high q x y (high_fixed s q x y Hq Hx)).
    pose proof (eval_fixed q y) as F. destruct (rt_eval q y) as [q' [u|e]]; [|reflexivity].
    apply IH. cbn [fst] in F. congruence. }
  now apply G.
Qed.
Print Assumptions C106_overfrequency_refuted.

(** a long, far overfrequency: 70 Hz for 1000 s, frequency ride-through enabled *)
Definition hz (f t : Q) : Q * meas := (t, Meas (1#2) (1#2) (1#2) f 1).
Example C106_hypotheses_met :
  Forall2 (same_but_high (tmpl true)) [hz 60 1; hz 60 2; hz 60 1001] [hz 60 1; hz 70 2; hz 70 1001] /\
  snd (rt_run (tmpl true) [hz 60 1; hz 70 2; hz 70 1001]) = Ok tt /\
  r_conn (fst (rt_run (tmpl true) [hz 60 1; hz 70 2; hz 70 1001])) = true /\
  r_lftrip (fst (rt_run (tmpl true) [hz 60 1; hz 50 2; hz 50 1001])) = true.
Proof.
  split; [|vm_compute; repeat split; reflexivity].
  repeat constructor; cbn [fst snd hz m_min m_avg m_filt m_vdc m_f]; try reflexivity;
  intros; match goal with H : In _ _ |- _ => simpl in H; intuition (subst; vm_compute; reflexivity) end.
Qed.
