(** C114: enabling frequency ride-through does not change the voltage
    ride-through and connection behaviour as long as the frequency logic has not
    tripped; the voltage theorems C18, C22 and C24 carry over. *)
From Coq Require Import QArith Qround List Bool Lia Lqa.
From Verif Require Import Base VdcModel RTModel RTSpec RTProofs RTProofs2 RTProofs3 RTProperties RTProperties2 RTProperties3 RTProperties4.
Import ListNotations.
Open Scope Q_scope.

(** the same DER with frequency ride-through switched off and no frequency zones *)
Definition without_lfrt (s : rt) : rt := RT (r_vref s) (r_tstable s) (r_mtype s) (r_disdelay s) (r_recdelay s) (r_restore s) (r_lven s) (r_hven s) false (r_delf s) (r_setpoint s) (r_lv s) (r_hv s) [] (r_lvtrip s) (r_hvtrip s) false (r_lvmc s) (r_hvmc s) (r_trip s) (r_mc s) (r_conn s) (r_rtlock s) (r_connlock s) (r_tdis s) (r_trec s) (r_vve s) (r_vwe s) (r_qref s) (r_ppv s) (r_iref s) (r_vdc s).

Local Notation W := without_lfrt.

Lemma strip_dor x m t : disconnect_or_reconnect (W x) m t =
      (W (fst (disconnect_or_reconnect x m t)), snd (disconnect_or_reconnect x m t)).
Proof.
  unfold disconnect_or_reconnect. change (r_connlock (W x)) with (r_connlock x).
  destruct (qlt (r_connlock x) t).
  - change (up_locks (W x) (r_rtlock (W x)) t) with (W (up_locks x (r_rtlock x) t)).
    set (y := up_locks x (r_rtlock x) t). clearbody y.
    change (r_conn (W y)) with (r_conn y). change (r_trip (W y)) with (r_trip y). change (r_mc (W y)) with (r_mc y).
    assert (DL : DER_disconnect_logic (W y) m t = (W (fst (DER_disconnect_logic y m t)), snd (DER_disconnect_logic y m t))).
    { unfold DER_disconnect_logic. change (r_conn (W y)) with (r_conn y). change (r_tdis (W y)) with (r_tdis y).
      change (r_disdelay (W y)) with (r_disdelay y). change (get_Vrms_measured (W y) m) with (get_Vrms_measured y m).
      destruct (negb (r_conn y)); [reflexivity|]. destruct (qeq _ _); [reflexivity|]. destruct (qlt _ _); [reflexivity|].
      destruct (get_Vrms_measured y m); reflexivity. }
    assert (RL : DER_reconnect_logic (W y) m t = (W (fst (DER_reconnect_logic y m t)), snd (DER_reconnect_logic y m t))).
    { unfold DER_reconnect_logic. change (get_Vrms_measured (W y) m) with (get_Vrms_measured y m).
      change (r_conn (W y)) with (r_conn y). change (r_mc (W y)) with (r_mc y). change (r_trec (W y)) with (r_trec y).
      change (r_recdelay (W y)) with (r_recdelay y). change (r_restore (W y)) with (r_restore y).
      change (r_vdc (W y)) with (r_vdc y). change (r_setpoint (W y)) with (r_setpoint y).
      destruct (get_Vrms_measured y m); [|reflexivity]. destruct (r_conn y); [reflexivity|].
      destruct (r_mc y); [destruct (qlt _ _); reflexivity|]. destruct (qlt 0 t); [|reflexivity].
      destruct (qlt 0 (r_trec y)).
      - destruct (qlt _ _); [|reflexivity]. destruct (r_restore y); [destruct (Vdc_ref_ramp _ _ _)|]; reflexivity.
      - destruct (qeq _ _); reflexivity. }
    destruct (r_conn y).
    + destruct (_ || _)%bool.
      * rewrite DL. destruct (DER_disconnect_logic y m t) as [a b]. cbn [fst snd]. destruct b; [|reflexivity].
        change (r_conn (W a)) with (r_conn a). destruct (negb (r_conn a)); reflexivity.
      * change (r_conn (W y)) with (r_conn y). destruct (negb (r_conn y)); reflexivity.
    + destruct (negb (r_trip y)).
      * rewrite RL. destruct (DER_reconnect_logic y m t) as [a b]. cbn [fst snd]. destruct b; [|reflexivity].
        change (r_conn (W a)) with (r_conn a). destruct (negb (r_conn a)); reflexivity.
      * change (r_conn (W y)) with (r_conn y). destruct (negb (r_conn y)); reflexivity.
  - change (r_conn (W x)) with (r_conn x). destruct (negb (r_conn x)); reflexivity.
Qed.

Lemma strip_eval s t m : r_lftrip s = false ->
  rt_eval (W s) (t, m) = (W (fst (rt_eval s (t, m))), snd (rt_eval s (t, m))).
Proof.
  intros Hl. unfold rt_eval, update_ridethrough_flags.
  change (r_rtlock (W s)) with (r_rtlock s).
  destruct (qlt (r_rtlock s) t); [|apply strip_dor].
  change (up_locks (W s) t (r_connlock (W s))) with (W (up_locks s t (r_connlock s))).
  set (y := up_locks s t (r_connlock s)). assert (Hy : r_lftrip y = false) by exact Hl. clearbody y.
  change (r_lven (W y)) with (r_lven y).
  assert (LE : exists a b, (if r_lven y then LVRT y m t else (y, Ok tt)) = (a, b) /\
     (if r_lven y then LVRT (W y) m t else (W y, Ok tt)) = (W a, b) /\ r_lftrip a = false).
  { destruct (r_lven y); [|exists y, (Ok tt); auto].
    unfold LVRT. change (get_Vrms_measured (W y) m) with (get_Vrms_measured y m).
    change (r_tstable (W y)) with (r_tstable y). change (r_vref (W y)) with (r_vref y).
    change (r_lv (W y)) with (r_lv y). change (r_lvtrip (W y)) with (r_lvtrip y). change (r_lvmc (W y)) with (r_lvmc y).
    destruct (get_Vrms_measured y m); [|eauto]. destruct (qlt _ _); [|eauto].
    destruct (zones_loop _ _ _ _) as [[za zb] zc]. do 2 eexists. repeat split. exact Hy. }
  destruct LE as (a & b & E1 & E2 & Ha). rewrite E1, E2. destruct b as [[]|]; [|reflexivity].
  change (r_hven (W a)) with (r_hven a).
  assert (HE : exists c d, (if r_hven a then HVRT a m t else (a, Ok tt)) = (c, d) /\
     (if r_hven a then HVRT (W a) m t else (W a, Ok tt)) = (W c, d) /\ r_lftrip c = false).
  { destruct (r_hven a); [|exists a, (Ok tt); auto].
    unfold HVRT. change (get_Vrms_measured (W a) m) with (get_Vrms_measured a m).
    change (r_tstable (W a)) with (r_tstable a). change (r_vref (W a)) with (r_vref a).
    change (r_hv (W a)) with (r_hv a). change (r_hvtrip (W a)) with (r_hvtrip a). change (r_hvmc (W a)) with (r_hvmc a).
    destruct (get_Vrms_measured a m); [|eauto]. destruct (qlt _ _); [|eauto].
    destruct (zones_loop _ _ _ _) as [[za zb] zc]. do 2 eexists. repeat split. exact Ha. }
  destruct HE as (c & d & F1 & F2 & Hc). rewrite F1, F2. destruct d as [[]|]; [|reflexivity].
  change (r_lfen (W c)) with false. cbv iota.
  assert (FE : exists e, (if r_lfen c then FRT c m t else (c, Ok tt)) = (e, Ok tt) /\ W e = W c).
  { destruct (r_lfen c); [|eauto]. unfold FRT. rewrite Hc. cbn [negb].
    destruct (qlt (r_tstable c) t); [|eexists; split; reflexivity].
    match goal with |- context [if existsb (fun z => qlt 0 (f_start z)) ?l then _ else _] =>
      destruct (existsb (fun z => qlt 0 (f_start z)) l) end; eexists; split; reflexivity. }
  destruct FE as (e & G1 & G2). rewrite G1. rewrite <- G2.
  change (up_flags (W e) (r_lvtrip (W e) || r_hvtrip (W e)) (r_lvmc (W e) || r_hvmc (W e)))
    with (W (up_flags e (r_lvtrip e || r_hvtrip e) (r_lvmc e || r_hvmc e))).
  apply strip_dor.
Qed.

(** the frequency logic has not tripped before any evaluation of the run *)
Definition lfrt_quiet (s0 : rt) (xs : list (Q * meas)) : Prop :=
  forall a x b, xs = a ++ x :: b -> r_lftrip (state_after s0 a) = false.

Lemma quiet_split s0 a b : lfrt_quiet s0 (a ++ b) -> lfrt_quiet s0 a.
Proof. intros H p x q ->. apply (H p x (q ++ b)). rewrite <- app_assoc. reflexivity. Qed.

(** * C114 *)
Theorem C114_lfrt_transparent :
  forall s0 xs, lfrt_quiet s0 xs ->
  rt_run (without_lfrt s0) xs = (without_lfrt (state_after s0 xs), snd (rt_run s0 xs)).
Proof.
  intros s0 xs. revert s0. induction xs as [|[t m] xs IH]; intros s0 H; [reflexivity|].
  cbn [rt_run]. rewrite strip_eval by (apply (H [] (t, m) xs); reflexivity).
  unfold state_after. cbn [rt_run]. destruct (rt_eval s0 (t, m)) as [s1 r1] eqn:E. cbn [fst snd].
  destruct r1 as [[]|]; [|reflexivity].
  apply IH. intros a x b ->. specialize (H ((t, m) :: a) x b eq_refl). unfold state_after in *. cbn [rt_run] in H. rewrite E in H. exact H.
Qed.
Print Assumptions C114_lfrt_transparent.

Lemma initial_without s0 : initial s0 -> initial (without_lfrt s0).
Proof.
  intros (vref & ts & mt & dd & rd & rest & lfen & setp & lv & hv & lf & vve & vwe & v & -> & Hl & Hh).
  exists vref, ts, mt, dd, rd, rest, false, setp, lv, hv, [], vve, vwe, v. split; [reflexivity|auto].
Qed.

(** frequency never below a threshold: the frequency logic stays quiet *)
Lemma healthy_frequency_run xs : forall s, enabled s -> r_lftrip s = false ->
  (forall z, In z (r_lf s) -> f_start z = 0) ->
  (forall x z, In x xs -> In z (r_lf s) -> f_F z <= m_f (snd x)) ->
  rt_run (W s) xs = (W (fst (rt_run s xs)), snd (rt_run s xs)) /\
  (snd (rt_run s xs) = Ok tt -> r_lftrip (fst (rt_run s xs)) = false /\ r_lf (fst (rt_run s xs)) = r_lf s).
Proof.
  induction xs as [|[t m] xs IH]; intros s He Hl Hz Hf; [split; [reflexivity|auto]|].
  cbn [rt_run]. rewrite strip_eval by auto.
  destruct (rt_eval s (t, m)) as [s1 r1] eqn:E. cbn [fst snd]. destruct r1 as [[]|]; [|split; [reflexivity|discriminate]].
  assert (K : r_lf s1 = r_lf s /\ r_lftrip s1 = false).
  { destruct (r_lfen s) eqn:El.
    - pose proof (eval_lf s t m s1 He El E) as X. destruct (qlt (r_rtlock s) t); [|split; congruence].
      unfold fstep in X. rewrite Hl in X.
      assert (Hfm : forall z, In z (r_lf s) -> f_F z <= m_f m) by (intros z Hin; apply (Hf (t, m) z); [left; auto|auto]).
      destruct (qlt (r_tstable s) t).
      + assert (Y : forall l, (forall z, In z l -> f_start z = 0 /\ f_F z <= m_f m) ->
           map (fun z => f_expire (m_f m) t (f_reset (m_f m) (r_delf s) (f_begin (m_f m) t z))) l = l /\
           existsb (fun z => f_trips (m_f m) t (f_reset (m_f m) (r_delf s) (f_begin (m_f m) t z))) l = false).
        { clear. induction l as [|z l IHl]; intros H; [auto|]. destruct (H z (or_introl eq_refl)) as [H1 H2].
          destruct IHl as [I1 I2]; [intros; apply H; right; auto|].
          assert (B : f_begin (m_f m) t z = z).
          { unfold f_begin. replace (qlt (m_f m) (f_F z)) with false by (symmetry; apply qlt_false; lra). rewrite andb_false_r. reflexivity. }
          assert (R : f_reset (m_f m) (r_delf s) z = z).
          { unfold f_reset. replace (qlt 0 (f_start z)) with false by (symmetry; apply qlt_false; rewrite H1; lra). rewrite andb_false_r. reflexivity. }
          assert (T : f_trips (m_f m) t z = false).
          { unfold f_trips. replace (qlt 0 (f_start z)) with false by (symmetry; apply qlt_false; rewrite H1; lra). rewrite andb_false_r. reflexivity. }
          cbn [map existsb]. rewrite B, R. unfold f_expire at 1. rewrite T, I1, I2. auto. }
        destruct (Y (r_lf s)) as [Y1 Y2]; [auto|]. rewrite Y1, Y2 in X. split; congruence.
      + assert (Y : map (fun z => set_fstart z 0) (r_lf s) = r_lf s).
        { clear - Hz. induction (r_lf s) as [|z l IHl]; [reflexivity|]. cbn [map].
          rewrite IHl by (intros; apply Hz; right; auto). f_equal. specialize (Hz z (or_introl eq_refl)). destruct z. cbn in *. subst. reflexivity. }
        rewrite Y in X. split; congruence.
    - apply eval_split in E as (s2 & E1 & E2).
      destruct (urf_conn s m t s2 _ El E1) as (_ & _ & _ & _ & C1 & C2 & _).
      destruct (dor_frame s2 m t) as (_ & _ & F3 & F4 & _). rewrite E2 in F3, F4. cbn [fst] in *. split; congruence. }
  destruct K as [K1 K2].
  destruct (eval_flags s t m s1 He E) as (U1 & _).
  destruct (IH s1 (enabled_settings _ _ U1 He) K2) as [I1 I2].
  - rewrite K1. exact Hz.
  - rewrite K1. intros x z Hx. apply Hf. right. auto.
  - split; [exact I1|]. rewrite <- K1. exact I2.
Qed.

(** healthy voltage and frequency never disturb the DER, with frequency
    ride-through enabled too *)
Theorem C18_healthy_with_lfrt :
  forall s0 xs, initial s0 -> r_mtype s0 <> MOtherType ->
  (forall z, In z (r_lf s0) -> f_start z = 0) ->
  (forall x z, In x xs -> In z (r_lf s0) -> f_F z <= m_f (snd x)) ->
  (forall x z, In x xs -> In z (r_lv s0) -> z_V z * r_vref s0 <= volt (r_mtype s0) (snd x)) ->
  (forall x z, In x xs -> In z (r_hv s0) -> volt (r_mtype s0) (snd x) <= z_V z * r_vref s0) ->
  exists s, rt_run s0 xs = (s, Ok tt) /\
    r_lvtrip s = false /\ r_hvtrip s = false /\ r_lftrip s = false /\ r_trip s = false /\ r_mc s = false /\ r_conn s = true /\
    r_vve s = r_vve s0 /\ r_qref s = r_qref s0 /\ r_ppv s = r_ppv s0 /\ r_iref s = r_iref s0 /\ r_vdc s = r_vdc s0.
Proof.
  intros s0 xs Hi Hm Hz Hf HL HH.
  destruct (C18_healthy_voltage (W s0) xs (initial_without _ Hi) eq_refl Hm HL HH)
    as (s & Er & A1 & A2 & A3 & A4 & A5 & A6 & A7 & A8 & A9 & A10).
  pose proof (initial_rinv _ Hi) as I. destruct (initial_facts _ Hi) as (_ & _ & _ & _ & _ & _ & _ & _ & _ & _ & _ & El & _).
  destruct (healthy_frequency_run xs s0 (ri_en _ I) El Hz Hf) as [B1 B2].
  rewrite Er in B1. destruct (rt_run s0 xs) as [s' r']. cbn [fst snd] in *.
  assert (Er' : r' = Ok tt) by congruence. subst r'. destruct (B2 eq_refl) as [B3 _].
  assert (Es : s = W s') by congruence. subst s. exists s'. split; [reflexivity|].
  repeat (split; [assumption|]). exact A10.
Qed.
Print Assumptions C18_healthy_with_lfrt.

(** * the connection theorems with frequency ride-through enabled *)
Lemma state_without s0 xs : lfrt_quiet s0 xs -> state_after (W s0) xs = W (state_after s0 xs).
Proof. intros H. unfold state_after at 1. rewrite C114_lfrt_transparent by auto. reflexivity. Qed.
Lemma flagged_without s : flagged (W s) = flagged s. Proof. reflexivity. Qed.

Lemma quiet_eval_run s0 xs s t m s' : lfrt_quiet s0 (xs ++ [(t, m)]) ->
  rt_run s0 xs = (s, Ok tt) -> rt_eval s (t, m) = (s', Ok tt) ->
  lfrt_quiet s0 xs /\ rt_run (W s0) xs = (W s, Ok tt) /\ rt_eval (W s) (t, m) = (W s', Ok tt).
Proof.
  intros H Hr He. pose proof (quiet_split _ _ _ H) as Hq. split; [exact Hq|].
  split.
  - rewrite C114_lfrt_transparent by auto. unfold state_after. rewrite Hr. reflexivity.
  - rewrite strip_eval, He; [reflexivity|]. specialize (H xs (t, m) [] eq_refl). unfold state_after in H. rewrite Hr in H. exact H.
Qed.

Theorem C22_disconnect_only_after_delay_with_lfrt :
  forall s0 xs s t m s', initial s0 -> lfrt_quiet s0 (xs ++ [(t, m)]) ->
  rt_run s0 xs = (s, Ok tt) -> rt_eval s (t, m) = (s', Ok tt) ->
  r_conn s = true -> r_conn s' = false ->
  flagged s' = true /\ (forall x, In x xs -> fst x < t) /\
  exists pre t1 m1 mid, xs = pre ++ (t1, m1) :: mid /\
    flagged (state_after s0 (pre ++ [(t1, m1)])) = true /\
    (forall a b, mid = a ++ b -> r_conn (state_after s0 (pre ++ (t1, m1) :: a)) = true) /\
    r_disdelay s0 <= t - t1.
Proof.
  intros s0 xs s t m s' Hi Hq Hr He Hc Hc'.
  destruct (quiet_eval_run _ _ _ _ _ _ Hq Hr He) as (Q & R & E).
  destruct (C22_disconnect_only_after_delay (W s0) xs (W s) t m (W s') (initial_without _ Hi) eq_refl R E Hc Hc')
    as (A & B & pre & t1 & m1 & mid & Hx & F & G & D).
  split; [exact A|]. split; [exact B|]. exists pre, t1, m1, mid. split; [exact Hx|].
  assert (P : forall a b, mid = a ++ b -> lfrt_quiet s0 (pre ++ (t1, m1) :: a)).
  { intros a b Hab. apply (quiet_split _ _ b). rewrite <- app_assoc. cbn [app]. rewrite <- Hab, <- Hx. exact Q. }
  split; [|split; [|exact D]].
  - rewrite state_without in F; [exact F|]. apply (P [] mid eq_refl).
  - intros a b Hab. specialize (G a b Hab). rewrite state_without in G; [exact G|]. eapply P; eauto.
Qed.
Print Assumptions C22_disconnect_only_after_delay_with_lfrt.

Theorem C24_reconnect_needs_delay_with_lfrt :
  forall s0 xs s t m s', initial s0 -> lfrt_quiet s0 (xs ++ [(t, m)]) ->
  rt_run s0 xs = (s, Ok tt) -> rt_eval s (t, m) = (s', Ok tt) ->
  r_conn s = false -> r_conn s' = true ->
  flagged s' = false /\ (forall x, In x xs -> fst x < t) /\
  exists pre t1 m1 mid, xs = pre ++ (t1, m1) :: mid /\ r_recdelay s0 < t - t1 /\
    forall a b, mid = a ++ b ->
      flagged (state_after s0 (pre ++ (t1, m1) :: a)) = false /\
      r_conn (state_after s0 (pre ++ (t1, m1) :: a)) = false.
Proof.
  intros s0 xs s t m s' Hi Hq Hr He Hc Hc'.
  destruct (quiet_eval_run _ _ _ _ _ _ Hq Hr He) as (Q & R & E).
  destruct (C24_reconnect_needs_delay (W s0) xs (W s) t m (W s') (initial_without _ Hi) eq_refl R E Hc Hc')
    as (A & B & pre & t1 & m1 & mid & Hx & D & G).
  split; [exact A|]. split; [exact B|]. exists pre, t1, m1, mid. split; [exact Hx|]. split; [exact D|].
  intros a b Hab. specialize (G a b Hab). rewrite state_without in G; [exact G|].
  apply (quiet_split _ _ b). rewrite <- app_assoc. cbn [app]. rewrite <- Hab, <- Hx. exact Q.
Qed.
Print Assumptions C24_reconnect_needs_delay_with_lfrt.

(** the condition in terms of the frequency history: no zone has seen sustained
    underfrequency before the last evaluation *)
Theorem C114_quiet_iff_history :
  forall s0 xs s, initial s0 -> r_lfen s0 = true ->
  (forall z, In z (r_lf s0) -> f_start z = 0 /\ 0 < f_limit z) ->
  rt_run s0 xs = (s, Ok tt) ->
  (lfrt_quiet s0 xs <->
   forall a x b z, xs = a ++ x :: b -> In z (r_lf s0) ->
     ~ under_frequency_for (f_F z) (2#100) (f_limit z) (frequencies (processed 0 (r_tstable s0) a))).
Proof.
  intros s0 xs s Hi Hl Hz Hr.
  assert (P : forall a x b, xs = a ++ x :: b -> exists sa, rt_run s0 a = (sa, Ok tt) /\ state_after s0 a = sa).
  { intros a x b ->. apply run_app in Hr as (sa & Ra & _). exists sa. split; [exact Ra|]. unfold state_after. rewrite Ra. reflexivity. }
  split.
  - intros H a x b z Hx Hin Hu. specialize (H a x b Hx). destruct (P a x b Hx) as (sa & Ra & Ea). rewrite Ea in H.
    assert (T : r_lftrip sa = true) by (apply (C28_lfrt_trip_iff_history_partial s0 a sa Hi Hl Hz Ra); eauto). congruence.
  - intros H a x b Hx. destruct (P a x b Hx) as (sa & Ra & Ea). rewrite Ea.
    destruct (r_lftrip sa) eqn:T; [|reflexivity]. exfalso.
    apply (C28_lfrt_trip_iff_history_partial s0 a sa Hi Hl Hz Ra) in T as (z & Hin & Hu). exact (H a x b z Hx Hin Hu).
Qed.
Print Assumptions C114_quiet_iff_history.

(** without the condition the claim is false: after an LFRT trip the evaluation
    raises although the voltage part alone would go on *)
Theorem C114_after_trip_refuted :
  exists s0 xs, initial s0 /\ r_lfen s0 = true /\
    snd (rt_run (without_lfrt s0) xs) = Ok tt /\ snd (rt_run s0 xs) = Raise AssertionError.
Proof.
  exists (tmpl true), [fsmp (1#10) 60; fsmp (2#10) (565#10); fsmp (22#100) 57; fsmp (3#10) 60].
  split; [apply tmpl_initial|]. vm_compute. auto.
Qed.
Print Assumptions C114_after_trip_refuted.

(** a deep voltage dip disconnects the DER while the frequency zones are armed
    and one of them is timing *)
Example C114_hypotheses_met :
  let v t V f := (t, Meas (V * (1#2)) (V * (1#2)) (V * (1#2)) f 1) : Q * meas in
  let xs := [v (1#10) (4#10) 60; v (6#10) (4#10) (585#10); v (7#10) (4#10) (585#10); v (8#10) (4#10) 60] in
  lfrt_quiet (tmpl true) xs /\ r_conn (state_after (tmpl true) xs) = false /\ r_lfen (tmpl true) = true /\
  r_lf (state_after (tmpl true) (firstn 3 xs)) <> r_lf (tmpl true).
Proof.
  cbv zeta. split; [|vm_compute; repeat split; discriminate].
  intros a x b H.
  destruct a as [|a1 [|a2 [|a3 [|a4 [|a5 a]]]]]; cbn [app] in H; try discriminate; 
    repeat match goal with H : _ :: _ = _ :: _ |- _ => apply (f_equal (fun l => (hd x l, tl l))) in H; cbn [hd tl] in H;
       apply pair_equal_spec in H as [<- H] end; try (vm_compute; reflexivity); discriminate.
Qed.
