(** Properties C63 and C65: what remains true of a voltage trip with frequency
    ride-through enabled, and of restore_Vdc. *)
From Verif Require Import Base EventsModel EventsSpec VdcModel VdcSpec VdcProofs VdcProperties RTModel RTSpec RTProofs RTProofs2 RTProofs3
  RTProperties RTProperties2 RTProperties3 RTProperties4.

(** * C63 *)
(** while LFRT_TRIP is not set, the frequency logic leaves the connection alone *)
Lemma urf_conn_lf s m t s' :
  r_lftrip s = false -> update_ridethrough_flags s m t = (s', Ok tt) -> r_conn s' = r_conn s.
Proof.
  intros Hl. unfold update_ridethrough_flags. destruct (qlt (r_rtlock s) t); [|intros [= <-]; reflexivity].
  set (s0 := up_locks s t (r_connlock s)).
  assert (P0 : r_conn s0 = r_conn s /\ r_lftrip s0 = false) by (split; auto). clearbody s0.
  assert (Q1 : forall r, (if r_lven s0 then LVRT s0 m t else (s0, Ok tt)) = r -> r_conn (fst r) = r_conn s /\ r_lftrip (fst r) = false).
  { intros r <-. destruct (r_lven s0); [|exact P0]. unfold LVRT. destruct (get_Vrms_measured s0 m); [|exact P0].
    destruct (qlt _ _); [|exact P0]. destruct (zones_loop _ _ _ _) as [[za zb] zc]. exact P0. }
  destruct (if r_lven s0 then LVRT s0 m t else (s0, Ok tt)) as [s1 r1]. specialize (Q1 _ eq_refl). cbn [fst] in Q1.
  destruct r1 as [[]|]; [|discriminate].
  assert (Q2 : forall r, (if r_hven s1 then HVRT s1 m t else (s1, Ok tt)) = r -> r_conn (fst r) = r_conn s /\ r_lftrip (fst r) = false).
  { intros r <-. destruct (r_hven s1); [|exact Q1]. unfold HVRT. destruct (get_Vrms_measured s1 m); [|exact Q1].
    destruct (qlt _ _); [|exact Q1]. destruct (zones_loop _ _ _ _) as [[za zb] zc]. exact Q1. }
  destruct (if r_hven s1 then HVRT s1 m t else (s1, Ok tt)) as [s2 r2]. specialize (Q2 _ eq_refl). cbn [fst] in Q2.
  destruct r2 as [[]|]; [|discriminate].
  assert (Q3 : forall r, (if r_lfen s2 then FRT s2 m t else (s2, Ok tt)) = r -> r_conn (fst r) = r_conn s).
  { intros r <-. destruct Q2 as [Q2 Q2']. destruct (r_lfen s2); [|exact Q2]. unfold FRT. rewrite Q2'. cbn [negb].
    destruct (qlt _ _); [|exact Q2]. match goal with |- context [existsb ?p ?l] => destruct (existsb p l) end;
    match goal with |- context [existsb ?p ?l] => destruct (existsb p l) end; exact Q2. }
  destruct (if r_lfen s2 then FRT s2 m t else (s2, Ok tt)) as [s3 r3]. specialize (Q3 _ eq_refl). cbn [fst] in Q3.
  destruct r3 as [[]|]; [|discriminate]. intros [= <-]. exact Q3.
Qed.

(** With LFRT enabled a voltage-tripped, disconnected DER stays disconnected (and
    injects nothing) for as long as the frequency has not stayed low long enough
    for a frequency trip. *)
Theorem C63_trip_permanent_with_lfrt_partial :
  forall s0 xs ys s s', initial s0 -> r_lfen s0 = true ->
  (forall z, In z (r_lf s0) -> f_start z = 0 /\ 0 < f_limit z) ->
  rt_run s0 xs = (s, Ok tt) -> r_trip s = true -> r_conn s = false ->
  rt_run s ys = (s', Ok tt) ->
  (forall z, In z (r_lf s0) ->
     ~ under_frequency_for (f_F z) (2#100) (f_limit z) (frequencies (processed 0 (r_tstable s0) (xs ++ ys)))) ->
  r_conn s' = false /\ r_trip s' = true.
Proof.
  intros s0 xs ys s s' Hi Hlf Hz H1 Ht Hc. revert s'.
  induction ys as [|[t m] ys IH] using rev_ind; intros s' H2 Hu; [injection H2 as <-; auto|].
  apply run_app in H2 as (s1 & R1 & R2). apply run_cons in R2 as (s2 & E & R2). injection R2 as ->.
  assert (R : rt_run s0 (xs ++ ys) = (s1, Ok tt)) by (eapply run_app_ok; eauto).
  assert (Hu1 : forall z, In z (r_lf s0) ->
     ~ under_frequency_for (f_F z) (2#100) (f_limit z) (frequencies (processed 0 (r_tstable s0) (xs ++ ys)))).
  { intros z Hin Hx. apply (Hu z Hin). rewrite app_assoc, (processed_snoc _ s0 _ s1 t m Hi R).
    unfold frequencies in *. rewrite map_app. destruct (qlt (r_rtlock s1) t); [destruct (qlt (r_tstable s0) t)|];
      cbn [map]; rewrite ?app_nil_r; auto. apply under_snoc. auto. }
  destruct (IH s1 R1 Hu1) as [Hc1 Ht1].
  assert (Hl1 : r_lftrip s1 = false).
  { destruct (r_lftrip s1) eqn:El; auto. exfalso.
    apply (C28_lfrt_trip_iff_history_partial s0 (xs ++ ys) s1 Hi Hlf Hz R) in El as (z & Hin & Hx). apply (Hu1 z Hin Hx). }
  pose proof (run_rinv _ _ _ (initial_rinv _ Hi) R) as Hs. pose proof (eval_rinv _ _ _ Hs E) as Hs1.
  destruct (eval_flags s1 t m s' (ri_en _ Hs) E) as (U1 & _ & _ & U4 & U5 & _). cbv zeta in *.
  assert (Ht2 : r_trip s' = true).
  { rewrite (ri_trip _ Hs1), U4, U5. rewrite (ri_trip _ Hs) in Ht1. destruct (_ && _)%bool; [|auto].
    destruct (r_lvtrip s1), (r_hvtrip s1); simpl in *; auto; try discriminate. apply orb_true_r. }
  split; auto. apply eval_split in E as (s2 & E1 & E2).
  pose proof (urf_conn_lf _ _ _ _ Hl1 E1) as Hc2.
  destruct (dor_conn s2 m t s' E2) as (D1 & _).
  destruct (dor_frame s2 m t) as (_ & _ & _ & _ & F5 & _). rewrite E2 in F5. cbn [fst] in F5.
  unfold cstep in D1. rewrite Hc2, Hc1, <- F5, Ht2 in D1. destruct (qlt (r_connlock s2) t); congruence.
Qed.
Print Assumptions C63_trip_permanent_with_lfrt_partial.

Example C63_hypotheses_met :
  let v t f := (t, Meas (4#10) (4#10) (4#10) f 1) : Q * meas in
  let xs := [v (1#10) 60; v (52#10) 60; v (53#10) 60; v (54#10) 60] in
  let ys := [v (55#10) 58; v (56#10) 60; v 100 60] in
  let s := fst (rt_run (tmpl true) xs) in
  initial (tmpl true) /\ snd (rt_run (tmpl true) xs) = Ok tt /\ r_trip s = true /\ r_conn s = false /\
  snd (rt_run s ys) = Ok tt /\
  (forall z, In z (r_lf (tmpl true)) ->
     ~ under_frequency_for (f_F z) (2#100) (f_limit z) (frequencies (processed 0 (r_tstable (tmpl true)) (xs ++ ys)))).
Proof.
  cbv zeta. split; [apply tmpl_initial|]. split; [vm_compute; reflexivity|]. split; [vm_compute; reflexivity|].
  split; [vm_compute; reflexivity|]. split; [vm_compute; reflexivity|].
  intros z Hz Hu.
  match type of Hu with context [frequencies (processed _ _ ?h)] =>
    assert (R : rt_run (tmpl true) h = (fst (rt_run (tmpl true) h), Ok tt)) by (vm_compute; reflexivity);
    assert (L : r_lftrip (fst (rt_run (tmpl true) h)) = true)
  end.
  { apply (C28_lfrt_trip_iff_history_partial (tmpl true) _ _ (tmpl_initial true) eq_refl) with (2 := R); [|eauto].
    intros y Hy. simpl in Hy. intuition (subst; reflexivity). }
  vm_compute in L. discriminate.
Qed.

(** * C65 *)
(** Everything that can happen to a DER between ride-through evaluations: other
    evaluations, and any operation on its DC-link schedule (additions, ramps, the
    per-evaluation update, resets). *)
Definition with_vdc (s : rt) (v : vdc) : rt := up_conn s (r_conn s) (r_tdis s) (r_trec s) v.
Inductive life (s0 : rt) : rt -> Prop :=
| life_start : life s0 s0
| life_eval s x s' : life s0 s -> rt_eval s x = (s', Ok tt) -> life s0 s'
| life_vdc s o : life s0 s -> life s0 (with_vdc s (fst (vstep (r_vdc s) o))).

Lemma rinv_with_vdc s v : rinv s -> rinv (with_vdc s v).
Proof. intros [A B C D E F]. constructor; auto. Qed.

Lemma dor_vinv s m t s' r : disconnect_or_reconnect s m t = (s', r) -> vinv (r_vdc s) ->
  vinv (r_vdc s') /\ same_limits (r_vdc s) (r_vdc s').
Proof.
  unfold disconnect_or_reconnect. intros H Hv.
  set (body := if qlt (r_connlock s) t then _ else _) in H.
  assert (B : vinv (r_vdc (fst body)) /\ same_limits (r_vdc s) (r_vdc (fst body))).
  { assert (I : vinv (r_vdc s) /\ same_limits (r_vdc s) (r_vdc s)) by (split; [exact Hv|unfold same_limits; auto]).
    unfold body. clear H body. cbv zeta. destruct (qlt (r_connlock s) t); [|exact I]. set (s0 := up_locks s (r_rtlock s) t).
    assert (E0 : r_vdc s0 = r_vdc s) by reflexivity. clearbody s0. rewrite <- E0 in I |- *.
    destruct (r_conn s0).
    - destruct (_ || _)%bool; [|exact I]. unfold DER_disconnect_logic. destruct (negb _); [exact I|].
      destruct (qeq _ _); [exact I|]. destruct (qlt _ _); [exact I|]. destruct (get_Vrms_measured _ _); exact I.
    - destruct (negb _); [|exact I]. unfold DER_reconnect_logic. destruct (get_Vrms_measured _ _); [|exact I].
      destruct (r_conn s0); [exact I|]. destruct (r_mc s0); [destruct (qlt _ _); exact I|].
      destruct (qlt 0 t); [|exact I]. destruct (qlt 0 (r_trec s0)).
      + destruct (qlt _ _); [|exact I]. destruct (r_restore s0); [|exact I].
        destruct (ramp_vinv (r_vdc s0) t (r_setpoint s0) (proj1 I)) as [A B].
        destruct (Vdc_ref_ramp _ _ _) as [v r0]. exact (conj A B).
      + destruct (qeq _ _); exact I. }
  clearbody body. destruct body as [s1 [[]|e]]; cbn [fst] in B.
  - injection H as <- _. destruct (negb (r_conn s1)); [|exact B]. unfold DER_disconnect. proj.
    destruct B as [B1 B2]. split; [exact B1|exact B2].
  - injection H as <- _. exact B.
Qed.

Lemma life_inv s0 s : initial s0 -> r_lfen s0 = false -> vreachable (r_vdc s0) -> life s0 s ->
  rinv s /\ settings s = settings s0 /\ vinv (r_vdc s) /\ same_limits (r_vdc s0) (r_vdc s).
Proof.
  intros Hi Hl Hv H. induction H as [|s [t m] s' H IH E|s o H IH].
  - split; [now apply initial_rinv|]. split; [reflexivity|]. split; [now apply vreachable_vinv|]. unfold same_limits; auto.
  - destruct IH as (A & B & C & D). split; [eapply eval_rinv; eauto|].
    destruct (eval_flags s t m s' (ri_en _ A) E) as (U & _). split; [congruence|].
    apply eval_split in E as (s1 & E1 & E2).
    assert (Hlf : r_lfen s = false) by (apply settings_inj in B; decompose [and] B; congruence).
    destruct (urf_conn s m t s1 _ Hlf E1) as (_ & _ & _ & O & _).
    assert (EV : r_vdc s1 = r_vdc s) by (unfold outputs in O; congruence).
    rewrite <- EV in C, D. destruct (dor_vinv _ _ _ _ _ E2 C) as [F G]. split; auto. eapply same_limits_trans; eauto.
  - destruct IH as (A & B & C & D). split; [now apply rinv_with_vdc|]. split; [exact B|].
    destruct (vstep_vinv (r_vdc s) o C) as [F G]. split; [exact F|]. eapply same_limits_trans; [exact D|exact G].
Qed.

(** If the DC-link reference in force at [t] and the set point are inside the MPP
    window and no downward ramp has been made, an evaluation never fails; and when
    it reconnects the DER, the schedule from then on steps from the reference to
    the set point, at most [vdel] volts per half second, ending exactly there. *)
Theorem C65_restore_vdc_partial :
  forall s0 s t m, initial s0 -> r_lfen s0 = false -> r_restore s0 = true -> r_mtype s0 <> MOtherType ->
  vreachable (r_vdc s0) -> life s0 s ->
  0 < vdel (r_vdc s) -> ~ vbase (r_vdc s) == 0 ->
  vmin (r_vdc s) <= r_setpoint s <= vmax (r_vdc s) ->
  (forall v x, get_Vdc_ref (r_vdc s) t = (v, Ok x) -> vmin (r_vdc s) <= x * vbase (r_vdc s) <= vmax (r_vdc s)) ->
  exists s', rt_eval s (t, m) = (s', Ok tt) /\
    (r_conn s = false -> r_conn s' = true ->
     exists v x n, get_Vdc_ref (r_vdc s) t = (v, Ok x) /\ (0 < n)%nat /\
       let start := x * vbase (r_vdc s) in
       let dir := if qlt (r_setpoint s) start then -(1) else 1 in
       (forall i, (i < n)%nat -> exists y,
          lookup (items (refs (r_vdc s'))) (t + inject_Z (Z.of_nat i) * (1#2)) = Some y /\
          ((i = n - 1)%nat -> y * vbase (r_vdc s) == r_setpoint s) /\
          ((i < n - 1)%nat -> y * vbase (r_vdc s) == start + dir * inject_Z (Z.of_nat (S i)) * vdel (r_vdc s))) /\
       py_abs (r_setpoint s - start) <= inject_Z (Z.of_nat n) * vdel (r_vdc s)).
Proof.
  intros s0 s t m Hi Hlf0 Hre0 Hm0 Hv0 HL Hdel Hb Hsp Hw.
  destruct (life_inv s0 s Hi Hlf0 Hv0 HL) as (Hs & Hset & Hv & _).
  assert (S : r_lfen s = false /\ r_restore s = true /\ r_mtype s <> MOtherType).
  { apply settings_inj in Hset. decompose [and] Hset. repeat split; congruence. }
  destruct S as (Hlf & Hre & Hm).
  destruct (get_vinv (r_vdc s) t Hv) as (x & Hx & _).
  destruct (get_Vdc_ref (r_vdc s) t) as [v1 r1] eqn:Eg. cbn [snd] in Hx. subst r1.
  specialize (Hw _ _ eq_refl).
  assert (Hdt : vdelt (r_vdc s) = (1#2)) by apply Hv.
  destruct (ramp_ok (r_vdc s) t (r_setpoint s) v1 x Hv Hdel Hb Eg Hw Hsp) as (v' & n & R1 & R2 & R3 & R4 & R5 & _).
  rewrite Hdt in R4.
  destruct (urf_ok s m t Hlf Hm) as (s1 & E1).
  destruct (urf_conn s m t s1 _ Hlf E1) as (C1 & _ & _ & O & _).
  assert (EV : r_vdc s1 = r_vdc s) by (unfold outputs in O; congruence).
  assert (Hst : settings s1 = settings s).
  { destruct (qlt (r_rtlock s) t) eqn:Ep.
    - destruct (ri_en _ Hs) as [A B]. apply (urf_cases s m t s1 A B E1 Ep).
    - rewrite urf_unprocessed in E1 by auto. congruence. }
  apply settings_inj in Hst. destruct Hst as (_ & _ & S3 & _ & _ & S6 & _ & _ & _ & _ & S11).
  unfold rt_eval. rewrite E1. unfold disconnect_or_reconnect.
  set (body := if qlt (r_connlock s1) t then _ else _).
  assert (B : snd body = Ok tt /\ (r_conn s = false -> r_conn (fst body) = true -> r_vdc (fst body) = v')).
  { assert (K : (s1, Ok tt) = (s1, Ok tt) -> forall q : rt, r_conn q = r_conn s -> (r_conn s = false -> r_conn q = true -> r_vdc q = v')) by (intros; congruence).
    specialize (K eq_refl).
    unfold body. clear body. cbv zeta. destruct (qlt (r_connlock s1) t); [|split; [reflexivity|now apply K]].
    set (s2 := up_locks s1 (r_rtlock s1) t).
    assert (P : r_conn s2 = r_conn s /\ r_vdc s2 = r_vdc s /\ r_mtype s2 = r_mtype s /\ r_restore s2 = r_restore s /\ r_setpoint s2 = r_setpoint s)
      by (repeat split; assumption). clearbody s2. destruct P as (P1 & P2 & P3 & P4 & P5).
    assert (Gm : get_Vrms_measured s2 m = Ok (volt (r_mtype s2) m)) by (apply get_V_ok; congruence).
    destruct (r_conn s2) eqn:Ec.
    - assert (K2 : forall q : rt, r_conn s = false -> r_conn q = true -> r_vdc q = v') by (intros; congruence).
      destruct (_ || _)%bool; [|split; [reflexivity|apply K2]]. unfold DER_disconnect_logic. rewrite Ec. cbn [negb].
      destruct (qeq _ _); [split; [reflexivity|apply K2]|]. destruct (qlt _ _); [split; [reflexivity|apply K2]|].
      rewrite Gm. split; [reflexivity|apply K2].
    - assert (K2 : forall q, r_conn q = false -> r_conn s = false -> r_conn q = true -> r_vdc q = v') by (intros; congruence).
      destruct (negb _); [|split; [reflexivity|now apply K2]]. unfold DER_reconnect_logic. rewrite Gm, Ec, P4, Hre.
      destruct (r_mc s2); [destruct (qlt _ _); split; try reflexivity; now apply K2|].
      destruct (qlt 0 t); [|split; [reflexivity|now apply K2]].
      destruct (qlt 0 (r_trec s2)).
      + destruct (qlt _ _); [|split; [reflexivity|now apply K2]]. rewrite P2, P5, R1. split; reflexivity.
      + destruct (qeq _ _); split; try reflexivity; now apply K2. }
  clearbody body. destruct body as [s2 r2]. cbn [fst snd] in B. destruct B as [-> B].
  eexists. split; [reflexivity|]. intros Hc Hc'.
  assert (E2 : r_conn s2 = true).
  { destruct (r_conn s2) eqn:E2; auto. cbn [negb] in Hc'. unfold DER_disconnect in Hc'. revert Hc'. proj. congruence. }
  rewrite E2. cbn [negb]. rewrite (B Hc E2).
  exists v1, x, n. split; [reflexivity|]. split; [exact R3|]. cbv zeta. split; [|exact R5].
  intros i Hin. destruct (R4 i Hin) as (y & Y1 & Y2 & Y3). exists y. split; [exact Y1|]. split; [exact Y2|].
  intros Hlt. apply (proj1 (Y3 Hlt)).
Qed.
Print Assumptions C65_restore_vdc_partial.

Example C65_hypotheses_met :
  let smp' t V := (t, Meas (V * (1#2)) (V * (1#2)) (V * (1#2)) 60 (11#10)) : Q * meas in
  let s0 := rt_init (1#2) 0 MMinimum (1#100) (7#4) true false 555 tmpl_lv tmpl_hv tmpl_lf true true (init_vdc (11#10) 520 650 500) in
  let s := fst (rt_run s0 [smp' (1#10) (4#10); smp' (7#10) (4#10); smp' (72#100) (4#10); smp' (8#10) 1]) in
  r_conn s = false /\ r_conn (fst (rt_eval s (smp' (26#10) 1))) = true /\
  snd (rt_eval s (smp' (26#10) 1)) = Ok tt /\
  map (fun e => (Qred (eT e), Qred (eV e * 500))) (items (refs (r_vdc (fst (rt_eval s (smp' (26#10) 1)))))) =
    [(13#5, 552); (31#10, 554); (18#5, 555)].
Proof. vm_compute. repeat split; reflexivity. Qed.
