(** C122: ride-through decisions depend only on the accepted solution. *)
From Verif Require Import Base EventsModel VdcModel RTModel RTSpec RTProofs RTProofs2 RTProofs3 RTProperties RTProperties2.

(** * Specification *)
(** the decisions: trip, cessation, connection, and all timers and zone states
    (everything but the reference values set while disconnected) *)
Definition decisions (s : rt) :=
  ((r_trip s, r_mc s, r_conn s), (r_lvtrip s, r_hvtrip s, r_lftrip s), (r_lvmc s, r_hvmc s),
   (r_lv s, r_hv s, r_lf s), (r_tdis s, r_trec s), (r_rtlock s, r_connlock s)).
(** a solver run: evaluations in order, each marked [true] if it is part of the
    accepted solution and [false] if the solver later discards it *)
Definition run := list (bool * (Q * meas)).
Definition all_evaluations (xs : run) : list (Q * meas) := map snd xs.
Definition accepted (xs : run) : list (Q * meas) := map snd (filter fst xs).

(** * Proofs *)
Definition same (s s' : rt) : Prop := settings s = settings s' /\ decisions s = decisions s'.
Lemma same_refl s : same s s. Proof. split; reflexivity. Qed.
Lemma same_trans s s' s'' : same s s' -> same s' s'' -> same s s''. Proof. intros [A B] [C D]. split; congruence. Qed.
Lemma same_sym s s' : same s s' -> same s' s. Proof. intros [A B]. split; congruence. Qed.
Lemma same_ex s s' : same s s' -> exists a b c d e f, s' = up_out s a b c d e f.
Proof.
  intros [X Y]. exists (r_vve s'), (r_vwe s'), (r_qref s'), (r_ppv s'), (r_iref s'), (r_vdc s').
  destruct s, s'. unfold settings, decisions in X, Y. cbn in X, Y. injection X. injection Y. intros. subst. reflexivity.
Qed.
Definition cong (f : rt -> rt * res unit) : Prop := forall s s' s1 s1', same s s' -> f s = (s1, Ok tt) -> f s' = (s1', Ok tt) -> same s1 s1'.
Ltac fin := intros E1 E2; injection E1 as <-; injection E2 as <-; split; reflexivity.
Lemma cong_LVRT m t : cong (fun s => LVRT s m t).
Proof.
  intros s s' s1 s1' H. apply same_ex in H as (o1 & o2 & o3 & o4 & o5 & o6 & ->). destruct s. unfold LVRT, get_Vrms_measured. cbn.
  destruct r_mtype; try discriminate; destruct (qlt r_tstable t); try fin;
  destruct (zones_loop _ r_lv r_lvtrip r_lvmc) as [[? ?] ?]; fin.
Qed.
Lemma cong_HVRT m t : cong (fun s => HVRT s m t).
Proof.
  intros s s' s1 s1' H. apply same_ex in H as (o1 & o2 & o3 & o4 & o5 & o6 & ->). destruct s. unfold HVRT, get_Vrms_measured. cbn.
  destruct r_mtype; try discriminate; destruct (qlt r_tstable t); try fin;
  destruct (zones_loop _ r_hv r_hvtrip r_hvmc) as [[? ?] ?]; fin.
Qed.
Lemma cong_reconnect m t : cong (fun s => DER_reconnect_logic s m t).
Proof.
  intros s s' s1 s1' H. apply same_ex in H as (o1 & o2 & o3 & o4 & o5 & o6 & ->). destruct s. unfold DER_reconnect_logic, get_Vrms_measured. cbn.
  destruct r_mtype; try discriminate; (destruct r_conn; [discriminate|]); destruct r_mc; destruct (qlt 0 r_trec); try destruct (qlt 0 t); try destruct (qeq r_trec 0); try fin;
  destruct (qlt r_recdelay (t - r_trec)); try fin; destruct r_restore; try fin;
  destruct (Vdc_ref_ramp r_vdc t r_setpoint) as [v r]; destruct (Vdc_ref_ramp o6 t r_setpoint) as [v' r'];
  intros E1 E2; assert (r = Ok tt) by congruence; assert (r' = Ok tt) by congruence; subst; revert E1 E2; fin.
Qed.
Lemma cong_FRT m t : cong (fun s => FRT s m t).
Proof.
  intros s s' s1 s1' H. pose proof (cong_reconnect m t _ _ s1 s1' H) as R. cbv beta in R. unfold FRT. apply same_ex in H as (o1 & o2 & o3 & o4 & o5 & o6 & ->). destruct s. cbn in *.
  destruct (qlt r_tstable t); try fin. destruct r_lftrip; cbn [negb]; [exact R|].
  match goal with |- context [if existsb ?p ?l then _ else _] => destruct (existsb p l) end.
  - match goal with |- context [if existsb ?p ?l then _ else _] => destruct (existsb p l) end; fin.
  - match goal with |- context [if existsb ?p ?l then _ else _] => destruct (existsb p l) end; fin.
Qed.
Lemma cong_urf m t : cong (fun s => update_ridethrough_flags s m t).
Proof.
  intros s s' s1 s1' H. unfold update_ridethrough_flags.
  assert (E : qlt (r_rtlock s) t = qlt (r_rtlock s') t) by (apply same_ex in H as (? & ? & ? & ? & ? & ? & ->); destruct s; cbn; reflexivity). rewrite E.
  destruct (qlt (r_rtlock s') t); [|intros E1 E2; injection E1 as <-; injection E2 as <-; exact H].
  assert (H0 : same (up_locks s t (r_connlock s)) (up_locks s' t (r_connlock s'))) by (apply same_ex in H as (? & ? & ? & ? & ? & ? & ->); destruct s; cbn; split; reflexivity).
  revert H0. generalize (up_locks s t (r_connlock s)) as a. generalize (up_locks s' t (r_connlock s')) as a'. intros a' a H0.
  assert (El : r_lven a = r_lven a') by (apply same_ex in H0 as (? & ? & ? & ? & ? & ? & ->); destruct a; cbn; reflexivity). rewrite El.
  destruct (if r_lven a' then LVRT a m t else (a, Ok tt)) as [b r1] eqn:B. destruct (if r_lven a' then LVRT a' m t else (a', Ok tt)) as [b' r1'] eqn:B'.
  destruct r1 as [[]|]; [|discriminate]. intros X Y. destruct r1' as [[]|]; [|discriminate].
  assert (H1 : same b b').
  { destruct (r_lven a'); [exact (cong_LVRT m t _ _ _ _ H0 B B')|]. injection B as <-. injection B' as <-. exact H0. }
  assert (Eh : r_hven b = r_hven b') by (apply same_ex in H1 as (? & ? & ? & ? & ? & ? & ->); destruct b; cbn; reflexivity). rewrite Eh in X.
  destruct (if r_hven b' then HVRT b m t else (b, Ok tt)) as [c r2] eqn:C. destruct (if r_hven b' then HVRT b' m t else (b', Ok tt)) as [c' r2'] eqn:C'.
  destruct r2 as [[]|]; [|discriminate]. destruct r2' as [[]|]; [|discriminate].
  assert (H2 : same c c').
  { destruct (r_hven b'); [exact (cong_HVRT m t _ _ _ _ H1 C C')|]. injection C as <-. injection C' as <-. exact H1. }
  assert (Ef : r_lfen c = r_lfen c') by (apply same_ex in H2 as (? & ? & ? & ? & ? & ? & ->); destruct c; cbn; reflexivity). rewrite Ef in X.
  destruct (if r_lfen c' then FRT c m t else (c, Ok tt)) as [d r3] eqn:Dq. destruct (if r_lfen c' then FRT c' m t else (c', Ok tt)) as [d' r3'] eqn:D'.
  destruct r3 as [[]|]; [|discriminate]. destruct r3' as [[]|]; [|discriminate].
  assert (H3 : same d d').
  { destruct (r_lfen c'); [exact (cong_FRT m t _ _ _ _ H2 Dq D')|]. injection Dq as <-. injection D' as <-. exact H2. }
  injection X as <-. injection Y as <-. clear -H3. apply same_ex in H3 as (? & ? & ? & ? & ? & ? & ->). destruct d. split; reflexivity.
Qed.
Lemma same_disconnect s m s' m' : same s s' -> same (DER_disconnect s m) (DER_disconnect s' m').
Proof. intros H. apply same_ex in H as (? & ? & ? & ? & ? & ? & ->). destruct s. split; reflexivity. Qed.
Lemma cong_dor m t : cong (fun s => disconnect_or_reconnect s m t).
Proof.
  intros s s' s1 s1' H. unfold disconnect_or_reconnect.
  assert (E : qlt (r_connlock s) t = qlt (r_connlock s') t) by (apply same_ex in H as (? & ? & ? & ? & ? & ? & ->); destruct s; cbn; reflexivity). rewrite E.
  assert (K : forall a a', same a a' -> same (if negb (r_conn a) then DER_disconnect a m else a) (if negb (r_conn a') then DER_disconnect a' m else a')).
  { intros a a' Ha. assert (Ec : r_conn a = r_conn a') by (apply same_ex in Ha as (? & ? & ? & ? & ? & ? & ->); destruct a; cbn; reflexivity). rewrite Ec.
    destruct (r_conn a'); cbn [negb]; [exact Ha|now apply same_disconnect]. }
  destruct (qlt (r_connlock s') t).
  2:{ intros E1 E2. injection E1 as <-. injection E2 as <-. now apply K. }
  assert (H0 : same (up_locks s (r_rtlock s) t) (up_locks s' (r_rtlock s') t)) by (apply same_ex in H as (? & ? & ? & ? & ? & ? & ->); destruct s; cbn; split; reflexivity).
  revert H0. generalize (up_locks s (r_rtlock s) t) as a. generalize (up_locks s' (r_rtlock s') t) as a'. intros a' a H0.
  assert (Ea : r_conn a = r_conn a' /\ r_trip a = r_trip a' /\ r_mc a = r_mc a') by (apply same_ex in H0 as (? & ? & ? & ? & ? & ? & ->); destruct a; cbn; auto).
  destruct Ea as (-> & -> & ->).
  set (f := fun a => if r_conn a' then if (r_trip a' || r_mc a')%bool then DER_disconnect_logic a m t else (a, Ok tt)
                    else if negb (r_trip a') then DER_reconnect_logic a m t else (a, Ok tt)).
  change (match f a with (s2, r1) => match r1 with Ok _ => (if negb (r_conn s2) then DER_disconnect s2 m else s2, Ok tt) | Raise e => (s2, Raise e) end end = (s1, Ok tt) ->
          match f a' with (s2, r1) => match r1 with Ok _ => (if negb (r_conn s2) then DER_disconnect s2 m else s2, Ok tt) | Raise e => (s2, Raise e) end end = (s1', Ok tt) -> same s1 s1').
  destruct (f a) as [b r] eqn:B. destruct (f a') as [b' r'] eqn:B'.
  destruct r as [[]|]; [|discriminate]. intros E1. destruct r' as [[]|]; [|discriminate]. intros E2.
  injection E1 as <-. injection E2 as <-. apply K. unfold f in B, B'. destruct (r_conn a') eqn:Ec.
  - destruct (r_trip a' || r_mc a')%bool; [|injection B as <-; injection B' as <-; exact H0].
    clear -H0 B B'. apply same_ex in H0 as (? & ? & ? & ? & ? & ? & ->). destruct a. unfold DER_disconnect_logic, get_Vrms_measured in B, B'. cbn in B, B'.
    destruct r_conn; [|discriminate]. cbn [negb] in *. destruct (qeq r_tdis 0); [revert B B'; fin|].
    destruct (qlt (t - r_tdis) r_disdelay); [revert B B'; fin|]. destruct r_mtype; try discriminate; revert B B'; fin.
  - destruct (negb (r_trip a')); [exact (cong_reconnect m t _ _ _ _ H0 B B')|]. injection B as <-. injection B' as <-. exact H0.
Qed.
Lemma cong_eval x : cong (fun s => rt_eval s x).
Proof.
  intros s s' s1 s1' H E1 E2. destruct x as [t m]. apply eval_split in E1 as (a & A1 & A2). apply eval_split in E2 as (b & B1 & B2).
  pose proof (cong_urf m t _ _ _ _ H A1 B1) as H1. exact (cong_dor m t _ _ _ _ H1 A2 B2).
Qed.

(** Discarded evaluations at times the logic has already seen have no influence on
    the decisions. *)
Theorem C122_old_trials_partial : forall s0 (xs : run) s s',
  initial s0 ->
  (forall pre t m post, xs = pre ++ (false, (t, m)) :: post -> t <= 0 \/ exists x, In x pre /\ t <= fst (snd x)) ->
  rt_run s0 (all_evaluations xs) = (s, Ok tt) -> rt_run s0 (accepted xs) = (s', Ok tt) ->
  decisions s = decisions s'.
Proof.
  intros s0 xs s s' Hi Hx H1 H2.
  assert (G : forall ys pre a a' b b', (forall p t m q, pre ++ ys = p ++ (false, (t, m)) :: q -> t <= 0 \/ exists x, In x p /\ t <= fst (snd x)) ->
     rt_run s0 (all_evaluations pre) = (a, Ok tt) -> same a a' ->
     rt_run a (all_evaluations ys) = (b, Ok tt) -> rt_run a' (accepted ys) = (b', Ok tt) -> same b b').
  { induction ys as [|[ok [t m]] ys IH]; intros pre a a' b b' Hp Ha Hs Hb Hb'.
    - cbn in Hb, Hb'. injection Hb as <-. injection Hb' as <-. exact Hs.
    - unfold all_evaluations in Hb. cbn [map snd] in Hb. apply run_cons in Hb as (a1 & Ea & Hb).
      assert (Ha1 : rt_run s0 (all_evaluations (pre ++ [(ok, (t, m))])) = (a1, Ok tt)).
      { unfold all_evaluations. rewrite map_app. eapply run_app_ok; [exact Ha|]. cbn [map snd rt_run]. now rewrite Ea. }
      assert (Hp1 : forall p t0 m0 q, (pre ++ [(ok, (t, m))]) ++ ys = p ++ (false, (t0, m0)) :: q -> t0 <= 0 \/ exists x, In x p /\ t0 <= fst (snd x)).
      { intros p t0 m0 q E. apply (Hp p t0 m0 q). now rewrite <- E, <- app_assoc. }
      destruct ok.
      + unfold accepted in Hb'. cbn [filter fst map snd] in Hb'. apply run_cons in Hb' as (a1' & Ea' & Hb').
        apply (IH (pre ++ [(true, (t, m))]) a1 a1'); auto. exact (cong_eval (t, m) _ _ _ _ Hs Ea Ea').
      + unfold accepted in Hb'. cbn [filter fst] in Hb'.
        apply (IH (pre ++ [(false, (t, m))]) a1 a'); auto. apply same_trans with a; [|exact Hs].
        assert (Old : t <= 0 \/ exists x, In x (all_evaluations pre) /\ t <= fst x).
        { destruct (Hp pre t m ys eq_refl) as [L|(x & X1 & X2)]; [auto|]. right. exists (snd x). split; [apply in_map; auto|auto]. }
        destruct (C17_old_times_ignored _ _ _ _ _ _ _ Hi Ha Old Ea) as (_ & L & St & _).
        split; [exact St|]. unfold logic_state in L. unfold decisions. congruence. }
  destruct (G xs [] s0 s0 s s') as [_ ?]; auto. apply same_refl.
Qed.
Print Assumptions C122_old_trials_partial.

(** * Discarded evaluations at later times are taken at face value *)
(** every accepted step is at most 1/120 s (the solver's hmax), and every trial lies
    at most 1/120 s after the last accepted time *)
Fixpoint solver_like (last : Q) (xs : run) : bool :=
  match xs with
  | [] => true
  | (ok, (t, _)) :: r => qlt last t && qle (t - last) (1#120) && solver_like (if ok then t else last) r
  end.
Definition at_step (n : Z) : Q := 1 + (n # 240).
Definition steps (n : nat) : list Z := map Z.of_nat (seq 1 n).
(** a sustained overvoltage of 1.2 per unit; one discarded trial in the middle saw a
    healthy voltage *)
Definition missed : run :=
  map (fun k => (true, smp (at_step (2 * k)) (12#10))) (steps 40) ++
  [(false, smp (at_step 81) 1)] ++
  map (fun k => (true, smp (at_step (80 + 2 * k)) (12#10))) (steps 40) ++
  map (fun k => (true, smp (at_step (160 + 2 * k)) 1)) (steps 5).
(** a healthy voltage throughout; every step is first tried at twice the length and
    discarded, the discarded points have 1.2 per unit *)
Definition spurious : run :=
  flat_map (fun k => [(false, smp (at_step (k + 1)) (12#10)); (true, smp (at_step k) 1)]) (steps 140).

Theorem C122_trials_refuted :
  initial (tmpl false) /\
  (solver_like 1 missed = true /\
   (exists s s', rt_run (tmpl false) (accepted missed) = (s, Ok tt) /\ r_trip s = true /\
                 rt_run (tmpl false) (all_evaluations missed) = (s', Ok tt) /\ r_trip s' = false)) /\
  (solver_like 1 spurious = true /\ Forall (fun x => m_min (snd x) == 1#2) (accepted spurious) /\
   (exists s s', rt_run (tmpl false) (accepted spurious) = (s, Ok tt) /\ r_trip s = false /\
                 rt_run (tmpl false) (all_evaluations spurious) = (s', Ok tt) /\ r_trip s' = true /\ r_conn s' = false)).
Proof.
  split; [apply tmpl_initial|]. split.
  - split; [vm_compute; reflexivity|].
    exists (fst (rt_run (tmpl false) (accepted missed))), (fst (rt_run (tmpl false) (all_evaluations missed))).
    split; [rewrite (surjective_pairing (rt_run _ (accepted missed))) at 1; f_equal; vm_compute; reflexivity|].
    split; [vm_compute; reflexivity|].
    split; [rewrite (surjective_pairing (rt_run _ (all_evaluations missed))) at 1; f_equal; vm_compute; reflexivity|vm_compute; reflexivity].
  - split; [vm_compute; reflexivity|].
    split; [apply Forall_forall; intros x Hx; assert (B : forallb (fun x => Qeq_bool (m_min (snd x)) (1#2)) (accepted spurious) = true) by (vm_compute; reflexivity);
            rewrite forallb_forall in B; apply Qeq_bool_iff; auto|].
    exists (fst (rt_run (tmpl false) (accepted spurious))), (fst (rt_run (tmpl false) (all_evaluations spurious))).
    split; [rewrite (surjective_pairing (rt_run _ (accepted spurious))) at 1; f_equal; vm_compute; reflexivity|].
    split; [vm_compute; reflexivity|].
    split; [rewrite (surjective_pairing (rt_run _ (all_evaluations spurious))) at 1; f_equal; vm_compute; reflexivity|split; vm_compute; reflexivity].
Qed.
Print Assumptions C122_trials_refuted.

(** In general: an accepted point that is not later than a discarded trial before it
    is not seen by the logic at all. *)
Theorem C122_shadowed_refuted : forall s0 xs s t m s' r t' m',
  initial s0 -> rt_run s0 (xs ++ [(t', m')]) = (s, Ok tt) -> t <= t' -> rt_eval s (t, m) = (s', r) ->
  r = Ok tt /\ decisions s' = decisions s.
Proof.
  intros s0 xs s t m s' r t' m' Hi Hr Ht He.
  destruct (C17_old_times_ignored s0 (xs ++ [(t', m')]) s t m s' r Hi Hr) as (A & L & _); auto.
  - right. exists (t', m'). split; [apply in_or_app; right; now left|exact Ht].
  - split; [auto|]. unfold logic_state in L. unfold decisions. congruence.
Qed.
Print Assumptions C122_shadowed_refuted.

Example C122_hypotheses_met :
  let xs : run := [(true, smp (1#2) (12#10)); (false, smp (4#10) (5#10)); (true, smp (6#10) (12#10)); (false, smp (6#10) 1); (true, smp 2 (12#10))] in
  initial (tmpl false) /\ snd (rt_run (tmpl false) (all_evaluations xs)) = Ok tt /\ snd (rt_run (tmpl false) (accepted xs)) = Ok tt /\
  r_trip (fst (rt_run (tmpl false) (all_evaluations xs))) = true /\ r_trip (fst (rt_run (tmpl false) (accepted xs))) = true.
Proof. split; [apply tmpl_initial|]. vm_compute. auto. Qed.
