(** Properties C16-C18, C22-C26: trip, disconnection and reconnection. *)
From Verif Require Import Base EventsModel VdcModel RTModel RTSpec RTProofs RTProofs2 RTProofs3 RTProperties.

(** * C16 *)
Theorem C16_trip_is_permanent :
  forall s0 xs ys s s', initial s0 -> r_lfen s0 = false ->
  rt_run s0 xs = (s, Ok tt) -> r_trip s = true -> r_conn s = false ->
  rt_run s ys = (s', Ok tt) -> r_conn s' = false /\ r_trip s' = true.
Proof.
  intros s0 xs ys s s' Hi Hlf H1 Ht Hc H2.
  pose proof (run_rinv _ _ _ (initial_rinv _ Hi) H1) as Hs.
  assert (Hl : r_lfen s = false).
  { pose proof (settings_inj _ _ (run_lfen _ _ _ Hi H1)) as A. decompose [and] A. congruence. }
  clear s0 xs Hi Hlf H1. revert s Hs Hl Ht Hc H2.
  induction ys as [|[t m] ys IH]; intros s Hs Hl Ht Hc H2; [injection H2 as <-; auto|].
  apply run_cons in H2 as (s1 & E & H2). pose proof (eval_rinv _ _ _ Hs E) as Hs1.
  destruct (eval_flags s t m s1 (ri_en _ Hs) E) as (U1 & _ & _ & U4 & U5 & _). cbv zeta in *.
  assert (Ht1 : r_trip s1 = true).
  { rewrite (ri_trip _ Hs1), U4, U5. rewrite (ri_trip _ Hs) in Ht. destruct (_ && _)%bool; [|auto].
    destruct (r_lvtrip s), (r_hvtrip s); simpl in *; auto; try discriminate. apply orb_true_r. }
  apply (IH s1); auto.
  - apply settings_inj in U1. decompose [and] U1. congruence.
  - destruct (eval_conn s t m s1 (ri_en _ Hs) Hl (ri_lock _ Hs) E) as (C & _).
    unfold cstep in C. rewrite Hc, Ht1 in C. destruct (qlt _ _); congruence.
Qed.
Print Assumptions C16_trip_is_permanent.

Example C16_hypotheses_met :
  let xs := [smp (1#10) (8#10); smp (52#10) (8#10); smp (53#10) (8#10); smp (54#10) 1] in
  let s := fst (rt_run (tmpl false) xs) in
  snd (rt_run (tmpl false) xs) = Ok tt /\ r_trip s = true /\ r_conn s = false /\
  snd (rt_run s [smp 60 1; smp 61 1; smp 62 1]) = Ok tt.
Proof. vm_compute. auto. Qed.

(** * C17 *)
Theorem C17_old_times_ignored :
  forall s0 xs s t m s' r, initial s0 -> rt_run s0 xs = (s, Ok tt) ->
  (t <= 0 \/ exists x, In x xs /\ t <= fst x) ->
  rt_eval s (t, m) = (s', r) ->
  r = Ok tt /\ logic_state s' = logic_state s /\ settings s' = settings s /\ (r_conn s = true -> s' = s).
Proof.
  intros s0 xs s t m s' r Hi Hr Hold He.
  assert (Hp : qlt (r_rtlock s) t = false).
  { destruct (qlt (r_rtlock s) t) eqn:E; auto. apply (new_time s0 xs s t Hi Hr) in E as [A B].
    destruct Hold as [Hold|(x & Hx & Hold)]; [exfalso; lra|]. specialize (B x Hx). exfalso. lra. }
  pose proof (ri_lock _ (run_rinv _ _ _ (initial_rinv _ Hi) Hr)) as Hk.
  unfold rt_eval in He. rewrite urf_unprocessed in He by auto.
  unfold disconnect_or_reconnect in He. rewrite Hk, Hp in He. injection He as <- <-.
  destruct (r_conn s); cbn [negb]; auto. repeat split; auto. discriminate.
Qed.
Print Assumptions C17_old_times_ignored.

Example C17_hypotheses_met :
  let xs := [smp (1#10) 1; smp (2#10) (4#10); smp (3#10) (4#10)] in
  snd (rt_run (tmpl false) xs) = Ok tt /\ (exists x, In x xs /\ (25#100) <= fst x) /\
  fst (rt_eval (fst (rt_run (tmpl false) xs)) (smp (25#100) (2#10))) = fst (rt_run (tmpl false) xs).
Proof. split; [reflexivity|]. split; [|vm_compute; reflexivity]. eexists. split; [right; right; left; reflexivity|]. vm_compute. discriminate. Qed.

(** * C18 *)
Lemma zones_still inz outz t zs :
  (forall z, In z zs -> fresh_zone z /\ inz z = false) ->
  map (fun z => gz (inz z) (outz z) t z) zs = zs /\
  newly (fun z => gz (inz z) (outz z) t z) zs = false /\
  mc_fold (fun z => gmc (inz z) (outz z) t z) zs false = false.
Proof.
  unfold newly, mc_fold. induction zs as [|z zs IH]; simpl; intros H; auto.
  destruct (H z (or_introl eq_refl)) as [[Hs Hb] Hi]. destruct IH as (I1 & I2 & I3); [auto|].
  assert (Hg : gz (inz z) (outz z) t z = z).
  { unfold gz. rewrite Hi. cbn [andb]. destruct (outz z); auto.
    assert (E : qlt 0 (z_start z) = false) by (apply qlt_false; rewrite Hs; lra). rewrite E. auto. }
  assert (Hm : gmc (inz z) (outz z) t z false = false).
  { unfold gmc. rewrite Hi. cbn [andb]. destruct (outz z); auto. destruct (qlt _ _); auto. }
  rewrite Hg, I1, Hb, Hm. split; auto.
Qed.

Definition quiet (s : rt) : Prop :=
  enabled s /\ r_lfen s = false /\ r_connlock s = r_rtlock s /\ r_mtype s <> MOtherType /\
  r_lvtrip s = false /\ r_hvtrip s = false /\ r_lvmc s = false /\ r_hvmc s = false /\
  r_trip s = false /\ r_mc s = false /\ r_conn s = true /\
  (forall z, In z (r_lv s) -> fresh_zone z) /\ (forall z, In z (r_hv s) -> fresh_zone z).

Lemma get_V_ok s m : r_mtype s <> MOtherType -> get_Vrms_measured s m = Ok (volt (r_mtype s) m).
Proof. unfold get_Vrms_measured, volt. destruct (r_mtype s); congruence. Qed.

Lemma urf_ok s m t : r_lfen s = false -> r_mtype s <> MOtherType ->
  exists s', update_ridethrough_flags s m t = (s', Ok tt).
Proof.
  intros Hl Hm. unfold update_ridethrough_flags. destruct (qlt (r_rtlock s) t); [|eauto].
  set (s0 := up_locks s t (r_connlock s)).
  assert (P : r_mtype s0 <> MOtherType /\ r_lfen s0 = false) by (split; auto). clearbody s0. clear s Hl Hm.
  assert (PL : forall s m, r_mtype s <> MOtherType /\ r_lfen s = false ->
     exists s1, (if r_lven s then LVRT s m t else (s, Ok tt)) = (s1, Ok tt) /\ r_mtype s1 <> MOtherType /\ r_lfen s1 = false).
  { intros s m' [A B]. destruct (r_lven s); [|eauto]. unfold LVRT. rewrite get_V_ok by auto.
    destruct (qlt _ _); [|eauto]. destruct (zones_loop _ _ _ _) as [[za zb] zc]. eexists. split; [reflexivity|auto]. }
  assert (PH : forall s m, r_mtype s <> MOtherType /\ r_lfen s = false ->
     exists s1, (if r_hven s then HVRT s m t else (s, Ok tt)) = (s1, Ok tt) /\ r_mtype s1 <> MOtherType /\ r_lfen s1 = false).
  { intros s m' [A B]. destruct (r_hven s); [|eauto]. unfold HVRT. rewrite get_V_ok by auto.
    destruct (qlt _ _); [|eauto]. destruct (zones_loop _ _ _ _) as [[za zb] zc]. eexists. split; [reflexivity|auto]. }
  destruct (PL s0 m P) as (s1 & E1 & P1). rewrite E1.
  destruct (PH s1 m P1) as (s2 & E2 & P2). rewrite E2. destruct P2 as [_ P2]. rewrite P2. eauto.
Qed.

Lemma quiet_eval s t m : quiet s ->
  (forall z, In z (r_lv s) -> z_V z * r_vref s <= volt (r_mtype s) m) ->
  (forall z, In z (r_hv s) -> volt (r_mtype s) m <= z_V z * r_vref s) ->
  exists s', rt_eval s (t, m) = (s', Ok tt) /\ quiet s' /\ settings s' = settings s /\
    r_lv s' = r_lv s /\ r_hv s' = r_hv s /\ outputs s' = outputs s.
Proof.
  intros (He & Hlf & Hk & Hm & Q1 & Q2 & Q3 & Q4 & Q5 & Q6 & Q7 & Fl & Fh) HL HH.
  destruct (urf_ok s m t Hlf Hm) as (s1 & E1).
  destruct (zones_still (fun z => qlt (volt (r_mtype s) m) (z_V z * r_vref s)) (fun z => qlt (z_V z * r_vref s) (volt (r_mtype s) m)) t (r_lv s)) as (Z1 & Z2 & Z3).
  { intros z Hz. split; auto. apply qlt_false. auto. }
  destruct (zones_still (fun z => qlt (z_V z * r_vref s) (volt (r_mtype s) m)) (fun z => qlt (volt (r_mtype s) m) (z_V z * r_vref s)) t (r_hv s)) as (Y1 & Y2 & Y3).
  { intros z Hz. split; auto. apply qlt_false. auto. }
  assert (Hflag : r_trip s1 = false /\ r_mc s1 = false).
  { destruct (qlt (r_rtlock s) t) eqn:Ep.
    - destruct He as [He1 He2].
      destruct (urf_cases s m t s1 He1 He2 E1 Ep) as (_ & _ & _ & U4 & U5 & U6 & U7 & U8 & U9 & _).
      assert (Z2' : newly (lvz (r_vref s) (volt (r_mtype s) m) t) (r_lv s) = false) by exact Z2.
      assert (Y2' : newly (hvz (r_vref s) (volt (r_mtype s) m) t) (r_hv s) = false) by exact Y2.
      assert (Z3' : lvmc' s (volt (r_mtype s) m) t = false) by (unfold lvmc'; rewrite Q3; exact Z3).
      assert (Y3' : hvmc' s (volt (r_mtype s) m) t = false) by (unfold hvmc'; rewrite Q4; exact Y3).
      rewrite Z2', Q1 in U4. rewrite Y2', Q2 in U5. rewrite Z3', Q3 in U6. rewrite Y3', Q4 in U7.
      rewrite U8, U9, U4, U5, U6, U7. destruct (qlt (r_tstable s) t); auto.
    - rewrite urf_unprocessed in E1 by auto. injection E1 as <-. auto. }
  destruct Hflag as [Ht1 Hm1].
  destruct (urf_conn s m t s1 _ Hlf E1) as (C1 & C2 & C3 & C4 & C5 & C6 & C7).
  assert (Hd : exists s', disconnect_or_reconnect s1 m t = (s', Ok tt)).
  { unfold disconnect_or_reconnect. destruct (qlt (r_connlock s1) t); cbn [up_locks r_conn r_trip r_mc];
      rewrite C1, Q7, ?Ht1, ?Hm1; cbn [orb negb up_locks r_conn]; rewrite ?C1, ?Q7; eauto. }
  destruct Hd as (s' & Ed).
  assert (E : rt_eval s (t, m) = (s', Ok tt)) by (unfold rt_eval; rewrite E1; exact Ed).
  exists s'. split; auto.
  destruct (eval_flags s t m s' He E) as (U1 & U2 & U3 & U4 & U5 & U6 & U7 & U8 & U9 & U10 & U11). cbv zeta in *.
  destruct (eval_conn s t m s' He Hlf Hk E) as (D1 & _ & D3).
  destruct (settings_inj _ _ U1) as (_ & _ & S3 & _ & _ & _ & _ & _ & S9 & _).
  assert (V2 : r_lv s' = r_lv s) by (rewrite U2; destruct (_ && _)%bool; [exact Z1|auto]).
  assert (V3 : r_hv s' = r_hv s) by (rewrite U3; destruct (_ && _)%bool; [exact Y1|auto]).
  assert (V4 : r_lvtrip s' = false) by (rewrite U4; destruct (_ && _)%bool; [rewrite Q1; exact Z2|auto]).
  assert (V5 : r_hvtrip s' = false) by (rewrite U5; destruct (_ && _)%bool; [rewrite Q2; exact Y2|auto]).
  assert (V6 : r_lvmc s' = false) by (rewrite U6; destruct (_ && _)%bool; [unfold lvmc'; rewrite Q3; exact Z3|auto]).
  assert (V7 : r_hvmc s' = false) by (rewrite U7; destruct (_ && _)%bool; [unfold hvmc'; rewrite Q4; exact Y3|auto]).
  assert (V8 : r_trip s' = false) by (rewrite U8, V4, V5; destruct (qlt _ _); auto).
  assert (V9 : r_mc s' = false) by (rewrite U9, V6, V7; destruct (qlt _ _); auto).
  assert (V10 : r_conn s' = true).
  { unfold cstep in D1. rewrite V8, V9, Q7 in D1. cbn [orb] in D1. destruct (qlt (r_rtlock s) t); congruence. }
  split; [|auto 6].
  unfold quiet. rewrite V2, V3, S3, S9, U10, U11, Hk. 
  split; [eapply enabled_settings; eauto|]. repeat (split; [assumption || reflexivity|]). auto.
Qed.

(** the whole run succeeds, sets no flag, and leaves every reference alone *)
Theorem C18_healthy_voltage :
  forall s0 xs, initial s0 -> r_lfen s0 = false -> r_mtype s0 <> MOtherType ->
  (forall x z, In x xs -> In z (r_lv s0) -> z_V z * r_vref s0 <= volt (r_mtype s0) (snd x)) ->
  (forall x z, In x xs -> In z (r_hv s0) -> volt (r_mtype s0) (snd x) <= z_V z * r_vref s0) ->
  exists s, rt_run s0 xs = (s, Ok tt) /\
    r_lvtrip s = false /\ r_hvtrip s = false /\ r_trip s = false /\ r_mc s = false /\ r_conn s = true /\
    r_vve s = r_vve s0 /\ r_qref s = r_qref s0 /\ r_ppv s = r_ppv s0 /\ r_iref s = r_iref s0 /\ r_vdc s = r_vdc s0.
Proof.
  intros s0 xs Hi Hlf Hmt.
  assert (Hq : quiet s0).
  { destruct (initial_facts _ Hi) as (K1 & K2 & _ & _ & K3 & K4 & K5 & K6 & K7 & K8 & K9 & _ & K10 & K11).
    pose proof (initial_rinv _ Hi) as I. unfold quiet.
    split; [apply I|]. repeat (split; [congruence|]). auto. }
  clear Hi Hlf Hmt. revert s0 Hq. induction xs as [|[t m] xs IH]; intros s0 Hq HL HH.
  - exists s0. split; [reflexivity|]. destruct Hq as (_ & _ & _ & _ & Q1 & Q2 & Q3 & Q4 & Q5 & Q6 & Q7 & _). auto 20.
  - destruct (quiet_eval s0 t m Hq) as (s1 & E & Hq1 & S & L & H & O).
    + intros z Hz. apply (HL (t, m) z); simpl; auto.
    + intros z Hz. apply (HH (t, m) z); simpl; auto.
    + destruct (settings_inj _ _ S) as (S1 & _ & S3 & _).
      destruct (IH s1 Hq1) as (s & Er & R).
      * intros x z Hx Hz. rewrite S1, S3. rewrite L in Hz. apply HL; simpl; auto.
      * intros x z Hx Hz. rewrite S1, S3. rewrite H in Hz. apply HH; simpl; auto.
      * exists s. split; [cbn [rt_run]; rewrite E; exact Er|].
        unfold outputs in O. injection O as O1 O2 O3 O4 O5 O6. rewrite <- O1, <- O3, <- O4, <- O5, <- O6. exact R.
Qed.
Print Assumptions C18_healthy_voltage.

Example C18_hypotheses_met :
  forall x z, In x [smp (1#10) 1; smp (1#5) (89#100); smp 3 (105#100)] ->
  (In z (r_lv (tmpl false)) -> z_V z * r_vref (tmpl false) <= volt MMinimum (snd x)) /\
  (In z (r_hv (tmpl false)) -> volt MMinimum (snd x) <= z_V z * r_vref (tmpl false)).
Proof.
  intros x z Hx. split; intros Hz; simpl in Hx, Hz; intuition subst; vm_compute; discriminate.
Qed.

(** * C22 *)
Theorem C22_disconnect_only_after_delay :
  forall s0 xs s t m s', initial s0 -> r_lfen s0 = false ->
  rt_run s0 xs = (s, Ok tt) -> rt_eval s (t, m) = (s', Ok tt) ->
  r_conn s = true -> r_conn s' = false ->
  flagged s' = true /\ (forall x, In x xs -> fst x < t) /\
  exists pre t1 m1 mid, xs = pre ++ (t1, m1) :: mid /\
    flagged (state_after s0 (pre ++ [(t1, m1)])) = true /\
    (forall a b, mid = a ++ b -> r_conn (state_after s0 (pre ++ (t1, m1) :: a)) = true) /\
    r_disdelay s0 <= t - t1.
Proof.
  intros s0 xs s t m s' Hi Hlf Hr He Hc Hc'.
  pose proof (run_rinv _ _ _ (initial_rinv _ Hi) Hr) as Hs.
  pose proof (settings_inj _ _ (run_lfen _ _ _ Hi Hr)) as S. destruct S as (_ & _ & _ & S4 & _ & _ & _ & _ & S9 & _).
  assert (Hl : r_lfen s = false) by congruence.
  destruct (eval_conn s t m s' (ri_en _ Hs) Hl (ri_lock _ Hs) He) as (C & _).
  destruct (qlt (r_rtlock s) t) eqn:Ep; [|congruence]. unfold cstep in C. rewrite Hc in C.
  unfold flagged at 1. destruct (r_trip s' || r_mc s')%bool; [|congruence]. split; auto.
  split; [apply (new_time s0 xs s t Hi Hr); auto|].
  destruct (qeq (r_tdis s) 0) eqn:Eq; [congruence|].
  destruct (qlt (t - r_tdis s) (r_disdelay s)) eqn:Ed; [congruence|]. qb.
  destruct (timers s0 xs s Hi Hlf Hr) as [ID _ _ _ _ _ _ _ _].
  destruct ID as [Hz|(Hp & pre & m1 & mid & Hx & Hf & Ha)]; [rewrite Hz in Eq; exfalso; apply Eq; reflexivity|].
  exists pre, (r_tdis s), m1, mid. rewrite <- S4. auto.
Qed.
Print Assumptions C22_disconnect_only_after_delay.

(** and it does disconnect then *)
Theorem C22_disconnect_happens :
  forall s0 pre t1 m1 mid s t m s', initial s0 -> r_lfen s0 = false ->
  rt_run s0 (pre ++ (t1, m1) :: mid) = (s, Ok tt) -> rt_eval s (t, m) = (s', Ok tt) ->
  0 < t1 -> (forall x, In x pre -> fst x < t1) ->
  (forall a b, mid = a ++ b -> r_conn (state_after s0 (pre ++ (t1, m1) :: a)) = true) ->
  flagged (state_after s0 (pre ++ [(t1, m1)])) = true ->
  (forall x, In x (pre ++ (t1, m1) :: mid) -> fst x < t) -> r_disdelay s0 <= t - t1 ->
  flagged s' = true -> r_conn s' = false.
Proof.
  intros s0 pre t1 m1 mid s t m s' Hi Hlf Hr He Ht1 Hn1 Hconn Hfl Hn Hd Hf'.
  (* timer is running since t1 at the latest *)
  assert (G : forall a b, mid = a ++ b -> let x := state_after s0 (pre ++ (t1, m1) :: a) in 0 < r_tdis x <= t1).
  { intros a. induction a as [|[t2 m2] a IH] using rev_ind; intros b Hab x.
    - replace (pre ++ (t1, m1) :: mid) with ((pre ++ [(t1, m1)]) ++ mid) in Hr by (rewrite <- app_assoc; reflexivity).
      apply run_app in Hr as (s1 & R1 & _). pose proof R1 as R1'. apply run_app in R1 as (sp & Rp & R1).
      apply run_cons in R1 as (s1' & E1 & R1). injection R1 as ->.
      unfold x, state_after in *. rewrite R1' in *. cbn [fst] in *.
      pose proof (run_rinv _ _ _ (initial_rinv _ Hi) Rp) as Hs.
      pose proof (settings_inj _ _ (run_lfen _ _ _ Hi Rp)) as S. destruct S as (_ & _ & _ & S4 & _ & _ & _ & _ & S9 & _).
      assert (Hl : r_lfen sp = false) by congruence.
      destruct (eval_conn sp t1 m1 s1 (ri_en _ Hs) Hl (ri_lock _ Hs) E1) as (C & _).
      assert (Ep : qlt (r_rtlock sp) t1 = true) by (apply (new_time s0 pre sp t1 Hi Rp); auto). rewrite Ep in C.
      specialize (Hconn [] mid eq_refl). rewrite R1' in Hconn. cbn [fst] in Hconn.
      destruct (timers s0 pre sp Hi Hlf Rp) as [_ _ TC TD _ T0 _ TL _]. qb.
      unfold cstep in C. unfold flagged in Hfl. rewrite Hfl in C. rewrite Hconn in C.
      destruct (r_conn sp) eqn:Ec.
      + destruct (qeq (r_tdis sp) 0) eqn:Eq; [injection C as C1 C2; rewrite C1; split; lra|].
        destruct (qlt (t1 - r_tdis sp) (r_disdelay sp)); [|discriminate]. injection C as C1 C2. rewrite C1. qb.
        split; [|lra]. destruct (Qlt_le_dec 0 (r_tdis sp)); auto. exfalso. apply Eq. lra.
      + (* disconnected and flagged stays disconnected *)
        destruct (r_trip s1); [discriminate|]. cbn [orb] in Hfl. rewrite Hfl in C. destruct (qlt _ _); discriminate.
    - specialize (IH ((t2, m2) :: b)). rewrite Hab, <- app_assoc in IH. specialize (IH eq_refl).
      assert (Hab' : mid = (a ++ [(t2, m2)]) ++ b) by auto.
      replace (pre ++ (t1, m1) :: mid) with ((pre ++ (t1, m1) :: (a ++ [(t2, m2)])) ++ b) in Hr
        by (rewrite Hab', <- !app_assoc; simpl; rewrite <- app_assoc; reflexivity).
      apply run_app in Hr as (s1 & R1 & _). pose proof R1 as R1'.
      replace (pre ++ (t1, m1) :: a ++ [(t2, m2)]) with ((pre ++ (t1, m1) :: a) ++ [(t2, m2)]) in R1 by (rewrite <- app_assoc; reflexivity).
      apply run_app in R1 as (sp & Rp & R1).
      apply run_cons in R1 as (s1' & E1 & R1). injection R1 as ->.
      unfold x, state_after in *. rewrite R1', Rp in *. cbn [fst] in *.
      pose proof (run_rinv _ _ _ (initial_rinv _ Hi) Rp) as Hs.
      pose proof (settings_inj _ _ (run_lfen _ _ _ Hi Rp)) as S. destruct S as (_ & _ & _ & S4 & _ & _ & _ & _ & S9 & _).
      assert (Hl : r_lfen sp = false) by congruence.
      destruct (eval_conn sp t2 m2 s1 (ri_en _ Hs) Hl (ri_lock _ Hs) E1) as (C & _).
      pose proof (Hconn a ((t2, m2) :: b)) as Ka. rewrite Hab, <- app_assoc in Ka. specialize (Ka eq_refl). rewrite Rp in Ka.
      pose proof (Hconn (a ++ [(t2, m2)]) b Hab) as Kb. rewrite R1' in Kb. cbn [fst] in *.
      unfold cstep in C. rewrite Ka, Kb in C.
      assert (Eq : qeq (r_tdis sp) 0 = false) by (apply qeq_false; lra). rewrite Eq in C.
      destruct (qlt (r_rtlock sp) t2); [|congruence].
      destruct (r_trip s1 || r_mc s1)%bool; [|congruence]. destruct (qlt _ _); congruence. }
  specialize (G mid [] (eq_sym (app_nil_r _))). pose proof (Hconn mid [] (eq_sym (app_nil_r _))) as Hc.
  unfold state_after in *. rewrite Hr in *. cbn [fst] in *. cbv zeta in G.
  pose proof (run_rinv _ _ _ (initial_rinv _ Hi) Hr) as Hs.
  pose proof (settings_inj _ _ (run_lfen _ _ _ Hi Hr)) as S. destruct S as (_ & _ & _ & S4 & _ & _ & _ & _ & S9 & _).
  assert (Hl : r_lfen s = false) by congruence.
  destruct (eval_conn s t m s' (ri_en _ Hs) Hl (ri_lock _ Hs) He) as (C & _).
  assert (Ht : 0 < t).
  { assert (Hx : In (t1, m1) (pre ++ (t1, m1) :: mid)) by (apply in_or_app; right; left; auto). apply Hn in Hx. simpl in Hx. lra. }
  assert (Ep : qlt (r_rtlock s) t = true) by (apply (new_time s0 _ s t Hi Hr); auto). rewrite Ep in C.
  unfold cstep in C. unfold flagged in Hf'. rewrite Hc, Hf' in C.
  assert (Eq : qeq (r_tdis s) 0 = false) by (apply qeq_false; lra). rewrite Eq in C.
  assert (Ed : qlt (t - r_tdis s) (r_disdelay s) = false) by (apply qlt_false; rewrite S4; lra). rewrite Ed in C. congruence.
Qed.
Print Assumptions C22_disconnect_happens.

Example C22_hypotheses_met :
  let xs := [smp (1#10) (4#10); smp (7#10) (4#10); smp (705#1000) (4#10)] in
  let s := fst (rt_run (tmpl false) xs) in
  snd (rt_run (tmpl false) xs) = Ok tt /\ r_conn s = true /\ flagged s = true /\
  r_conn (fst (rt_eval s (smp (71#100) (4#10)))) = false.
Proof. vm_compute. auto. Qed.

(** * C23 *)
(** A flag that was set once and cleared leaves the timer running: a second
    disturbance disconnects at its very first flagged evaluation. *)
Theorem C23_fresh_delay_refuted :
  exists s0 xs s x s', initial s0 /\ r_lfen s0 = false /\ 0 < r_disdelay s0 /\
    rt_run s0 xs = (s, Ok tt) /\ rt_eval s x = (s', Ok tt) /\
    flagged s = false /\ r_conn s = true /\ flagged s' = true /\ r_conn s' = false.
Proof.
  exists (tmpl false), [smp (1#10) (4#10); smp (7#10) (4#10); smp (8#10) 1; smp (9#10) (4#10); smp (13#10) (4#10)].
  eexists. exists (smp (15#10) (4#10)). eexists.
  split; [apply tmpl_initial|]. split; [reflexivity|]. split; [reflexivity|].
  split; [vm_compute; reflexivity|]. split; [vm_compute; reflexivity|]. vm_compute. auto.
Qed.
Print Assumptions C23_fresh_delay_refuted.

(** true for the first disturbance: if no flag was set before, the first flagged
    evaluation never disconnects *)
Theorem C23_first_disturbance_partial :
  forall s0 xs s t m s', initial s0 -> r_lfen s0 = false ->
  rt_run s0 xs = (s, Ok tt) -> rt_eval s (t, m) = (s', Ok tt) ->
  (forall a b, xs = a ++ b -> flagged (state_after s0 a) = false) ->
  r_conn s = true -> r_conn s' = true.
Proof.
  intros s0 xs s t m s' Hi Hlf Hr He Hno Hc. destruct (r_conn s') eqn:E; auto.
  destruct (C22_disconnect_only_after_delay s0 xs s t m s' Hi Hlf Hr He Hc E) as (_ & _ & pre & t1 & m1 & mid & Hx & Hf & _).
  specialize (Hno (pre ++ [(t1, m1)]) mid). rewrite Hno in Hf; [discriminate|]. rewrite <- app_assoc. exact Hx.
Qed.
Print Assumptions C23_first_disturbance_partial.

(** * C24 *)
Theorem C24_reconnect_needs_delay :
  forall s0 xs s t m s', initial s0 -> r_lfen s0 = false ->
  rt_run s0 xs = (s, Ok tt) -> rt_eval s (t, m) = (s', Ok tt) ->
  r_conn s = false -> r_conn s' = true ->
  flagged s' = false /\ (forall x, In x xs -> fst x < t) /\
  exists pre t1 m1 mid, xs = pre ++ (t1, m1) :: mid /\ r_recdelay s0 < t - t1 /\
    forall a b, mid = a ++ b ->
      flagged (state_after s0 (pre ++ (t1, m1) :: a)) = false /\
      r_conn (state_after s0 (pre ++ (t1, m1) :: a)) = false.
Proof.
  intros s0 xs s t m s' Hi Hlf Hr He Hc Hc'.
  pose proof (run_rinv _ _ _ (initial_rinv _ Hi) Hr) as Hs.
  pose proof (settings_inj _ _ (run_lfen _ _ _ Hi Hr)) as S. destruct S as (_ & _ & _ & S4 & S5 & _ & _ & _ & S9 & _).
  assert (Hl : r_lfen s = false) by congruence.
  destruct (eval_conn s t m s' (ri_en _ Hs) Hl (ri_lock _ Hs) He) as (C & _).
  pose proof (eval_rinv _ _ _ Hs He) as Hs'.
  destruct (eval_flags s t m s' (ri_en _ Hs) He) as (_ & _ & _ & U4 & U5 & _). cbv zeta in *.
  destruct (qlt (r_rtlock s) t) eqn:Ep; [|congruence]. unfold cstep in C. rewrite Hc in C.
  unfold flagged at 1. destruct (r_trip s') eqn:Et; [congruence|]. destruct (r_mc s') eqn:Em; [congruence|].
  split; [reflexivity|]. split; [apply (new_time s0 xs s t Hi Hr); auto|].
  destruct (qlt 0 t); [|congruence]. destruct (qlt 0 (r_trec s)) eqn:E1; [|destruct (qeq _ _); congruence].
  destruct (qlt (r_recdelay s) (t - r_trec s)) eqn:E2; [|congruence]. qb.
  assert (Htr : r_trip s = false).
  { rewrite (ri_trip _ Hs). rewrite (ri_trip _ Hs'), U4, U5 in Et. destruct (_ && _)%bool; [|auto].
    destruct (r_lvtrip s), (r_hvtrip s); simpl in *; auto; try discriminate. rewrite orb_true_r in Et. discriminate. }
  destruct (timers s0 xs s Hi Hlf Hr) as [_ IR _ _ _ _ _ _ _].
  destruct IR as [IR|[IR|(Hp & pre & m1 & mid & Hx & Ha)]]; [congruence|rewrite IR in E1; exfalso; lra|].
  exists pre, (r_trec s), m1, mid. rewrite <- S5. split; auto. split; auto.
  intros a b Hab. destruct (Ha a b Hab). auto.
Qed.
Print Assumptions C24_reconnect_needs_delay.

(** and it does reconnect after such an interval *)
Theorem C24_reconnect_happens :
  forall s0 pre t1 m1 mid s t m s', initial s0 -> r_lfen s0 = false ->
  rt_run s0 (pre ++ (t1, m1) :: mid) = (s, Ok tt) -> rt_eval s (t, m) = (s', Ok tt) ->
  0 < t1 -> (forall x, In x pre -> fst x < t1) ->
  (forall a b, mid = a ++ b ->
      flagged (state_after s0 (pre ++ (t1, m1) :: a)) = false /\
      r_conn (state_after s0 (pre ++ (t1, m1) :: a)) = false) ->
  (forall x, In x (pre ++ (t1, m1) :: mid) -> fst x < t) -> r_recdelay s0 < t - t1 ->
  flagged s' = false -> r_conn s' = true.
Proof.
  intros s0 pre t1 m1 mid s t m s' Hi Hlf Hr He Ht1 Hn1 Hq Hn Hd Hf'.
  assert (G : forall a b, mid = a ++ b -> let x := state_after s0 (pre ++ (t1, m1) :: a) in 0 < r_trec x <= t1).
  { intros a. induction a as [|[t2 m2] a IH] using rev_ind; intros b Hab x.
    - replace (pre ++ (t1, m1) :: mid) with ((pre ++ [(t1, m1)]) ++ mid) in Hr by (rewrite <- app_assoc; reflexivity).
      apply run_app in Hr as (s1 & R1 & _). pose proof R1 as R1'. apply run_app in R1 as (sp & Rp & R1).
      apply run_cons in R1 as (s1' & E1 & R1). injection R1 as ->.
      destruct (Hq [] mid eq_refl) as [Qf Qc].
      unfold x, state_after in *. rewrite R1' in *. cbn [fst] in *.
      destruct (timers s0 _ s1 Hi Hlf R1') as [_ _ _ _ _ _ TL _ TR].
      split; [apply TR; auto|].
      pose proof (run_rinv _ _ _ (initial_rinv _ Hi) Rp) as Hs.
      destruct (eval_flags sp t1 m1 s1 (ri_en _ Hs) E1) as (_ & _ & _ & _ & _ & _ & _ & _ & _ & U & _). cbv zeta in U.
      assert (Ep : qlt (r_rtlock sp) t1 = true) by (apply (new_time s0 pre sp t1 Hi Rp); auto). rewrite Ep in U. congruence.
    - specialize (IH ((t2, m2) :: b)). rewrite Hab, <- app_assoc in IH. specialize (IH eq_refl).
      assert (Hab' : mid = (a ++ [(t2, m2)]) ++ b) by auto.
      replace (pre ++ (t1, m1) :: mid) with ((pre ++ (t1, m1) :: (a ++ [(t2, m2)])) ++ b) in Hr
        by (rewrite Hab', <- !app_assoc; simpl; rewrite <- app_assoc; reflexivity).
      apply run_app in Hr as (s1 & R1 & _). pose proof R1 as R1'.
      replace (pre ++ (t1, m1) :: a ++ [(t2, m2)]) with ((pre ++ (t1, m1) :: a) ++ [(t2, m2)]) in R1 by (rewrite <- app_assoc; reflexivity).
      apply run_app in R1 as (sp & Rp & R1).
      apply run_cons in R1 as (s1' & E1 & R1). injection R1 as ->.
      unfold x, state_after in *. rewrite R1', Rp in *. cbn [fst] in *.
      pose proof (run_rinv _ _ _ (initial_rinv _ Hi) Rp) as Hs.
      pose proof (settings_inj _ _ (run_lfen _ _ _ Hi Rp)) as S. destruct S as (_ & _ & _ & S4 & _ & _ & _ & _ & S9 & _).
      assert (Hl : r_lfen sp = false) by congruence.
      destruct (eval_conn sp t2 m2 s1 (ri_en _ Hs) Hl (ri_lock _ Hs) E1) as (C & _).
      pose proof (Hq a ((t2, m2) :: b)) as Ka. rewrite Hab, <- app_assoc in Ka. specialize (Ka eq_refl). rewrite Rp in Ka.
      pose proof (Hq (a ++ [(t2, m2)]) b Hab) as Kb. rewrite R1' in Kb. cbn [fst] in *.
      destruct Ka as [_ Ka], Kb as [Kf Kb].
      unfold flagged in Kf. apply orb_false_iff in Kf as [Kf1 Kf2].
      unfold cstep in C. rewrite Ka, Kb, Kf1, Kf2 in C.
      assert (Er : qlt 0 (r_trec sp) = true) by (apply qlt_iff; tauto). rewrite Er in C.
      destruct (qlt (r_rtlock sp) t2); [|replace (r_trec s1) with (r_trec sp) by congruence; auto].
      destruct (qlt 0 t2); [destruct (qlt _ _); [discriminate|]|];
        (replace (r_trec s1) with (r_trec sp) by congruence; auto). }
  specialize (G mid [] (eq_sym (app_nil_r _))). pose proof (Hq mid [] (eq_sym (app_nil_r _))) as [_ Hc].
  unfold state_after in *. rewrite Hr in *. cbn [fst] in *. cbv zeta in G.
  pose proof (run_rinv _ _ _ (initial_rinv _ Hi) Hr) as Hs.
  pose proof (settings_inj _ _ (run_lfen _ _ _ Hi Hr)) as S. destruct S as (_ & _ & _ & S4 & S5 & _ & _ & _ & S9 & _).
  assert (Hl : r_lfen s = false) by congruence.
  destruct (eval_conn s t m s' (ri_en _ Hs) Hl (ri_lock _ Hs) He) as (C & _).
  assert (Ht : 0 < t).
  { assert (Hx : In (t1, m1) (pre ++ (t1, m1) :: mid)) by (apply in_or_app; right; left; auto). apply Hn in Hx. simpl in Hx. lra. }
  assert (Ep : qlt (r_rtlock s) t = true) by (apply (new_time s0 _ s t Hi Hr); auto). rewrite Ep in C.
  unfold flagged in Hf'. apply orb_false_iff in Hf' as [Kf1 Kf2].
  unfold cstep in C. rewrite Hc, Kf1, Kf2 in C.
  assert (Et : qlt 0 t = true) by (apply qlt_iff; auto). rewrite Et in C.
  assert (Er : qlt 0 (r_trec s) = true) by (apply qlt_iff; tauto). rewrite Er in C.
  assert (Ed : qlt (r_recdelay s) (t - r_trec s) = true) by (apply qlt_iff; rewrite S5; lra). rewrite Ed in C. congruence.
Qed.
Print Assumptions C24_reconnect_happens.

Example C24_hypotheses_met :
  let xs := [smp (1#10) (4#10); smp (7#10) (4#10); smp (72#100) (4#10); smp (8#10) 1; smp 2 1; smp (25#10) 1] in
  let s := fst (rt_run (tmpl false) xs) in
  snd (rt_run (tmpl false) xs) = Ok tt /\ r_conn s = false /\ flagged s = false /\
  r_conn (fst (rt_eval s (smp (26#10) 1))) = true.
Proof. vm_compute. auto. Qed.

(** * C25 *)
Theorem C25_references_zero_when_disconnected :
  forall s t m s', rt_eval s (t, m) = (s', Ok tt) -> r_conn s' = false ->
  r_qref s' = 0 /\ r_ppv s' = 0 /\ r_iref s' = ((0, 0), (0, 0), (0, 0)) /\ vcur (r_vdc s') = m_vdc m /\
  r_vve s' = false /\ r_vwe s' = false.
Proof.
  intros s t m s' H Hc. apply eval_split in H as (s1 & _ & E). unfold disconnect_or_reconnect in E.
  match type of E with (let '(a, b) := ?X in _) = _ => destruct X as [s2 r2] end.
  destruct r2 as [[]|]; [|discriminate]. injection E as <-. revert Hc.
  destruct (r_conn s2) eqn:E2; cbn [negb]; [congruence|]. intros _. unfold DER_disconnect. proj.
  repeat split. 
Qed.
Print Assumptions C25_references_zero_when_disconnected.

Example C25_hypotheses_met :
  let xs := [smp (1#10) (4#10); smp (7#10) (4#10)] in
  let s := fst (rt_run (tmpl false) xs) in
  snd (rt_eval s (smp (72#100) (4#10))) = Ok tt /\ r_conn (fst (rt_eval s (smp (72#100) (4#10)))) = false.
Proof. vm_compute. auto. Qed.

(** * C26 *)
(** Volt-VAR control is switched off by the first disconnection and never on again. *)
Theorem C26_volt_var_resumes_refuted :
  (forall s0 xs ys s s', initial s0 -> r_lfen s0 = false -> rt_run s0 xs = (s, Ok tt) -> rt_run s ys = (s', Ok tt) ->
     xs <> [] -> r_conn s = false -> r_vve s' = false) /\
  exists s0 xs ys s s', initial s0 /\ r_vve s0 = true /\ rt_run s0 xs = (s, Ok tt) /\ rt_run s ys = (s', Ok tt) /\
    r_conn s = false /\ r_conn s' = true /\ r_vve s' = false.
Proof.
  split.
  - intros s0 xs ys s s' Hi Hlf H1 H2 Hne Hc.
    assert (Hv : r_vve s = false).
    { destruct (rev xs) as [|[t m] r] eqn:E; [destruct Hne; rewrite <- (rev_involutive xs), E; reflexivity|].
      assert (Hx : xs = rev r ++ [(t, m)]) by (rewrite <- (rev_involutive xs), E; reflexivity).
      rewrite Hx in H1. apply run_app in H1 as (s1 & _ & H1). apply run_cons in H1 as (s2 & E1 & H1). injection H1 as ->.
      apply (C25_references_zero_when_disconnected _ _ _ _ E1 Hc). }
    pose proof (run_rinv _ _ _ (initial_rinv _ Hi) H1) as Hs.
    assert (Hl : r_lfen s = false).
    { pose proof (settings_inj _ _ (run_lfen _ _ _ Hi H1)) as A. decompose [and] A. congruence. }
    clear - Hs Hl Hv H2. revert s Hs Hl Hv H2.
    induction ys as [|[t m] ys IH]; intros s Hs Hl Hv H2; [injection H2 as <-; auto|].
    apply run_cons in H2 as (s1 & E & H2). apply (IH s1); auto.
    + eapply eval_rinv; eauto.
    + destruct (eval_flags s t m s1 (ri_en _ Hs) E) as (U1 & _). apply settings_inj in U1. decompose [and] U1. congruence.
    + destruct (eval_conn s t m s1 (ri_en _ Hs) Hl (ri_lock _ Hs) E) as (_ & [D|[_ D]] & _); congruence.
  - exists (tmpl false), [smp (1#10) (4#10); smp (7#10) (4#10); smp (72#100) (4#10)], [smp (8#10) 1; smp 2 1; smp (26#10) 1].
    do 2 eexists. split; [apply tmpl_initial|]. split; [reflexivity|].
    split; [vm_compute; reflexivity|]. split; [vm_compute; reflexivity|]. vm_compute. auto.
Qed.
Print Assumptions C26_volt_var_resumes_refuted.

(** while the DER stays connected its Volt-VAR enable is untouched *)
Theorem C26_untouched_while_connected_partial :
  forall s0 xs s, initial s0 -> r_lfen s0 = false -> rt_run s0 xs = (s, Ok tt) ->
  (forall a b, xs = a ++ b -> r_conn (state_after s0 a) = true) -> r_vve s = r_vve s0 /\ r_qref s = r_qref s0.
Proof.
  intros s0 xs s Hi Hlf. revert s. induction xs as [|[t m] xs IH] using rev_ind; intros s Hr Hc.
  - injection Hr as <-. auto.
  - pose proof Hr as Hall. apply run_app in Hr as (s1 & R1 & R2). apply run_cons in R2 as (s2 & E & R2). injection R2 as ->.
    pose proof (run_rinv _ _ _ (initial_rinv _ Hi) R1) as Hs.
    assert (Hl : r_lfen s1 = false).
    { pose proof (settings_inj _ _ (run_lfen _ _ _ Hi R1)) as A. decompose [and] A. congruence. }
    assert (C1 : r_conn s1 = true).
    { specialize (Hc xs [(t, m)] eq_refl). unfold state_after in Hc. rewrite R1 in Hc. auto. }
    assert (C2 : r_conn s = true).
    { specialize (Hc (xs ++ [(t, m)]) [] (eq_sym (app_nil_r _))). unfold state_after in Hc. rewrite Hall in Hc. auto. }
    destruct (eval_conn s1 t m s (ri_en _ Hs) Hl (ri_lock _ Hs) E) as (_ & _ & D).
    specialize (D C2 C1). unfold outputs in D. injection D as D1 D2 D3 D4 D5 D6. rewrite D1, D3. apply IH; auto.
    intros a b Hab. apply (Hc a (b ++ [(t, m)])). rewrite Hab, app_assoc. reflexivity.
Qed.
Print Assumptions C26_untouched_while_connected_partial.
