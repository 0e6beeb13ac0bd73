(** Run-level lemmas about the ride-through logic. *)
From Verif Require Import Base EventsModel VdcModel RTModel RTSpec RTProofs.

Definition rflags (s : rt) := (r_lv s, r_hv s, (r_lvtrip s, r_hvtrip s), (r_lvmc s, r_hvmc s)).
Definition outputs (s : rt) := (r_vve s, r_vwe s, r_qref s, r_ppv s, r_iref s, r_vdc s).

Definition lvmc' (s : rt) (V t : Q) : bool :=
  mc_fold (fun z => gmc (qlt V (z_V z * r_vref s)) (qlt (z_V z * r_vref s) V) t z) (r_lv s) (r_lvmc s).
Definition hvmc' (s : rt) (V t : Q) : bool :=
  mc_fold (fun z => gmc (qlt (z_V z * r_vref s) V) (qlt V (z_V z * r_vref s)) t z) (r_hv s) (r_hvmc s).
Definition newly (step : zone -> zone) (zs : list zone) : bool :=
  existsb (fun z => z_breach (step z) && negb (z_breach z))%bool zs.

Lemma get_V s m V : get_Vrms_measured s m = Ok V -> V = volt (r_mtype s) m.
Proof. unfold get_Vrms_measured, volt. destruct (r_mtype s); intros [= <-]; reflexivity. Qed.

Lemma LVRT_cases s m t s' : LVRT s m t = (s', Ok tt) ->
  let V := volt (r_mtype s) m in
  s' = if qlt (r_tstable s) t
       then up_lv s (map (lvz (r_vref s) V t) (r_lv s)) (r_lvtrip s || newly (lvz (r_vref s) V t) (r_lv s)) (lvmc' s V t)
       else s.
Proof.
  unfold LVRT. destruct (get_Vrms_measured s m) as [V|e] eqn:E; [|discriminate].
  apply get_V in E. subst V. cbv zeta. destruct (qlt (r_tstable s) t); [|congruence].
  erewrite zones_loop_eq by (intros; apply lv_zone_eq). intros [= <-]. reflexivity.
Qed.
Lemma HVRT_cases s m t s' : HVRT s m t = (s', Ok tt) ->
  let V := volt (r_mtype s) m in
  s' = if qlt (r_tstable s) t
       then up_hv s (map (hvz (r_vref s) V t) (r_hv s)) (r_hvtrip s || newly (hvz (r_vref s) V t) (r_hv s)) (hvmc' s V t)
       else s.
Proof.
  unfold HVRT. destruct (get_Vrms_measured s m) as [V|e] eqn:E; [|discriminate].
  apply get_V in E. subst V. cbv zeta. destruct (qlt (r_tstable s) t); [|congruence].
  erewrite zones_loop_eq by (intros; apply hv_zone_eq). intros [= <-]. reflexivity.
Qed.

Ltac proj := cbn [r_vref r_tstable r_mtype r_disdelay r_recdelay r_restore r_lven r_hven r_lfen r_delf r_setpoint r_lv r_hv r_lf r_lvtrip r_hvtrip r_lftrip r_lvmc r_hvmc r_trip r_mc r_conn r_rtlock r_connlock r_tdis r_trec r_vve r_vwe r_qref r_ppv r_iref r_vdc up_lv up_hv up_lf up_flags up_locks up_conn up_out fst snd].

(** reconnect logic leaves everything but connection, timers and Vdc alone *)
Lemma reconnect_frame s m t :
  let s' := fst (DER_reconnect_logic s m t) in
  settings s' = settings s /\ rflags s' = rflags s /\ r_lf s' = r_lf s /\ r_lftrip s' = r_lftrip s /\
  r_trip s' = r_trip s /\ r_mc s' = r_mc s /\ r_rtlock s' = r_rtlock s /\ r_connlock s' = r_connlock s /\
  r_tdis s' = r_tdis s /\
  (r_vve s', r_vwe s', r_qref s', r_ppv s', r_iref s') = (r_vve s, r_vwe s, r_qref s, r_ppv s, r_iref s).
Proof.
  unfold DER_reconnect_logic.
  destruct (get_Vrms_measured s m); [|proj; repeat split].
  destruct (r_conn s); [proj; repeat split|].
  destruct (r_mc s) eqn:Emc; [destruct (qlt 0 (r_trec s)); proj; repeat split; auto|].
  destruct (qlt 0 t); [|proj; repeat split; auto].
  destruct (qlt 0 (r_trec s)); [|destruct (qeq (r_trec s) 0); proj; repeat split; auto].
  destruct (qlt (r_recdelay s) (t - r_trec s)); [|proj; repeat split; auto].
  destruct (r_restore s) eqn:Er; [destruct (Vdc_ref_ramp (r_vdc s) t (r_setpoint s)) as [v r] eqn:Ev|];
    unfold settings, rflags; proj; repeat split; auto.
Qed.

Lemma FRT_frame s m t :
  let s' := fst (FRT s m t) in
  settings s' = settings s /\ rflags s' = rflags s /\
  r_trip s' = r_trip s /\ r_mc s' = r_mc s /\ r_rtlock s' = r_rtlock s /\ r_connlock s' = r_connlock s /\
  r_tdis s' = r_tdis s.
Proof.
  unfold FRT. destruct (qlt (r_tstable s) t).
  - destruct (r_lftrip s) eqn:El; cbn [negb].
    + destruct (reconnect_frame s m t) as (H1 & H2 & _ & _ & H3 & H4 & H5 & H6 & H7 & _). repeat split; auto.
    + match goal with |- context [existsb _ ?l] => destruct (existsb (fun z : fzone => qlt 0 (f_start z)) l) end;
        unfold settings, rflags; proj; repeat split.
  - unfold settings, rflags; proj; repeat split.
Qed.

(** update_ridethrough_flags when it does not raise *)
Lemma urf_unprocessed s m t : qlt (r_rtlock s) t = false -> update_ridethrough_flags s m t = (s, Ok tt).
Proof. unfold update_ridethrough_flags. intros ->. reflexivity. Qed.

Lemma urf_cases s m t s' :
  r_lven s = true -> r_hven s = true ->
  update_ridethrough_flags s m t = (s', Ok tt) -> qlt (r_rtlock s) t = true ->
  let V := volt (r_mtype s) m in
  let act := qlt (r_tstable s) t in
  settings s' = settings s /\
  r_lv s' = (if act then map (lvz (r_vref s) V t) (r_lv s) else r_lv s) /\
  r_hv s' = (if act then map (hvz (r_vref s) V t) (r_hv s) else r_hv s) /\
  r_lvtrip s' = (if act then r_lvtrip s || newly (lvz (r_vref s) V t) (r_lv s) else r_lvtrip s)%bool /\
  r_hvtrip s' = (if act then r_hvtrip s || newly (hvz (r_vref s) V t) (r_hv s) else r_hvtrip s)%bool /\
  r_lvmc s' = (if act then lvmc' s V t else r_lvmc s) /\
  r_hvmc s' = (if act then hvmc' s V t else r_hvmc s) /\
  r_trip s' = (r_lvtrip s' || r_hvtrip s')%bool /\ r_mc s' = (r_lvmc s' || r_hvmc s')%bool /\
  r_rtlock s' = t /\ r_connlock s' = r_connlock s /\ r_tdis s' = r_tdis s.
Proof.
  intros Hl Hh. unfold update_ridethrough_flags. intros H Hlk. rewrite Hlk in H. cbv zeta.
  assert (E0 : r_lven (up_locks s t (r_connlock s)) = true) by exact Hl. rewrite E0 in H.
  destruct (LVRT (up_locks s t (r_connlock s)) m t) as [s1 r1] eqn:E1.
  destruct r1 as [[]|]; [|discriminate]. apply LVRT_cases in E1. cbv zeta in E1.
  assert (E2h : r_hven s1 = true) by (subst s1; destruct (qlt _ _); exact Hh).
  rewrite E2h in H. destruct (HVRT s1 m t) as [s2 r2] eqn:E2. destruct r2 as [[]|]; [|discriminate].
  apply HVRT_cases in E2. cbv zeta in E2.
  assert (Ef : exists s3, (if r_lfen s2 then FRT s2 m t else (s2, Ok tt)) = (s3, Ok tt) /\
     s' = up_flags s3 (r_lvtrip s3 || r_hvtrip s3) (r_lvmc s3 || r_hvmc s3) /\
     settings s3 = settings s2 /\ rflags s3 = rflags s2 /\ r_rtlock s3 = r_rtlock s2 /\
     r_connlock s3 = r_connlock s2 /\ r_tdis s3 = r_tdis s2).
  { destruct (r_lfen s2).
    - destruct (FRT_frame s2 m t) as (F1 & F2 & F3 & F4 & F5 & F6 & F7).
      destruct (FRT s2 m t) as [s3 r3]. destruct r3 as [[]|]; [|discriminate].
      injection H as <-. exists s3. cbn [fst] in *. repeat split; auto.
    - injection H as <-. exists s2. repeat split. }
  destruct Ef as (s3 & _ & -> & F1 & F2 & F3 & F4 & F5). clear H.
  unfold rflags in F2. injection F2 as G1 G2 G3 G4 G5 G6.
  assert (A1 : r_lv s1 = (if qlt (r_tstable s) t then map (lvz (r_vref s) (volt (r_mtype s) m) t) (r_lv s) else r_lv s) /\
     r_lvtrip s1 = (if qlt (r_tstable s) t then r_lvtrip s || newly (lvz (r_vref s) (volt (r_mtype s) m) t) (r_lv s) else r_lvtrip s)%bool /\
     r_lvmc s1 = (if qlt (r_tstable s) t then lvmc' s (volt (r_mtype s) m) t else r_lvmc s) /\
     r_hv s1 = r_hv s /\ r_hvtrip s1 = r_hvtrip s /\ r_hvmc s1 = r_hvmc s /\ settings s1 = settings s /\
     r_rtlock s1 = t /\ r_connlock s1 = r_connlock s /\ r_tdis s1 = r_tdis s).
  { subst s1. proj. destruct (qlt (r_tstable s) t); proj; repeat split. }
  clear E1. destruct A1 as (B1 & B2 & B3 & B4 & B5 & B6 & B7 & B8 & B9 & B10).
  assert (C : r_tstable s1 = r_tstable s /\ r_mtype s1 = r_mtype s /\ r_vref s1 = r_vref s).
  { unfold settings in B7. injection B7; intros; repeat split; auto. }
  destruct C as (C1 & C2 & C3).
  rewrite C1, C2, C3 in E2.
  assert (A2 : r_hv s2 = (if qlt (r_tstable s) t then map (hvz (r_vref s) (volt (r_mtype s) m) t) (r_hv s) else r_hv s) /\
     r_hvtrip s2 = (if qlt (r_tstable s) t then r_hvtrip s || newly (hvz (r_vref s) (volt (r_mtype s) m) t) (r_hv s) else r_hvtrip s)%bool /\
     r_hvmc s2 = (if qlt (r_tstable s) t then hvmc' s (volt (r_mtype s) m) t else r_hvmc s) /\
     r_lv s2 = r_lv s1 /\ r_lvtrip s2 = r_lvtrip s1 /\ r_lvmc s2 = r_lvmc s1 /\ settings s2 = settings s1 /\
     r_rtlock s2 = r_rtlock s1 /\ r_connlock s2 = r_connlock s1 /\ r_tdis s2 = r_tdis s1).
  { subst s2. unfold hvmc'. rewrite B4, B5, B6, C3. destruct (qlt (r_tstable s) t); proj; repeat split; auto. }
  clear E2. destruct A2 as (D1 & D2 & D3 & D4 & D5 & D6 & D7 & D8 & D9 & D10).
  unfold settings in *. proj. repeat split; try congruence.
Qed.

(** with LFRT disabled, the connection part is untouched *)
Lemma urf_conn s m t s' r :
  r_lfen s = false -> update_ridethrough_flags s m t = (s', r) ->
  r_conn s' = r_conn s /\ r_trec s' = r_trec s /\ r_tdis s' = r_tdis s /\ outputs s' = outputs s /\ r_lf s' = r_lf s /\
  r_lftrip s' = r_lftrip s /\ r_connlock s' = r_connlock s.
Proof.
  intros Hl. unfold update_ridethrough_flags. destruct (qlt (r_rtlock s) t); [|intros [= <- _]; repeat split].
  set (s0 := up_locks s t (r_connlock s)).
  assert (P0 : r_conn s0 = r_conn s /\ r_trec s0 = r_trec s /\ r_tdis s0 = r_tdis s /\ outputs s0 = outputs s /\ r_lf s0 = r_lf s /\
    r_lftrip s0 = r_lftrip s /\ r_connlock s0 = r_connlock s /\ r_lfen s0 = r_lfen s) by (repeat split).
  clearbody s0.
  assert (PL : forall s0 m t, let x := fst (LVRT s0 m t) in r_conn x = r_conn s0 /\ r_trec x = r_trec s0 /\ r_tdis x = r_tdis s0 /\ outputs x = outputs s0 /\ r_lf x = r_lf s0 /\ r_lftrip x = r_lftrip s0 /\ r_connlock x = r_connlock s0 /\ r_lfen x = r_lfen s0).
  { clear. intros s m t. unfold LVRT. destruct (get_Vrms_measured s m); [|repeat split].
    destruct (qlt _ _); [|repeat split]. destruct (zones_loop _ _ _ _) as [[za zb] zc]. repeat split. }
  assert (PH : forall s0 m t, let x := fst (HVRT s0 m t) in r_conn x = r_conn s0 /\ r_trec x = r_trec s0 /\ r_tdis x = r_tdis s0 /\ outputs x = outputs s0 /\ r_lf x = r_lf s0 /\ r_lftrip x = r_lftrip s0 /\ r_connlock x = r_connlock s0 /\ r_lfen x = r_lfen s0).
  { clear. intros s m t. unfold HVRT. destruct (get_Vrms_measured s m); [|repeat split].
    destruct (qlt _ _); [|repeat split]. destruct (zones_loop _ _ _ _) as [[za zb] zc]. repeat split. }
  assert (Q1 : exists s1 r1, (if r_lven s0 then LVRT s0 m t else (s0, Ok tt)) = (s1, r1) /\
    r_conn s1 = r_conn s /\ r_trec s1 = r_trec s /\ r_tdis s1 = r_tdis s /\ outputs s1 = outputs s /\ r_lf s1 = r_lf s /\
    r_lftrip s1 = r_lftrip s /\ r_connlock s1 = r_connlock s /\ r_lfen s1 = r_lfen s).
  { destruct (r_lven s0).
    - specialize (PL s0 m t). destruct (LVRT s0 m t) as [a b]. exists a, b. simpl in PL.
      decompose [and] PL. decompose [and] P0. repeat split; congruence.
    - exists s0, (Ok tt). split; [reflexivity|]. auto. }
  destruct Q1 as (s1 & r1 & E1 & P1). rewrite E1. destruct r1 as [[]|e]; [|intros [= <- _]; tauto].
  assert (Q2 : exists s2 r2, (if r_hven s1 then HVRT s1 m t else (s1, Ok tt)) = (s2, r2) /\
    r_conn s2 = r_conn s /\ r_trec s2 = r_trec s /\ r_tdis s2 = r_tdis s /\ outputs s2 = outputs s /\ r_lf s2 = r_lf s /\
    r_lftrip s2 = r_lftrip s /\ r_connlock s2 = r_connlock s /\ r_lfen s2 = r_lfen s).
  { destruct (r_hven s1).
    - specialize (PH s1 m t). destruct (HVRT s1 m t) as [a b]. exists a, b. simpl in PH.
      decompose [and] PH. decompose [and] P1. repeat split; congruence.
    - exists s1, (Ok tt). split; [reflexivity|]. auto. }
  destruct Q2 as (s2 & r2 & E2 & P2). rewrite E2. destruct r2 as [[]|e]; [|intros [= <- _]; tauto].
  assert (E3 : r_lfen s2 = false) by (decompose [and] P2; congruence). rewrite E3. intros [= <- _].
  decompose [and] P2. unfold outputs in *. proj. repeat split; auto.
Qed.

(** connection logic: frame *)
Lemma dor_frame s m t :
  let s' := fst (disconnect_or_reconnect s m t) in
  settings s' = settings s /\ rflags s' = rflags s /\ r_lf s' = r_lf s /\ r_lftrip s' = r_lftrip s /\
  r_trip s' = r_trip s /\ r_mc s' = r_mc s /\ r_rtlock s' = r_rtlock s /\
  r_connlock s' = (if qlt (r_connlock s) t then t else r_connlock s).
Proof.
  unfold disconnect_or_reconnect. cbv zeta.
  set (body := if qlt (r_connlock s) t then _ else _).
  assert (H : settings (fst body) = settings s /\ rflags (fst body) = rflags s /\ r_lf (fst body) = r_lf s /\
     r_lftrip (fst body) = r_lftrip s /\ r_trip (fst body) = r_trip s /\ r_mc (fst body) = r_mc s /\
     r_rtlock (fst body) = r_rtlock s /\ r_connlock (fst body) = (if qlt (r_connlock s) t then t else r_connlock s)).
  { unfold body. destruct (qlt (r_connlock s) t); [|repeat split].
    set (s0 := up_locks s (r_rtlock s) t).
    assert (P : settings s0 = settings s /\ rflags s0 = rflags s /\ r_lf s0 = r_lf s /\
     r_lftrip s0 = r_lftrip s /\ r_trip s0 = r_trip s /\ r_mc s0 = r_mc s /\
     r_rtlock s0 = r_rtlock s /\ r_connlock s0 = t) by (repeat split).
    clearbody s0. destruct (r_conn s0).
    - destruct (r_trip s0 || r_mc s0)%bool; [|exact P].
      unfold DER_disconnect_logic. destruct (negb (r_conn s0)); [exact P|].
      destruct (qeq (r_tdis s0) 0); [exact P|]. destruct (qlt _ _); [exact P|].
      destruct (get_Vrms_measured s0 m); exact P.
    - destruct (negb (r_trip s0)); [|exact P].
      destruct (reconnect_frame s0 m t) as (H1 & H2 & H3 & H4 & H5 & H6 & H7 & H8 & H9 & _).
      decompose [and] P. repeat split; congruence. }
  clearbody body. destruct body as [s1 r1]. cbn [fst] in *. destruct r1 as [u|e]; cbn [fst]; [|exact H].
  destruct (negb (r_conn s1)); cbn [fst]; exact H.
Qed.

Lemma eval_split s t m s' : rt_eval s (t, m) = (s', Ok tt) ->
  exists s1, update_ridethrough_flags s m t = (s1, Ok tt) /\ disconnect_or_reconnect s1 m t = (s', Ok tt).
Proof.
  unfold rt_eval. destruct (update_ridethrough_flags s m t) as [s1 r1].
  destruct r1 as [[]|]; [|discriminate]. intros H. exists s1. auto.
Qed.

Lemma run_cons s x xs s' : rt_run s (x :: xs) = (s', Ok tt) ->
  exists s1, rt_eval s x = (s1, Ok tt) /\ rt_run s1 xs = (s', Ok tt).
Proof. simpl. destruct (rt_eval s x) as [s1 r1]. destruct r1 as [[]|]; [|discriminate]. eauto. Qed.

Lemma run_app xs : forall ys s s', rt_run s (xs ++ ys) = (s', Ok tt) ->
  exists s1, rt_run s xs = (s1, Ok tt) /\ rt_run s1 ys = (s', Ok tt).
Proof.
  induction xs as [|x xs IH]; intros ys s s' H; [exists s; auto|].
  rewrite <- app_comm_cons in H. apply run_cons in H as (s1 & E & H).
  apply IH in H as (s2 & H1 & H2). exists s2. split; auto. simpl. rewrite E. auto.
Qed.
Lemma run_app_ok xs ys s s1 s2 : rt_run s xs = (s1, Ok tt) -> rt_run s1 ys = s2 -> rt_run s (xs ++ ys) = s2.
Proof.
  revert s. induction xs as [|x xs IH]; intros s H1 H2; [injection H1 as <-; auto|].
  apply run_cons in H1 as (s3 & E & H1). simpl. rewrite E. auto.
Qed.
Lemma run_snoc xs x s s1 : rt_run s xs = (s1, Ok tt) -> rt_run s (xs ++ [x]) = rt_eval s1 x.
Proof.
  intros H. erewrite run_app_ok; [reflexivity|exact H|]. simpl.
  destruct (rt_eval s1 x) as [s2 [[]|]]; reflexivity.
Qed.

(** one evaluation *)
Lemma eval_unprocessed s t m s' :
  r_connlock s = r_rtlock s -> rt_eval s (t, m) = (s', Ok tt) -> qlt (r_rtlock s) t = false ->
  s' = if r_conn s then s else DER_disconnect s m.
Proof.
  intros Hc H Hl. apply eval_split in H as (s1 & E1 & E2). rewrite urf_unprocessed in E1 by auto.
  injection E1 as <-. unfold disconnect_or_reconnect in E2. rewrite Hc, Hl in E2.
  injection E2 as <-. destruct (r_conn s); reflexivity.
Qed.

Definition lvrun vref (l : list (Q * Q)) (z : zone) : zone :=
  fold_left (fun z s => lvz vref (snd s) (fst s) z) l z.
Definition hvrun vref (l : list (Q * Q)) (z : zone) : zone :=
  fold_left (fun z s => hvz vref (snd s) (fst s) z) l z.

Lemma fold_ext {A B} (P : A -> Prop) (f g : A -> B -> A) l : forall a, P a ->
  (forall a b, P a -> f a b = g a b) -> (forall a b, P a -> P (f a b)) -> fold_left f l a = fold_left g l a.
Proof.
  induction l as [|b l IH]; intros a Pa Hfg HP; simpl; auto. rewrite <- (Hfg a b Pa). apply IH; auto.
Qed.

Lemma lvrun_zrun vref l z :
  lvrun vref l z = zrun (fun V => qlt V (z_V z * vref)) (fun V => qlt (z_V z * vref) V) l z.
Proof.
  unfold lvrun, zrun. apply (fold_ext (fun y => z_V y = z_V z)); auto.
  - intros y [t V] Hy. unfold lvz. simpl. rewrite Hy. reflexivity.
  - intros y [t V] Hy. unfold lvz. simpl. rewrite <- Hy. apply gz_settings.
Qed.
Lemma hvrun_zrun vref l z :
  hvrun vref l z = zrun (fun V => qlt (z_V z * vref) V) (fun V => qlt V (z_V z * vref)) l z.
Proof.
  unfold hvrun, zrun. apply (fold_ext (fun y => z_V y = z_V z)); auto.
  - intros y [t V] Hy. unfold hvz. simpl. rewrite Hy. reflexivity.
  - intros y [t V] Hy. unfold hvz. simpl. rewrite <- Hy. apply gz_settings.
Qed.

(** the enabled flags and history-dependent zones over a run *)
Definition enabled (s : rt) := r_lven s = true /\ r_hven s = true.
Lemma enabled_settings s s' : settings s' = settings s -> enabled s -> enabled s'.
Proof. unfold settings, enabled. intros H. injection H. intros. split; destruct H11; congruence. Qed.

Lemma eval_flags s t m s' :
  enabled s -> rt_eval s (t, m) = (s', Ok tt) ->
  let V := volt (r_mtype s) m in
  let p := qlt (r_rtlock s) t in
  let act := (p && qlt (r_tstable s) t)%bool in
  settings s' = settings s /\
  r_lv s' = (if act then map (lvz (r_vref s) V t) (r_lv s) else r_lv s) /\
  r_hv s' = (if act then map (hvz (r_vref s) V t) (r_hv s) else r_hv s) /\
  r_lvtrip s' = (if act then r_lvtrip s || newly (lvz (r_vref s) V t) (r_lv s) else r_lvtrip s)%bool /\
  r_hvtrip s' = (if act then r_hvtrip s || newly (hvz (r_vref s) V t) (r_hv s) else r_hvtrip s)%bool /\
  r_lvmc s' = (if act then lvmc' s V t else r_lvmc s) /\
  r_hvmc s' = (if act then hvmc' s V t else r_hvmc s) /\
  r_trip s' = (if p then r_lvtrip s' || r_hvtrip s' else r_trip s)%bool /\
  r_mc s' = (if p then r_lvmc s' || r_hvmc s' else r_mc s)%bool /\
  r_rtlock s' = (if p then t else r_rtlock s) /\
  r_connlock s' = (if qlt (r_connlock s) t then t else r_connlock s).
Proof.
  intros [Hl Hh] H. apply eval_split in H as (s1 & E1 & E2). cbv zeta.
  destruct (dor_frame s1 m t) as (F1 & F2 & F3 & F4 & F5 & F6 & F7 & F8). rewrite E2 in *. cbn [fst] in *.
  unfold rflags in F2. injection F2 as G1 G2 G3 G4 G5 G6.
  destruct (qlt (r_rtlock s) t) eqn:Ep; cbn [andb].
  - destruct (urf_cases s m t s1 Hl Hh E1 Ep) as (U1 & U2 & U3 & U4 & U5 & U6 & U7 & U8 & U9 & U10 & U11 & U12).
    rewrite F8, G1, G2, G3, G4, G5, G6, F1, F5, F6, F7, U11. repeat split; auto.
  - rewrite urf_unprocessed in E1 by auto. injection E1 as <-. repeat split; auto.
Qed.

(** invariant of all runs from an initial state *)
Record rinv (s : rt) : Prop := {
  ri_en : enabled s;
  ri_lv : r_lvtrip s = existsb z_breach (r_lv s);
  ri_hv : r_hvtrip s = existsb z_breach (r_hv s);
  ri_trip : r_trip s = (r_lvtrip s || r_hvtrip s)%bool;
  ri_mc : r_mc s = (r_lvmc s || r_hvmc s)%bool;
  ri_lock : r_connlock s = r_rtlock s }.

Lemma initial_rinv s : initial s -> rinv s.
Proof.
  intros (vref & ts & mt & dd & rd & rest & lfen & setp & lv & hv & lf & vve & vwe & v & -> & Hl & Hh).
  assert (E : forall l, (forall z, In z l -> fresh_zone z) -> false = existsb z_breach l).
  { induction l as [|z l IH]; simpl; intros HF; auto. destruct (HF z (or_introl eq_refl)) as [_ ->].
    simpl. apply IH. auto. }
  constructor; unfold rt_init; proj; auto. split; reflexivity.
Qed.

Lemma eval_rinv s x s' : rinv s -> rt_eval s x = (s', Ok tt) -> rinv s'.
Proof.
  intros [He I1 I2 I3 I4 I5] H. destruct x as [t m].
  destruct (eval_flags s t m s' He H) as (U1 & U2 & U3 & U4 & U5 & U6 & U7 & U8 & U9 & U10 & U11).
  cbv zeta in *. constructor.
  - eapply enabled_settings; eauto.
  - rewrite U4, U2. destruct (_ && _)%bool; [|auto]. rewrite I1. apply breach_any.
    intros z; apply gz_mono.
  - rewrite U5, U3. destruct (_ && _)%bool; [|auto]. rewrite I2. apply breach_any.
    intros z; apply gz_mono.
  - destruct (qlt (r_rtlock s) t) eqn:Ep; cbn [andb] in *; congruence.
  - destruct (qlt (r_rtlock s) t) eqn:Ep; cbn [andb] in *; congruence.
  - rewrite U10, U11, I5. reflexivity.
Qed.
Lemma run_rinv xs : forall s s', rinv s -> rt_run s xs = (s', Ok tt) -> rinv s'.
Proof.
  induction xs as [|x xs IH]; intros s s' Hi H; [injection H as <-; auto|].
  apply run_cons in H as (s1 & E & H). eapply IH; [|eauto]. eapply eval_rinv; eauto.
Qed.

Lemma settings_inj s s' : settings s' = settings s ->
  r_vref s' = r_vref s /\ r_tstable s' = r_tstable s /\ r_mtype s' = r_mtype s /\ r_disdelay s' = r_disdelay s /\
  r_recdelay s' = r_recdelay s /\ r_restore s' = r_restore s /\ r_lven s' = r_lven s /\ r_hven s' = r_hven s /\
  r_lfen s' = r_lfen s /\ r_delf s' = r_delf s /\ r_setpoint s' = r_setpoint s.
Proof. unfold settings. intros H. injection H. intros. repeat split; auto. Qed.

Lemma run_zones xs : forall s s', enabled s -> rt_run s xs = (s', Ok tt) ->
  let h := voltages (r_mtype s) (processed (r_rtlock s) (r_tstable s) xs) in
  settings s' = settings s /\
  r_lv s' = map (lvrun (r_vref s) h) (r_lv s) /\ r_hv s' = map (hvrun (r_vref s) h) (r_hv s).
Proof.
  induction xs as [|[t m] xs IH]; intros s s' He H; cbv zeta.
  - injection H as <-. simpl. split; auto. split; symmetry; apply map_id.
  - apply run_cons in H as (s1 & E & H).
    destruct (eval_flags s t m s1 He E) as (U1 & U2 & U3 & _ & _ & _ & _ & _ & _ & U10 & _). cbv zeta in *.
    destruct (IH s1 s' (enabled_settings _ _ U1 He) H) as (J1 & J2 & J3). clear IH.
    destruct (settings_inj _ _ U1) as (S1 & S2 & S3 & _). rewrite S1, S2, S3, U10 in J2, J3.
    split; [congruence|]. rewrite J2, J3, U2, U3. simpl.
    destruct (qlt (r_rtlock s) t); cbn [andb]; [|auto].
    destruct (qlt (r_tstable s) t); cbn [andb]; [|auto].
    unfold voltages. rewrite map_app. simpl. split; rewrite map_map; reflexivity.
Qed.

Lemma processed_chrono mt xs : forall lock ts, 0 <= lock ->
  chrono (voltages mt (processed lock ts xs)) /\
  forall t V, In (t, V) (voltages mt (processed lock ts xs)) -> lock < t.
Proof.
  induction xs as [|[t m] xs IH]; intros lock ts Hl; simpl.
  - split; [intros pre t V post E; destruct pre; discriminate|intros t V []].
  - destruct (qlt lock t) eqn:El; qb; [|apply IH; auto].
    destruct (IH t ts ltac:(lra)) as [I1 I2].
    destruct (qlt ts t); simpl.
    + split.
      * intros pre t1 V1 post E. destruct pre as [|p pre]; injection E as E1 E2.
        -- subst. split; [lra|intros ? ? []].
        -- destruct (I1 pre t1 V1 post E2) as [A B]. split; auto. intros t' V' [Hp|Hin]; [|eauto].
           rewrite <- E1 in Hp. injection Hp as <- <-. apply (I2 t1 V1). unfold voltages in *. rewrite E2. apply in_or_app. right. left. reflexivity.
      * intros t1 V1 [[= <- <-]|Hin]; auto. apply I2 in Hin. lra.
    + split; auto. intros t1 V1 Hin. apply I2 in Hin. lra.
Qed.

(** ** momentary cessation of a list of zones *)
Section Cessation.
  Variables inz outz : Q -> Q -> bool.   (* threshold, voltage *)
  Variable vref : Q.
  Hypothesis Hio : forall thr V, inz thr V = true -> outz thr V = false.
  Definition zr (h : list (Q * Q)) (z : zone) : zone := zrun (inz (z_V z * vref)) (outz (z_V z * vref)) h z.
  Definition mcz (V t : Q) (z : zone) : bool -> bool := gmc (inz (z_V z * vref) V) (outz (z_V z * vref) V) t z.

  Lemma mc_fold_rise f zs : forall mc, mc_fold f zs mc = true -> mc = false -> exists z, In z zs /\ f z false = true.
  Proof.
    unfold mc_fold. induction zs as [|z zs IH]; simpl; intros mc H ->; [discriminate|].
    destruct (f z false) eqn:E; [exists z; auto|]. destruct (IH false H eq_refl) as (y & Hy & Ey). exists y. auto.
  Qed.
  Lemma mc_fold_fall f zs : forall mc, mc_fold f zs mc = false -> mc = true -> exists z, In z zs /\ f z true = false.
  Proof.
    unfold mc_fold. induction zs as [|z zs IH]; simpl; intros mc H ->; [discriminate|].
    destruct (f z true) eqn:E; [|exists z; auto]. destruct (IH true H eq_refl) as (y & Hy & Ey). exists y. auto.
  Qed.
  Lemma mc_fold_set f zs : (forall z, In z zs -> f z true = true) ->
    forall mc, (mc = true \/ exists z, In z zs /\ f z false = true) -> mc_fold f zs mc = true.
  Proof.
    unfold mc_fold. induction zs as [|z zs IH]; simpl; intros Ht mc Hor.
    - destruct Hor as [->|(z & [] & _)]; reflexivity.
    - apply IH; [auto|]. destruct mc; [left; apply Ht; auto|].
      destruct Hor as [Hm|(y & [<-|Hy] & E)]; [discriminate|left; auto|right; eauto].
  Qed.

  Lemma zr_V h z : z_V (zr h z) = z_V z. Proof. apply zrun_settings. Qed.

  (** [entered]: timer of the zone *)
  Definition entered (thr : Q) (h : list (Q * Q)) (tau : Q) : Prop :=
    since (inz thr) (outz thr) h tau /\ forall tau', since (inz thr) (outz thr) h tau' -> tau <= tau'.

  Lemma mcz_rise h z t V : fresh_zone z -> chrono h ->
    mcz V t (zr h z) false = true ->
    z_mode z = Cessation /\ inz (z_V z * vref) V = true /\
    exists tau, entered (z_V z * vref) h tau /\ z_tmin z <= t - tau /\ t - tau <= z_t z.
  Proof.
    intros Hf Hc. unfold mcz, gmc. rewrite zr_V.
    destruct (zone_history (inz (z_V z * vref)) (outz (z_V z * vref)) (Hio _) h z Hf Hc) as (H1 & H2 & H3).
    destruct (zrun_settings (inz (z_V z * vref)) (outz (z_V z * vref)) h z) as (G1 & G2 & G3 & G4).
    unfold zr in *. set (y := zrun _ _ h z) in *. clearbody y.
    destruct (inz (z_V z * vref) V) eqn:Ei; destruct (z_breach y) eqn:Eb; cbn [andb negb];
      try (destruct (outz _ _); [destruct (qlt 0 (z_start y))|]; discriminate).
    destruct (qeq (z_start y) 0) eqn:E0; [discriminate|].
    destruct (qle (t - z_start y) (z_t y)) eqn:E1; [|discriminate].
    destruct (is_cessation (z_mode y)) eqn:E2; cbn [andb]; [|discriminate].
    destruct (qle (z_tmin y) (t - z_start y)) eqn:E3; [|discriminate]. intros _. qb.
    split; [rewrite G4 in E2; destruct (z_mode z); simpl in E2; congruence|].
    split; auto. exists (z_start y). rewrite <- G2, <- G3.
    destruct (H3 eq_refl) as [[Hz _]|(_ & Hs & Hm)]; [exfalso; apply E0; rewrite Hz; reflexivity|].
    split; [split; auto|]. split; auto.
  Qed.

  Lemma mcz_fall h z t V : fresh_zone z -> chrono h ->
    mcz V t (zr h z) true = false ->
    outz (z_V z * vref) V = true /\ exists tau, entered (z_V z * vref) h tau.
  Proof.
    intros Hf Hc. unfold mcz, gmc. rewrite zr_V.
    destruct (zone_history (inz (z_V z * vref)) (outz (z_V z * vref)) (Hio _) h z Hf Hc) as (H1 & H2 & H3).
    unfold zr in *. set (y := zrun _ _ h z) in *. clearbody y.
    destruct (inz (z_V z * vref) V && negb (z_breach y))%bool.
    - destruct (qeq (z_start y) 0); [discriminate|]. destruct (qle (t - z_start y) (z_t y)); [|discriminate].
      destruct (_ && _)%bool; discriminate.
    - destruct (outz (z_V z * vref) V) eqn:Eo; [|discriminate].
      destruct (qlt 0 (z_start y)) eqn:E0; [|discriminate]. intros _. split; auto. qb.
      destruct (z_breach y) eqn:Eb; [specialize (H2 eq_refl); rewrite H2 in E0; exfalso; lra|].
      destruct (H3 eq_refl) as [[Hz _]|(_ & Hs & Hm)]; [rewrite Hz in E0; exfalso; lra|].
      exists (z_start y). split; auto.
  Qed.

  Lemma mcz_set h z t V tau : fresh_zone z -> chrono h ->
    z_mode z = Cessation -> inz (z_V z * vref) V = true -> entered (z_V z * vref) h tau ->
    z_tmin z <= t - tau -> t - tau <= z_t z ->
    ~ longer_than (inz (z_V z * vref)) (outz (z_V z * vref)) (z_t z) h ->
    mcz V t (zr h z) false = true.
  Proof.
    intros Hf Hc Hm Hi [He1 He2] Ht1 Ht2 Hn. unfold mcz, gmc. rewrite zr_V, Hi.
    destruct (zone_history (inz (z_V z * vref)) (outz (z_V z * vref)) (Hio _) h z Hf Hc) as (H1 & H2 & H3).
    destruct (zrun_settings (inz (z_V z * vref)) (outz (z_V z * vref)) h z) as (G1 & G2 & G3 & G4).
    unfold zr in *. set (y := zrun _ _ h z) in *. clearbody y.
    destruct (z_breach y) eqn:Eb; [exfalso; apply Hn, H1; reflexivity|]. cbn [andb negb].
    destruct (H3 eq_refl) as [[_ Hno]|(Hpos & Hs & Hmin)]; [destruct (Hno tau He1)|].
    assert (Eq : z_start y == tau) by (pose proof (Hmin _ He1); pose proof (He2 _ Hs); lra).
    assert (E0 : qeq (z_start y) 0 = false) by (apply qeq_false; lra). rewrite E0.
    assert (E1 : qle (t - z_start y) (z_t y) = true) by (apply qle_iff; rewrite G2; lra). rewrite E1.
    rewrite G4, Hm. cbn [is_cessation andb].
    assert (E2 : qle (z_tmin y) (t - z_start y) = true) by (apply qle_iff; rewrite G3; lra). rewrite E2. reflexivity.
  Qed.
End Cessation.

Lemma longer_below thr dur h :
  longer_than (fun V => qlt V thr) (fun V => qlt thr V) dur h <-> below_longer_than thr dur h.
Proof.
  unfold longer_than, below_longer_than.
  split; intros (pre & t0 & V0 & mid & t1 & V1 & post & E & H1 & H2 & H3 & H4);
    exists pre, t0, V0, mid, t1, V1, post; split; auto; split; try (now qb);
    try (now apply qlt_iff); (split; [intros t V Hin; specialize (H2 t V Hin)|]).
  - now qb. - split; [now qb|auto]. - apply qlt_false; auto. - split; [now apply qlt_iff|auto].
Qed.
Lemma longer_above thr dur h :
  longer_than (fun V => qlt thr V) (fun V => qlt V thr) dur h <-> above_longer_than thr dur h.
Proof.
  unfold longer_than, above_longer_than.
  split; intros (pre & t0 & V0 & mid & t1 & V1 & post & E & H1 & H2 & H3 & H4);
    exists pre, t0, V0, mid, t1, V1, post; split; auto; split; try (now qb);
    try (now apply qlt_iff); (split; [intros t V Hin; specialize (H2 t V Hin)|]).
  - now qb. - split; [now qb|auto]. - apply qlt_false; auto. - split; [now apply qlt_iff|auto].
Qed.
Lemma since_below thr h tau : since (fun V => qlt V thr) (fun V => qlt thr V) h tau <-> below_since thr h tau.
Proof.
  unfold since, below_since.
  split; intros (pre & V0 & post & E & H1 & H2); exists pre, V0, post; split; auto; split; try (now qb);
    try (now apply qlt_iff); intros t V Hin; specialize (H2 t V Hin); [now qb|apply qlt_false; auto].
Qed.
Lemma since_above thr h tau : since (fun V => qlt thr V) (fun V => qlt V thr) h tau <-> above_since thr h tau.
Proof.
  unfold since, above_since.
  split; intros (pre & V0 & post & E & H1 & H2); exists pre, V0, post; split; auto; split; try (now qb);
    try (now apply qlt_iff); intros t V Hin; specialize (H2 t V Hin); [now qb|apply qlt_false; auto].
Qed.
Definition lv_in thr V := qlt V thr.
Definition hv_in thr V := qlt thr V.
Lemma lv_io thr V : lv_in thr V = true -> hv_in thr V = false.
Proof. unfold lv_in, hv_in. intros H. apply qlt_false. qb. lra. Qed.
Lemma hv_io thr V : hv_in thr V = true -> lv_in thr V = false.
Proof. unfold lv_in, hv_in. intros H. apply qlt_false. qb. lra. Qed.
Lemma entered_lv thr h tau : entered lv_in hv_in thr h tau <-> entered_below thr h tau.
Proof.
  unfold entered, entered_below. pose proof (since_below thr h) as Hs. unfold lv_in, hv_in.
  rewrite (Hs tau). split; intros [H1 H2]; (split; [auto|]); intros t' Ht; apply H2, Hs, Ht.
Qed.
Lemma entered_hv thr h tau : entered hv_in lv_in thr h tau <-> entered_above thr h tau.
Proof.
  unfold entered, entered_above. pose proof (since_above thr h) as Hs. unfold lv_in, hv_in.
  rewrite (Hs tau). split; intros [H1 H2]; (split; [auto|]); intros t' Ht; apply H2, Hs, Ht.
Qed.
Lemma lvrun_zr vref h z : lvrun vref h z = zr lv_in hv_in vref h z.
Proof. apply lvrun_zrun. Qed.
Lemma hvrun_zr vref h z : hvrun vref h z = zr hv_in lv_in vref h z.
Proof. apply hvrun_zrun. Qed.

Lemma initial_facts s : initial s ->
  r_rtlock s = 0 /\ r_connlock s = 0 /\ r_tdis s = 0 /\ r_trec s = 0 /\ r_conn s = true /\ r_trip s = false /\ r_mc s = false /\
  r_lvtrip s = false /\ r_hvtrip s = false /\ r_lvmc s = false /\ r_hvmc s = false /\ r_lftrip s = false /\
  (forall z, In z (r_lv s) -> fresh_zone z) /\ (forall z, In z (r_hv s) -> fresh_zone z).
Proof.
  intros (vref & ts & mt & dd & rd & rest & lfen & setp & lv & hv & lf & vve & vwe & v & -> & Hl & Hh).
  unfold rt_init; proj. do 12 (split; [reflexivity|]). split; auto.
Qed.
