(** Properties C14-C21: voltage ride-through. *)
From Verif Require Import Base EventsModel VdcModel RTModel RTSpec RTProofs RTProofs2 RTProofs3.

Lemma zones_existsb f (P : zone -> Prop) zs :
  (forall z, In z zs -> (z_breach (f z) = true <-> P z)) ->
  (existsb z_breach (map f zs) = true <-> exists z, In z zs /\ P z).
Proof.
  intros H. rewrite existsb_exists. split.
  - intros (y & Hin & Hb). apply in_map_iff in Hin as (z & <- & Hz). exists z. split; auto. apply H; auto.
  - intros (z & Hz & Hp). exists (f z). split; [apply in_map; auto|apply H; auto].
Qed.

(** * C14 *)
(** LVRT trips exactly when the history of processed samples contains a stay
    below some zone's threshold for longer than that zone's time threshold. *)
Theorem C14_lvrt_trip_iff_history :
  forall s0 xs s, initial s0 -> rt_run s0 xs = (s, Ok tt) ->
  (r_lvtrip s = true <->
   exists z, In z (r_lv s0) /\
     below_longer_than (z_V z * r_vref s0) (z_t z)
       (voltages (r_mtype s0) (processed 0 (r_tstable s0) xs))).
Proof.
  intros s0 xs s Hi Hr. pose proof (initial_rinv _ Hi) as Hinv.
  rewrite (ri_lv _ (run_rinv _ _ _ Hinv Hr)).
  destruct (run_zones _ _ _ (ri_en _ Hinv) Hr) as (_ & Hlv & _). cbv zeta in Hlv. rewrite Hlv.
  destruct (initial_facts _ Hi) as (E0 & _ & _ & _ & _ & _ & _ & _ & _ & _ & _ & _ & Hfl & _).
  rewrite E0. apply zones_existsb. intros z Hz. rewrite lvrun_zrun, <- longer_below.
  destruct (processed_chrono (r_mtype s0) xs 0 (r_tstable s0) ltac:(lra)) as [Hc _].
  apply (zone_history _ _ (lv_io (z_V z * r_vref s0)) _ z (Hfl z Hz) Hc).
Qed.
Print Assumptions C14_lvrt_trip_iff_history.

(** the DER trip flag is the disjunction, and trips are latched *)
Theorem C14_trip_flag_and_latch :
  forall s0 xs ys s s', initial s0 -> rt_run s0 xs = (s, Ok tt) -> rt_run s ys = (s', Ok tt) ->
  (r_trip s = true <-> r_lvtrip s = true \/ r_hvtrip s = true) /\
  (r_lvtrip s = true -> r_lvtrip s' = true) /\ (r_hvtrip s = true -> r_hvtrip s' = true).
Proof.
  intros s0 xs ys s s' Hi H1 H2. pose proof (run_rinv _ _ _ (initial_rinv _ Hi) H1) as Hs.
  split; [rewrite (ri_trip _ Hs), orb_true_iff; tauto|]. clear s0 xs Hi H1.
  revert s Hs H2. induction ys as [|[t m] ys IH]; intros s Hs H2; [injection H2 as <-; auto|].
  apply run_cons in H2 as (s1 & E & H2).
  destruct (IH s1 (eval_rinv _ _ _ Hs E) H2) as [I1 I2].
  destruct (eval_flags s t m s1 (ri_en _ Hs) E) as (_ & _ & _ & U4 & U5 & _). cbv zeta in *.
  split; intros Ht; [apply I1; rewrite U4|apply I2; rewrite U5]; rewrite Ht; destruct (_ && _)%bool; reflexivity.
Qed.
Print Assumptions C14_trip_flag_and_latch.

(** the template settings (templates.py:127-167) *)
Definition tmpl_lv := [Zone (88#100) 5 2 Mandatory 0 false; Zone (70#100) (7#2) 1 Mandatory 0 false;
                       Zone (1#2) 1 (1#2) Cessation 0 false].
Definition tmpl_hv := [Zone (106#100) 1 (1#2) Mandatory 0 false; Zone (112#100) (1#2) (1#2) Mandatory 0 false].
Definition tmpl_lf := [FZone 57 (1#60) 0; FZone (588#10) 299 0].
Definition vdc0 := init_vdc 1 520 650 500.
Definition tmpl (lfen : bool) : rt :=
  rt_init (1#2) 0 MMinimum (1#100) (7#4) false lfen 550 tmpl_lv tmpl_hv tmpl_lf true true vdc0.
Lemma tmpl_initial b : initial (tmpl b).
Proof.
  do 14 eexists. split; [reflexivity|]. unfold tmpl_lv, tmpl_hv, fresh_zone.
  split; intros z Hz; simpl in Hz; intuition (subst; split; reflexivity).
Qed.
(** a sample with all three measurements equal to V (fraction of the reference 1/2) *)
Definition smp (t V : Q) : Q * meas := (t, Meas (V * (1#2)) (V * (1#2)) (V * (1#2)) 60 1).

Example C14_hypotheses_met :
  let xs := [smp (1#10) 1; smp (2#10) (8#10); smp (3#10) (6#10); smp (25#10) (6#10); smp 6 (6#10)] in
  initial (tmpl false) /\ snd (rt_run (tmpl false) xs) = Ok tt /\
  r_lvtrip (fst (rt_run (tmpl false) xs)) = true /\ r_lvtrip (fst (rt_run (tmpl false) (firstn 4 xs))) = false.
Proof. split; [apply tmpl_initial|]. vm_compute. auto. Qed.

(** * C15 *)
Theorem C15_hvrt_trip_iff_history :
  forall s0 xs s, initial s0 -> rt_run s0 xs = (s, Ok tt) ->
  (r_hvtrip s = true <->
   exists z, In z (r_hv s0) /\
     above_longer_than (z_V z * r_vref s0) (z_t z)
       (voltages (r_mtype s0) (processed 0 (r_tstable s0) xs))).
Proof.
  intros s0 xs s Hi Hr. pose proof (initial_rinv _ Hi) as Hinv.
  rewrite (ri_hv _ (run_rinv _ _ _ Hinv Hr)).
  destruct (run_zones _ _ _ (ri_en _ Hinv) Hr) as (_ & _ & Hhv). cbv zeta in Hhv. rewrite Hhv.
  destruct (initial_facts _ Hi) as (E0 & _ & _ & _ & _ & _ & _ & _ & _ & _ & _ & _ & _ & Hfl).
  rewrite E0. apply zones_existsb. intros z Hz. rewrite hvrun_zrun, <- longer_above.
  destruct (processed_chrono (r_mtype s0) xs 0 (r_tstable s0) ltac:(lra)) as [Hc _].
  apply (zone_history _ _ (hv_io (z_V z * r_vref s0)) _ z (Hfl z Hz) Hc).
Qed.
Print Assumptions C15_hvrt_trip_iff_history.

Example C15_hypotheses_met :
  let xs := [smp (1#10) 1; smp (2#10) (11#10); smp (3#10) (107#100); smp (13#10) (11#10)] in
  initial (tmpl false) /\ snd (rt_run (tmpl false) xs) = Ok tt /\
  r_hvtrip (fst (rt_run (tmpl false) xs)) = true /\ r_hvtrip (fst (rt_run (tmpl false) (firstn 3 xs))) = false.
Proof. split; [apply tmpl_initial|]. vm_compute. auto. Qed.

(** * C19 *)
Lemma lvmc_eq s0 xs s V t : initial s0 -> rt_run s0 xs = (s, Ok tt) ->
  let h := voltages (r_mtype s0) (processed 0 (r_tstable s0) xs) in
  lvmc' s V t = mc_fold (mcz lv_in hv_in (r_vref s0) V t) (map (zr lv_in hv_in (r_vref s0) h) (r_lv s0)) (r_lvmc s) /\
  hvmc' s V t = mc_fold (mcz hv_in lv_in (r_vref s0) V t) (map (zr hv_in lv_in (r_vref s0) h) (r_hv s0)) (r_hvmc s) /\
  r_mtype s = r_mtype s0 /\ r_tstable s = r_tstable s0 /\ chrono h.
Proof.
  intros Hi Hr h. destruct (run_zones _ _ _ (ri_en _ (initial_rinv _ Hi)) Hr) as (S & Hl & Hh).
  destruct (settings_inj _ _ S) as (S1 & S2 & S3 & _).
  assert (E0 : r_rtlock s0 = 0) by apply (initial_facts _ Hi).
  cbv zeta in *. rewrite E0 in *. fold h in Hl, Hh. unfold lvmc', hvmc'. rewrite Hl, Hh, S1, S2, S3.
  split; [f_equal; apply map_ext; intros; apply lvrun_zr|].
  split; [f_equal; apply map_ext; intros; apply hvrun_zr|].
  split; auto. split; auto. apply processed_chrono. lra.
Qed.

(** entered only by a cessation zone, after the minimum ride-through time and
    before the trip time *)
Theorem C19_cessation_entry :
  forall s0 xs s t m s', initial s0 -> rt_run s0 xs = (s, Ok tt) -> rt_eval s (t, m) = (s', Ok tt) ->
  let h := voltages (r_mtype s0) (processed 0 (r_tstable s0) xs) in
  let V := volt (r_mtype s0) m in
  (r_lvmc s = false -> r_lvmc s' = true ->
   exists z tau, In z (r_lv s0) /\ z_mode z = Cessation /\ V < z_V z * r_vref s0 /\
     entered_below (z_V z * r_vref s0) h tau /\ z_tmin z <= t - tau <= z_t z) /\
  (r_hvmc s = false -> r_hvmc s' = true ->
   exists z tau, In z (r_hv s0) /\ z_mode z = Cessation /\ z_V z * r_vref s0 < V /\
     entered_above (z_V z * r_vref s0) h tau /\ z_tmin z <= t - tau <= z_t z).
Proof.
  intros s0 xs s t m s' Hi Hr He h V. pose proof (run_rinv _ _ _ (initial_rinv _ Hi) Hr) as Hinv.
  destruct (eval_flags s t m s' (ri_en _ Hinv) He) as (_ & _ & _ & _ & _ & U6 & U7 & _). cbv zeta in *.
  destruct (lvmc_eq s0 xs s V t Hi Hr) as (L1 & L2 & M1 & M2 & Hc). cbv zeta in *. fold h in L1, L2, Hc.
  destruct (initial_facts _ Hi) as (_ & _ & _ & _ & _ & _ & _ & _ & _ & _ & _ & _ & Hfl & Hfh).
  rewrite M1 in U6, U7. fold V in U6, U7. split; intros H0 H1.
  - rewrite U6 in H1. destruct (_ && _)%bool; [|congruence]. rewrite L1 in H1.
    apply mc_fold_rise in H1 as (y & Hy & Ey); [|auto]. apply in_map_iff in Hy as (z & <- & Hz).
    apply (mcz_rise _ _ _ lv_io) in Ey as (A & B & tau & C & D1 & D2); auto.
    exists z, tau. split; auto. split; auto. split; [unfold lv_in in B; qb; auto|].
    split; [apply entered_lv; auto|auto].
  - rewrite U7 in H1. destruct (_ && _)%bool; [|congruence]. rewrite L2 in H1.
    apply mc_fold_rise in H1 as (y & Hy & Ey); [|auto]. apply in_map_iff in Hy as (z & <- & Hz).
    apply (mcz_rise _ _ _ hv_io) in Ey as (A & B & tau & C & D1 & D2); auto.
    exists z, tau. split; auto. split; auto. split; [unfold hv_in in B; qb; auto|].
    split; [apply entered_hv; auto|auto].
Qed.
Print Assumptions C19_cessation_entry.

(** left only when the voltage leaves a zone it had entered *)
Theorem C19_cessation_exit :
  forall s0 xs s t m s', initial s0 -> rt_run s0 xs = (s, Ok tt) -> rt_eval s (t, m) = (s', Ok tt) ->
  let h := voltages (r_mtype s0) (processed 0 (r_tstable s0) xs) in
  let V := volt (r_mtype s0) m in
  (r_lvmc s = true -> r_lvmc s' = false ->
   exists z tau, In z (r_lv s0) /\ z_V z * r_vref s0 < V /\ entered_below (z_V z * r_vref s0) h tau) /\
  (r_hvmc s = true -> r_hvmc s' = false ->
   exists z tau, In z (r_hv s0) /\ V < z_V z * r_vref s0 /\ entered_above (z_V z * r_vref s0) h tau).
Proof.
  intros s0 xs s t m s' Hi Hr He h V. pose proof (run_rinv _ _ _ (initial_rinv _ Hi) Hr) as Hinv.
  destruct (eval_flags s t m s' (ri_en _ Hinv) He) as (_ & _ & _ & _ & _ & U6 & U7 & _). cbv zeta in *.
  destruct (lvmc_eq s0 xs s V t Hi Hr) as (L1 & L2 & M1 & M2 & Hc). cbv zeta in *. fold h in L1, L2, Hc.
  destruct (initial_facts _ Hi) as (_ & _ & _ & _ & _ & _ & _ & _ & _ & _ & _ & _ & Hfl & Hfh).
  rewrite M1 in U6, U7. fold V in U6, U7. split; intros H0 H1.
  - rewrite U6 in H1. destruct (_ && _)%bool; [|congruence]. rewrite L1 in H1.
    apply mc_fold_fall in H1 as (y & Hy & Ey); [|auto]. apply in_map_iff in Hy as (z & <- & Hz).
    apply (mcz_fall _ _ _ lv_io) in Ey as (A & tau & B); auto.
    exists z, tau. split; auto. split; [unfold hv_in in A; qb; auto|apply entered_lv; auto].
  - rewrite U7 in H1. destruct (_ && _)%bool; [|congruence]. rewrite L2 in H1.
    apply mc_fold_fall in H1 as (y & Hy & Ey); [|auto]. apply in_map_iff in Hy as (z & <- & Hz).
    apply (mcz_fall _ _ _ hv_io) in Ey as (A & tau & B); auto.
    exists z, tau. split; auto. split; [unfold lv_in in A; qb; auto|apply entered_hv; auto].
Qed.
Print Assumptions C19_cessation_exit.

(** and it is set whenever some cessation zone has been entered for long enough
    and no zone is being left *)
Theorem C19_cessation_set :
  forall s0 xs s t m s', initial s0 -> rt_run s0 xs = (s, Ok tt) -> rt_eval s (t, m) = (s', Ok tt) ->
  let h := voltages (r_mtype s0) (processed 0 (r_tstable s0) xs) in
  let V := volt (r_mtype s0) m in
  0 < t -> (forall x, In x xs -> fst x < t) -> r_tstable s0 < t ->
  (forall z tau, In z (r_lv s0) -> z_V z * r_vref s0 < V -> ~ entered_below (z_V z * r_vref s0) h tau) ->
  (r_lvmc s = true \/
   exists z tau, In z (r_lv s0) /\ z_mode z = Cessation /\ V < z_V z * r_vref s0 /\
     entered_below (z_V z * r_vref s0) h tau /\ z_tmin z <= t - tau <= z_t z /\
     ~ below_longer_than (z_V z * r_vref s0) (z_t z) h) ->
  r_lvmc s' = true.
Proof.
  intros s0 xs s t m s' Hi Hr He h V Ht Hnew Hst Hstay Hor. pose proof (run_rinv _ _ _ (initial_rinv _ Hi) Hr) as Hinv.
  destruct (eval_flags s t m s' (ri_en _ Hinv) He) as (_ & _ & _ & _ & _ & U6 & _). cbv zeta in *.
  destruct (lvmc_eq s0 xs s V t Hi Hr) as (L1 & L2 & M1 & M2 & Hc). cbv zeta in *. fold h in L1, L2, Hc.
  destruct (initial_facts _ Hi) as (_ & _ & _ & _ & _ & _ & _ & _ & _ & _ & _ & _ & Hfl & Hfh).
  rewrite M1, M2 in U6. fold V in U6.
  assert (Hp : qlt (r_rtlock s) t = true) by (apply (new_time s0 xs); auto).
  assert (Hq : qlt (r_tstable s0) t = true) by (apply qlt_iff; auto).
  rewrite Hp, Hq in U6. cbn [andb] in U6. rewrite U6, L1. apply mc_fold_set.
  - intros y Hy. apply in_map_iff in Hy as (z & <- & Hz).
    destruct (mcz lv_in hv_in (r_vref s0) V t (zr lv_in hv_in (r_vref s0) h z) true) eqn:E; auto.
    apply (mcz_fall _ _ _ lv_io) in E as (A & tau & B); auto. unfold hv_in in A. qb.
    exfalso. apply (Hstay z tau Hz A). apply entered_lv; auto.
  - destruct Hor as [->|(z & tau & Hz & Hm & HV & Hent & [Ht1 Ht2] & Hn)]; [auto|right].
    exists (zr lv_in hv_in (r_vref s0) h z). split; [apply in_map; auto|].
    apply (mcz_set _ _ _ lv_io) with (tau := tau); auto.
    + apply qlt_iff; auto.
    + apply entered_lv; auto.
    + intros HH. apply Hn, longer_below. exact HH.
Qed.
Print Assumptions C19_cessation_set.

Example C19_hypotheses_met :
  let xs := [smp (1#10) 1; smp (2#10) (4#10); smp (6#10) (4#10)] in
  let s := fst (rt_run (tmpl false) xs) in
  snd (rt_run (tmpl false) xs) = Ok tt /\ r_lvmc s = false /\
  r_lvmc (fst (rt_eval s (smp (7#10) (4#10)))) = true /\
  r_lvmc (fst (rt_run s [smp (7#10) (4#10); smp (8#10) (6#10)])) = false.
Proof. vm_compute. auto. Qed.

(** * C20: the flag is shared between zones *)
Definition two_mc (lv : list zone) : rt :=
  rt_init (1#2) 0 MMinimum (1#100) (7#4) false false 550 lv tmpl_hv tmpl_lf true true vdc0.
Theorem C20_persists_refuted :
  exists s0 xs s t m s' z tau, initial s0 /\ rt_run s0 xs = (s, Ok tt) /\ rt_eval s (t, m) = (s', Ok tt) /\
  In z (r_lv s0) /\ z_mode z = Cessation /\ volt (r_mtype s0) m < z_V z * r_vref s0 /\
  below_since (z_V z * r_vref s0) (voltages (r_mtype s0) (processed 0 (r_tstable s0) xs)) tau /\
  z_tmin z <= t - tau <= z_t z /\ r_lvmc s = true /\ r_lvmc s' = false.
Proof.
  set (z1 := Zone (88#100) 5 (1#2) Cessation 0 false).
  set (z2 := Zone (1#2) 1 (1#4) Cessation 0 false).
  exists (two_mc [z1; z2]), [smp (1#10) (4#10); smp (7#10) (4#10)].
  eexists. exists (8#10), (snd (smp (8#10) (7#10))). eexists. exists z1, (1#10).
  split; [do 14 eexists; split; [reflexivity|]; split; intros z Hz; simpl in Hz; unfold fresh_zone; intuition (subst; split; reflexivity)|].
  split; [vm_compute; reflexivity|]. split; [vm_compute; reflexivity|].
  split; [left; reflexivity|]. split; [reflexivity|]. split; [vm_compute; reflexivity|].
  split.
  - exists [], ((4#10) * (1#2)), [((7#10), (4#10) * (1#2))]. split; [reflexivity|]. split; [reflexivity|].
    intros t V [[= <- <-]|[]]. vm_compute. discriminate.
  - vm_compute. repeat split; discriminate.
Qed.
Print Assumptions C20_persists_refuted.

(** true when the cessation zone is the one with the lowest threshold (as in
    the template settings): while the voltage stays in it, from t_min_ridethrough
    until its trip time the flag is set at every processed evaluation *)
Theorem C20_persists_lowest_zone_partial :
  forall s0 xs s t m s' z tau, initial s0 -> rt_run s0 xs = (s, Ok tt) -> rt_eval s (t, m) = (s', Ok tt) ->
  let h := voltages (r_mtype s0) (processed 0 (r_tstable s0) xs) in
  let V := volt (r_mtype s0) m in
  0 < t -> (forall x, In x xs -> fst x < t) -> r_tstable s0 < t ->
  In z (r_lv s0) -> z_mode z = Cessation -> V < z_V z * r_vref s0 -> 0 <= r_vref s0 ->
  (forall y, In y (r_lv s0) -> z_V z <= z_V y) ->
  entered_below (z_V z * r_vref s0) h tau -> z_tmin z <= t - tau <= z_t z ->
  ~ below_longer_than (z_V z * r_vref s0) (z_t z) h ->
  r_lvmc s' = true.
Proof.
  intros s0 xs s t m s' z tau Hi Hr He h V Ht Hnew Hst Hz Hm HV Href Hlow Hent Htt Hn.
  eapply C19_cessation_set; eauto.
  - intros y tau' Hy Hy2 _. specialize (Hlow y Hy). unfold V in *.
    assert (z_V z * r_vref s0 <= z_V y * r_vref s0) by (apply Qmult_le_compat_r; auto). lra.
  - right. exists z, tau. repeat (split; auto); apply Htt.
Qed.
Print Assumptions C20_persists_lowest_zone_partial.

(** * C21: single-phase overvoltage with the default 'minimum' measurement *)
Definition three (t a b c : Q) : Q * meas := (t, Meas (Urms_min_calc a b c) ((a + b + c) / 3) ((a + b + c) / 3) 60 1).
Theorem C21_single_phase_overvoltage_refuted :
  exists s0 (vs : list (Q * Q * (Q * Q))),
  let samples := map (fun p => three (fst (fst p)) (snd (fst p)) (fst (snd p)) (snd (snd p))) vs in
  let phase_a := map (fun p => (fst (fst p), snd (fst p))) vs in
  initial s0 /\ snd (rt_run s0 samples) = Ok tt /\
  (exists z, In z (r_hv s0) /\ above_longer_than (z_V z * r_vref s0) (z_t z) phase_a) /\
  r_hvtrip (fst (rt_run s0 samples)) = false /\ r_conn (fst (rt_run s0 samples)) = true.
Proof.
  exists (tmpl false), [((1, 65#100), (1#2, 1#2)); ((4, 65#100), (1#2, 1#2))].
  cbv zeta. split; [apply tmpl_initial|]. split; [vm_compute; reflexivity|]. split; [|vm_compute; auto].
  exists (Zone (106#100) 1 (1#2) Mandatory 0 false). split; [left; reflexivity|].
  exists [], 1, (65#100), [], 4, (65#100), []. split; [reflexivity|]. split; [reflexivity|].
  split; [intros ? ? []|]. split; reflexivity.
Qed.
Print Assumptions C21_single_phase_overvoltage_refuted.

(** with all phases above the threshold the minimum is above it as well *)
Theorem C21_all_phases_overvoltage_partial :
  forall s0 vs s z pre v0 mid v1 post, initial s0 -> r_mtype s0 = MMinimum ->
  let sample p := three (fst (fst p)) (snd (fst p)) (fst (snd p)) (snd (snd p)) in
  let time (p : Q * Q * (Q * Q)) := fst (fst p) in
  let all_above thr (p : Q * Q * (Q * Q)) := thr < snd (fst p) /\ thr < fst (snd p) /\ thr < snd (snd p) in
  vs = pre ++ v0 :: mid ++ v1 :: post ->
  rt_run s0 (map sample vs) = (s, Ok tt) ->
  (forall a p b, vs = a ++ p :: b -> 0 < time p /\ r_tstable s0 < time p /\ forall q, In q a -> time q < time p) ->
  In z (r_hv s0) -> z_t z < time v1 - time v0 ->
  (forall p, In p (v0 :: mid ++ [v1]) -> all_above (z_V z * r_vref s0) p) ->
  r_hvtrip s = true.
Proof.
  intros s0 vs s z pre v0 mid v1 post Hi Hmt sample time all_above Evs Hr Htimes Hz Hdur Hall.
  apply (C15_hvrt_trip_iff_history s0 _ s Hi Hr). exists z. split; auto.
  assert (Hp : processed 0 (r_tstable s0) (map sample vs) = map sample vs).
  { assert (G : forall (l : list (Q * Q * (Q * Q))) lock, (forall a p b, l = a ++ p :: b -> lock < time p /\ r_tstable s0 < time p /\ forall q, In q a -> time q < time p) ->
      processed lock (r_tstable s0) (map sample l) = map sample l).
    { clear. induction l as [|p l IH]; intros lock Hl; simpl; auto.
      destruct (Hl [] p l eq_refl) as (A & B & _). unfold time in A, B.
      assert (A' : qlt lock (fst (fst p)) = true) by (apply qlt_iff; auto).
      assert (B' : qlt (r_tstable s0) (fst (fst p)) = true) by (apply qlt_iff; auto).
      rewrite A', B'. simpl. f_equal. apply IH. intros a q b ->.
      destruct (Hl (p :: a) q b eq_refl) as (A1 & B1 & C1). split; [apply C1; left; auto|]. split; auto.
      intros q' Hq'. apply C1. right; auto. }
    apply G. auto. }
  rewrite Hp, Hmt.
  set (thr := z_V z * r_vref s0) in *.
  assert (Hmin : forall p, all_above thr p -> thr < Urms_min_calc (snd (fst p)) (fst (snd p)) (snd (snd p))).
  { intros p (A & B & C). unfold Urms_min_calc, py_min.
    repeat match goal with |- context [if ?b then _ else _] => destruct b end; auto. }
  set (mv := fun p => (time p, Urms_min_calc (snd (fst p)) (fst (snd p)) (snd (snd p)))).
  exists (map mv pre), (time v0), (snd (mv v0)), (map mv mid), (time v1), (snd (mv v1)), (map mv post).
  split.
  { unfold voltages. rewrite map_map, Evs. change ((time v0, snd (mv v0))) with (mv v0). change ((time v1, snd (mv v1))) with (mv v1).
    rewrite map_app. simpl. rewrite map_app. reflexivity. }
  split; [apply Hmin, Hall; left; auto|]. split.
  - intros t V Hin. apply in_map_iff in Hin as (p & Ep & Hp'). injection Ep as <- <-.
    apply Qlt_le_weak, Hmin, Hall. right. apply in_or_app. auto.
  - split; [apply Hmin, Hall; right; apply in_or_app; right; left; auto|exact Hdur].
Qed.
Print Assumptions C21_all_phases_overvoltage_partial.
