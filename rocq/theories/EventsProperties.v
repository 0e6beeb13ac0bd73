(** Property theorems about simulation events (C01-C13 and related findings). *)
From Verif Require Import Base EventsModel EventsSpec EventsSharedModel
  TimedLemmas QueryLemmas EventsProofs EventsProofs2.

(** * C01 *)
Theorem C01_schedules_sorted_unique_in_range :
  forall s, reachable s -> schedules_ok s.
Proof. intros s H. exact (inv_sched s (reachable_inv s H)). Qed.
Print Assumptions C01_schedules_sorted_unique_in_range.

(** totals equal the list lengths in every history without a clear-all call *)
Theorem C01_totals :
  forall sp ov a b c os, forallb (fun o => negb (clears o)) os = true ->
  totals_ok (fst (run (init_events sp ov a b c) os)).
Proof. intros. apply run_totals; auto. repeat split. Qed.
Print Assumptions C01_totals.

(** a clear-all call leaves a stale total behind *)
Theorem C01_totals_after_clear_refuted :
  exists os, ~ totals_ok (fst (run (init_events default_spec true true true true) os)).
Proof.
  exists [OAddSolar 1 50 300; ORemSolar None true]. vm_compute. intros (H & _). discriminate.
Qed.
Print Assumptions C01_totals_after_clear_refuted.

Example C01_nontrivial :
  let s := fst (run (init_events default_spec true true true true)
     [OAddSolar 2 50 300; OAddSolar 1 60 300; OAddSolar 2 70 310; OAddSolar 3 10 300;
      OAddGrid 1 1 0 59; OQGrid (3#2); ORemGrid 7]) in
  map eT (items (solar s)) = [1; 2] /\ lookup (items (solar s)) 2 = Some (SolarV 70 310) /\
  length (items (grid s)) = 1%nat.
Proof. vm_compute. auto. Qed.

(** * C02 *)
Theorem C02_add_solar_replaces_exactly :
  forall s T si K s', reachable s -> add_solar_event s T si K = (s', Ok tt) ->
  (forall t, T == t -> lookup (items (solar s')) t = Some (SolarV si K)) /\
  (forall t, ~ T == t -> lookup (items (solar s')) t = lookup (items (solar s)) t) /\
  items (grid s') = items (grid s) /\ items (load s') = items (load s).
Proof.
  intros s T si K s' Hr E.
  destruct (add_solar_ok s T si K s' (reachable_inv s Hr) E) as (H & H2 & H3 & _).
  repeat split; auto; intros t Ht; rewrite H; [rewrite (proj2 (qeq_iff _ _) Ht)|
    rewrite (proj2 (qeq_false _ _) Ht)]; reflexivity.
Qed.
Print Assumptions C02_add_solar_replaces_exactly.

Theorem C02_add_grid_replaces_exactly :
  forall s T V a f s', reachable s -> add_grid_event s T V a f = (s', Ok tt) ->
  (forall t, T == t -> lookup (items (grid s')) t = Some (GridV V a f)) /\
  (forall t, ~ T == t -> lookup (items (grid s')) t = lookup (items (grid s)) t) /\
  items (solar s') = items (solar s) /\ items (load s') = items (load s).
Proof.
  intros s T V a f s' Hr E.
  destruct (add_grid_ok s T V a f s' (reachable_inv s Hr) E) as (H & H2 & H3 & _).
  repeat split; auto; intros t Ht; rewrite H; [rewrite (proj2 (qeq_iff _ _) Ht)|
    rewrite (proj2 (qeq_false _ _) Ht)]; reflexivity.
Qed.
Print Assumptions C02_add_grid_replaces_exactly.

Theorem C02_add_load_replaces_exactly :
  forall s T zr zi s', reachable s -> add_load_event s T zr zi = (s', Ok tt) ->
  (forall t, T == t -> lookup (items (load s')) t = Some (LoadV zr zi)) /\
  (forall t, ~ T == t -> lookup (items (load s')) t = lookup (items (load s)) t) /\
  items (solar s') = items (solar s) /\ items (grid s') = items (grid s).
Proof.
  intros s T zr zi s' Hr E.
  destruct (add_load_ok s T zr zi s' (reachable_inv s Hr) E) as (H & H2 & H3 & _).
  repeat split; auto; intros t Ht; rewrite H; [rewrite (proj2 (qeq_iff _ _) Ht)|
    rewrite (proj2 (qeq_false _ _) Ht)]; reflexivity.
Qed.
Print Assumptions C02_add_load_replaces_exactly.

Example C02_hypotheses_met :
  exists s s', reachable s /\ add_solar_event s 2 30 300 = (s', Ok tt) /\
    lookup (items (solar s)) 2 = Some (SolarV 50 300).
Proof.
  exists (fst (run (init_events default_spec true true true true) [OAddSolar 2 50 300; OAddSolar 1 60 300])).
  eexists. split; [do 6 eexists; reflexivity|]. split; [vm_compute; reflexivity|vm_compute; reflexivity].
Qed.

(** * C03 *)
Theorem C03_add_solar_validation :
  forall s T si K,
  (solar_ok (espec s) (SolarV si K) -> exists s', add_solar_event s T si K = (s', Ok tt)) /\
  (~ solar_ok (espec s) (SolarV si K) -> add_solar_event s T si K = (s, Raise ValueError)).
Proof.
  intros s T si K. destruct (add_solar_exact s T si K) as [[H E]|[H E]]; tauto.
Qed.
Print Assumptions C03_add_solar_validation.
Theorem C03_add_grid_validation :
  forall s T V a f,
  (grid_ok (espec s) (GridV V a f) -> exists s', add_grid_event s T V a f = (s', Ok tt)) /\
  (~ grid_ok (espec s) (GridV V a f) -> add_grid_event s T V a f = (s, Raise ValueError)).
Proof. intros s T V a f. destruct (add_grid_exact s T V a f) as [[H E]|[H E]]; tauto. Qed.
Print Assumptions C03_add_grid_validation.
Theorem C03_add_load_validation :
  forall s T zr zi,
  (load_ok (LoadV zr zi) -> exists s', add_load_event s T zr zi = (s', Ok tt)) /\
  (~ load_ok (LoadV zr zi) -> add_load_event s T zr zi = (s, Raise ValueError)).
Proof. intros s T zr zi. destruct (add_load_exact s T zr zi) as [[H E]|[H E]]; tauto. Qed.
Print Assumptions C03_add_load_validation.

Example C03_boundaries :
  solar_ok default_spec (SolarV 25 375) /\ ~ solar_ok default_spec (SolarV (2499#100) 300) /\
  grid_ok default_spec (GridV (1#10) 0 62) /\ ~ grid_ok default_spec (GridV 1 0 (6201#100)).
Proof. unfold solar_ok, grid_ok; simpl. repeat split; try (unfold Qle; simpl; lia); lra. Qed.

(** * C04 *)
Theorem C04_solar_active_event :
  forall s ts, reachable s -> solarEn s = true ->
  let s0 := reset_counters s in
  forward (items (solar s0)) None ts ->
  Forall2 (fun t r => exists v, r = Ok v /\
     scheduled (SolarV (ins_default (espec s0)) Tactual_default) (items (solar s0)) t v)
    ts (solar_run s0 ts).
Proof.
  intros s ts Hr He s0 Hf. apply solar_forward; auto.
  apply (step_inv s OReset (reachable_inv s Hr)).
Qed.
Print Assumptions C04_solar_active_event.

Theorem C04_load_active_event :
  forall s ts, reachable s -> loadEn s = true ->
  let s0 := reset_counters s in
  forward (items (load s0)) None ts ->
  Forall2 (fun t r => exists v, r = Ok v /\ scheduled Zload_default (items (load s0)) t v)
    ts (load_run s0 ts).
Proof.
  intros s ts Hr He s0 Hf. apply load_forward; auto.
  apply (step_inv s OReset (reachable_inv s Hr)).
Qed.
Print Assumptions C04_load_active_event.

(** disabled event kinds always give the defaults *)
Theorem C04_disabled_defaults :
  forall s t,
  (solarEn s = false -> solar_events s t = (s, Ok (SolarV (ins_default (espec s)) Tactual_default))) /\
  (loadEn s = false -> load_events s t = (s, Ok Zload_default)) /\
  (gridEn s = false -> grid_events s t =
     (s, Ok (GridV (vol_default (espec s)) (ang_default (espec s)) (frq_default (espec s))))).
Proof.
  intros s t. unfold solar_events, load_events, grid_events, grid_events_at.
  repeat split; intros ->; reflexivity.
Qed.
Print Assumptions C04_disabled_defaults.

Example C04_hypotheses_met :
  let s := fst (run (init_events default_spec true true true true)
             [OAddSolar 2 50 300; OAddSolar 1 60 300; OQSolar 5]) in
  reachable s /\ solarEn s = true /\
  forward (items (solar (reset_counters s))) None [0; (1#2); 1; (3#2); 2; 3] /\
  solar_run (reset_counters s) [0; 1; (3#2); 2; 3] =
    [Ok (SolarV 100 (29815#100)); Ok (SolarV 60 300); Ok (SolarV 60 300); Ok (SolarV 50 300); Ok (SolarV 50 300)].
Proof.
  split; [do 6 eexists; reflexivity|]. split; [reflexivity|]. split; [|vm_compute; reflexivity].
  cbn. repeat split; auto; try (unfold Qle; simpl; lia);
  intros e1 e2 [<-|[<-|[]]] [<-|[<-|[]]]; cbn; intros; try reflexivity; lra.
Qed.

(** * C05: arbitrary query times *)
Theorem C05_active_event_refuted :
  exists s t v, reachable s /\ counter (solar s) = 0%Z /\
    snd (solar_events s t) = Ok v /\
    ~ scheduled (SolarV (ins_default (espec s)) Tactual_default) (items (solar s)) t v.
Proof.
  exists (fst (run (init_events default_spec true true true true) [OAddSolar 1 50 300; OAddSolar 2 60 300])).
  exists 3, (SolarV 50 300). split; [do 6 eexists; reflexivity|]. split; [reflexivity|].
  split; [vm_compute; reflexivity|].
  intros [(e & He & Ht & Hv & Hm)|[_ Hv]]; [|discriminate].
  assert (Hm' := Hm (Ev 2 (SolarV 60 300))). cbn in He, Hm'.
  destruct He as [<-|[<-|[]]]; cbn in *; [|discriminate].
  assert (2 <= 1) by (apply Hm'; auto; unfold Qle; simpl; lia). lra.
Qed.
Print Assumptions C05_active_event_refuted.

(** stepping back across an event returns the later event's value *)
Theorem C05_backward_step_refuted :
  exists s t v, reachable s /\ snd (solar_events s t) = Ok v /\
    v = SolarV 60 300 /\ scheduled (SolarV (ins_default (espec s)) Tactual_default)
       (items (solar s)) t (SolarV 50 300).
Proof.
  exists (fst (run (init_events default_spec true true true true)
     [OAddSolar 1 50 300; OAddSolar 2 60 300; OAddSolar 9 70 300; OQSolar 1; OQSolar 2])).
  exists (19#10), (SolarV 60 300). split; [do 6 eexists; reflexivity|].
  split; [vm_compute; reflexivity|]. split; [reflexivity|].
  match goal with |- scheduled _ (items (solar ?s)) _ _ =>
    let l := eval vm_compute in (items (solar s)) in
    replace (items (solar s)) with l by (vm_compute; reflexivity) end.
  left. exists (Ev 1 (SolarV 50 300)). split; [left; reflexivity|].
  split; [unfold Qle; simpl; lia|]. split; [reflexivity|].
  intros e' [<-|[<-|[<-|[]]]]; cbn [eT]; intros; lra.
Qed.
Print Assumptions C05_backward_step_refuted.

(** forward (even skipping) runs never report an event that has not started *)
Theorem C05_no_future_event_partial :
  forall s ts, reachable s -> solarEn s = true ->
  let s0 := reset_counters s in
  nondecreasing None ts ->
  Forall2 (fun t r => exists v, r = Ok v /\
     (v = SolarV (ins_default (espec s0)) Tactual_default \/
      exists e, In e (items (solar s0)) /\ eT e <= t /\ v = eV e)) ts (solar_run s0 ts).
Proof.
  intros s ts Hr He s0 Hn. apply solar_no_future; auto.
  apply (step_inv s OReset (reachable_inv s Hr)).
Qed.
Print Assumptions C05_no_future_event_partial.

(** and repeating the query at one time settles on the right value *)
Theorem C05_repeated_query_settles_partial :
  forall s t, reachable s -> solarEn s = true ->
  let s0 := reset_counters s in
  exists v, last (solar_run s0 (repeat t (S (length (items (solar s0)))))) (Raise ValueError) = Ok v /\
    scheduled (SolarV (ins_default (espec s0)) Tactual_default) (items (solar s0)) t v.
Proof.
  intros s t Hr He s0. apply solar_catch_up; auto.
  apply (step_inv s OReset (reachable_inv s Hr)).
Qed.
Print Assumptions C05_repeated_query_settles_partial.

(** * C06 *)
Theorem C06_grid_voltage_frequency :
  forall s ts, reachable s -> gridEn s = true -> override_angle s = true ->
  let s0 := reset_counters s in
  forward (items (grid s0)) None ts ->
  Forall2 (fun t r => exists v, r = Ok v /\
     scheduled (vol_default (espec s0), frq_default (espec s0))
               (map vf (items (grid s0))) t (Vgrid v, fgrid v)) ts (grid_run s0 ts).
Proof.
  intros s ts Hr He Ho s0 Hf.
  apply (grid_run_forward ts s0 None); auto.
  - apply Safe_reset; auto. apply reachable_inv; auto.
  - apply synced_start. reflexivity.
Qed.
Print Assumptions C06_grid_voltage_frequency.

Definition grid_demo : events :=
  fst (run (init_events default_spec true true true true)
    [OAddGrid 2 (9#10) (1#2) 61; OAddGrid 1 (8#10) (7#10) 59; OAddGrid 3 1 0 60]).
Example C06_hypotheses_met :
  reachable grid_demo /\ forward (items (grid (reset_counters grid_demo))) None [0; 1; (3#2); 2; 3; 3] /\
  map (fun r => match r with Ok v => Some (Vgrid v, fgrid v) | _ => None end)
      (grid_run (reset_counters grid_demo) [0; 1; (3#2); 2; 3]) =
  [Some (1, 60); Some (8#10, 59); Some (8#10, 59); Some (9#10, 61); Some (1, 60)].
Proof.
  split; [do 6 eexists; reflexivity|]. split; [|vm_compute; reflexivity].
  cbn. repeat split; auto; try (unfold Qle; simpl; lia);
  intros e1 e2 [<-|[<-|[<-|[]]]] [<-|[<-|[<-|[]]]]; cbn; intros; try reflexivity; lra.
Qed.

(** * C07 *)
Theorem C07_angle_follows_frequency :
  forall s ts, reachable s -> gridEn s = true -> override_angle s = true ->
  let s0 := reset_counters s in
  forward (items (grid s0)) None ts -> windowed (items (grid s0)) None ts ->
  Forall (fun r => exists v, r = Ok v /\ angle_follows_frequency s0 v) (grid_run s0 ts).
Proof.
  intros s ts Hr He Ho s0 Hf Hw.
  apply (grid_run_angle ts s0 None); auto.
  - apply Safe_reset; auto. apply reachable_inv; auto.
  - apply synced_start. reflexivity.
  - intros i e _ Hi. simpl in Hi. lia.
Qed.
Print Assumptions C07_angle_follows_frequency.

Example C07_hypotheses_met :
  windowed (items (grid (reset_counters grid_demo))) None [0; 1; (3#2); 2; 3; 4].
Proof.
  cbn. unfold last_seen_in_window. repeat split; intros e He Hm Ht;
    cbn in He; destruct He as [<-|[<-|[<-|[]]]]; cbn in *; try (exfalso; lra);
    try (exfalso; specialize (Hm (Ev 3 (GridV 1 0 60)) ltac:(auto)); cbn in Hm; lra);
    try (exists 3; split; [reflexivity|lra]).
Qed.

(** the phase angle the user scheduled is not the one reported *)
Theorem C07_user_angle_refuted :
  exists s t v, reachable s /\ lookup (items (grid s)) 1 = Some (GridV 1 (1#2) 60) /\
    snd (grid_events s t) = Ok v /\ t == 1 /\ ~ Vangle v == (1#2).
Proof.
  exists (fst (run (init_events default_spec true true true true) [OAddGrid 1 1 (1#2) 60])), 1.
  eexists. split; [do 6 eexists; reflexivity|]. split; [vm_compute; reflexivity|].
  split; [vm_compute; reflexivity|]. split; [reflexivity|]. vm_compute. discriminate.
Qed.
Print Assumptions C07_user_angle_refuted.

(** and whether it is reported depends on where the solver happens to step *)
Theorem C07_step_dependence_refuted :
  exists s ts1 ts2 v1 v2, reachable s /\ forward (items (grid s)) None ts1 /\ forward (items (grid s)) None ts2 /\
    last ts1 0 = last ts2 0 /\
    last (grid_run s ts1) (Raise ValueError) = Ok v1 /\ last (grid_run s ts2) (Raise ValueError) = Ok v2 /\
    ~ Vangle v1 == Vangle v2.
Proof.
  exists (fst (run (init_events default_spec true true true true) [OAddGrid 1 1 (1#2) 60])),
    [(1001#1000); 2], [2].
  do 2 eexists. split; [do 6 eexists; reflexivity|].
  split. { cbn. repeat split; auto; try (unfold Qle; simpl; lia);
           intros e1 e2 [<-|[]] [<-|[]]; intros; reflexivity. }
  split. { cbn. repeat split; auto; intros e1 e2 [<-|[]] [<-|[]]; intros; reflexivity. }
  split; [reflexivity|]. split; [vm_compute; reflexivity|]. split; [vm_compute; reflexivity|].
  vm_compute. discriminate.
Qed.
Print Assumptions C07_step_dependence_refuted.

(** * C08 *)
Theorem C08_queries_never_raise :
  forall sp a b c os t, forallb (fun o => negb (removes o)) os = true ->
  let s := fst (run (init_events sp true a b c) os) in
  is_ok (snd (solar_events s t)) = true /\ is_ok (snd (grid_events s t)) = true /\
  is_ok (snd (load_events s t)) = true.
Proof.
  intros sp a b c os t H s. pose proof (run_safe os _ H (Safe_init sp a b c)) as HS.
  split; [apply solar_safe; auto|]. split; [apply grid_safe; auto|apply load_safe; auto].
Qed.
Print Assumptions C08_queries_never_raise.

(** removals are harmless if the counters are reset afterwards *)
Theorem C08_queries_never_raise_after_reset :
  forall s os t, reachable s -> override_angle s = true ->
  forallb (fun o => negb (removes o)) os = true ->
  let s' := fst (run (reset_counters s) os) in
  is_ok (snd (solar_events s' t)) = true /\ is_ok (snd (grid_events s' t)) = true /\
  is_ok (snd (load_events s' t)) = true.
Proof.
  intros s os t Hr Ho H s'.
  pose proof (run_safe os _ H (Safe_reset s (reachable_inv s Hr) Ho)) as HS.
  split; [apply solar_safe; auto|]. split; [apply grid_safe; auto|apply load_safe; auto].
Qed.
Print Assumptions C08_queries_never_raise_after_reset.

Theorem C08_crash_after_removal_refuted :
  exists os t, snd (grid_events (fst (run (init_events default_spec true true true true) os)) t)
               = Raise IndexError.
Proof.
  exists [OAddGrid 1 1 0 60; OAddGrid 2 1 0 60; OQGrid 1; ORemGrid 2], 3. vm_compute. reflexivity.
Qed.
Print Assumptions C08_crash_after_removal_refuted.

(** without angle override a mere query can raise ValueError *)
Theorem C08_query_without_override_refuted :
  exists os t, snd (grid_events (fst (run (init_events default_spec false true true true) os)) t)
               = Raise ValueError.
Proof. exists [OAddGrid 1 1 (1#2) 60], 1. vm_compute. reflexivity. Qed.
Print Assumptions C08_query_without_override_refuted.

Example C08_nontrivial :
  forallb (fun o => negb (removes o)) [OAddGrid 1 1 0 60; OAddGrid 2 1 0 61; OQGrid 5; OQGrid 0; OAddSolar 3 200 300] = true.
Proof. reflexivity. Qed.

(** * C09 *)
Theorem C09_remove_grid :
  forall s T, reachable s ->
  let s' := fst (remove_grid_event s T) in
  snd (remove_grid_event s T) = Ok tt /\
  (forall t, T == t -> lookup (items (grid s')) t = None) /\
  (forall t, ~ T == t -> lookup (items (grid s')) t = lookup (items (grid s)) t) /\
  items (solar s') = items (solar s) /\ items (load s') = items (load s).
Proof.
  intros s T Hr s'. destruct (remove_grid_ok s T (reachable_inv s Hr)) as (H1 & H2 & H3 & H4).
  split; auto. repeat split; auto; intros t Ht; unfold s'; rewrite H2;
    [rewrite (proj2 (qeq_iff _ _) Ht)|rewrite (proj2 (qeq_false _ _) Ht)]; reflexivity.
Qed.
Print Assumptions C09_remove_grid.
Theorem C09_remove_load :
  forall s T, reachable s ->
  let s' := fst (remove_load_event s (Some T) false) in
  snd (remove_load_event s (Some T) false) = Ok tt /\
  (forall t, T == t -> lookup (items (load s')) t = None) /\
  (forall t, ~ T == t -> lookup (items (load s')) t = lookup (items (load s)) t) /\
  items (solar s') = items (solar s) /\ items (grid s') = items (grid s).
Proof.
  intros s T Hr s'. destruct (remove_load_ok s T (reachable_inv s Hr)) as (H1 & H2 & H3 & H4).
  split; auto. repeat split; auto; intros t Ht; unfold s'; rewrite H2;
    [rewrite (proj2 (qeq_iff _ _) Ht)|rewrite (proj2 (qeq_false _ _) Ht)]; reflexivity.
Qed.
Print Assumptions C09_remove_load.

(** removing a solar event never works, for any event and any state *)
Theorem C09_remove_solar_refuted :
  forall s T, remove_solar_event s (Some T) false = (s, Raise NameError).
Proof. reflexivity. Qed.
Print Assumptions C09_remove_solar_refuted.
Theorem C09_remove_all_refuted :
  forall s T, (exists s', remove_solar_event s T true = (s', Raise AttributeError) /\ items (solar s') = []) /\
              (exists s', remove_load_event s T true = (s', Raise AttributeError) /\ items (load s') = []).
Proof. intros s T. split; eexists; (split; [reflexivity|reflexivity]). Qed.
Print Assumptions C09_remove_all_refuted.

(** * C10 *)
Theorem C10_random_insolation_accepted :
  forall s t r, reachable s -> ins_min (espec s) <= ins_max (espec s) -> 0 <= r < 1 ->
  exists s' v, create_random_insolation s t r = (s', Ok tt) /\
    (forall t', t == t' -> lookup (items (solar s')) t' = Some v) /\
    Sinsol v == ins_min (espec s) + r * (ins_max (espec s) - ins_min (espec s)) /\
    ins_min (espec s) <= Sinsol v <= ins_max (espec s) /\
    (forall t', ~ t == t' -> lookup (items (solar s')) t' = lookup (items (solar s)) t') /\
    items (grid s') = items (grid s) /\ items (load s') = items (load s).
Proof.
  intros s t r Hs Hm Hr. destruct (random_insolation_ok s t r Hm ltac:(lra)) as (s' & E).
  unfold create_random_insolation in *. pose proof (C02_add_solar_replaces_exactly _ _ _ _ _ Hs E) as (A & B & C & D).
  exists s'. eexists. split; [exact E|]. split; [exact A|]. cbn [Sinsol]. split; [reflexivity|].
  split; [split; nra|]. auto.
Qed.
Print Assumptions C10_random_insolation_accepted.
Theorem C10_random_voltage_accepted :
  forall s t r, reachable s -> vol_min (espec s) <= vol_max (espec s) -> frq_min (espec s) <= 60 <= frq_max (espec s) ->
  0 <= r < 1 -> exists s' v, create_random_voltage s t r = (s', Ok tt) /\
    (forall t', t == t' -> lookup (items (grid s')) t' = Some v) /\
    Vgrid v == vol_min (espec s) + r * (vol_max (espec s) - vol_min (espec s)) /\
    vol_min (espec s) <= Vgrid v <= vol_max (espec s) /\ fgrid v == 60 /\
    (forall t', ~ t == t' -> lookup (items (grid s')) t' = lookup (items (grid s)) t') /\
    items (solar s') = items (solar s) /\ items (load s') = items (load s).
Proof.
  intros s t r Hs Hm Hf Hr. destruct (random_voltage_ok s t r Hm Hf ltac:(lra)) as (s' & E).
  unfold create_random_voltage in *. pose proof (C02_add_grid_replaces_exactly _ _ _ _ _ _ Hs E) as (A & B & C & D).
  exists s'. eexists. split; [exact E|]. split; [exact A|]. cbn [Vgrid fgrid]. split; [reflexivity|].
  split; [split; nra|]. split; [reflexivity|]. auto.
Qed.
Print Assumptions C10_random_voltage_accepted.
(** create_random_events: a whole sequence of random choices and draws never
    raises, keeps the schedules admissible, and no event time outside the given
    time points is touched *)
Theorem C10_random_events_loop :
  forall pts s, reachable s -> ins_min (espec s) <= ins_max (espec s) -> vol_min (espec s) <= vol_max (espec s) ->
  frq_min (espec s) <= 60 <= frq_max (espec s) -> (forall t ch r, In (t, (ch, r)) pts -> 0 <= r < 1) ->
  exists s', random_loop s pts = (s', Ok tt) /\ schedules_ok s' /\ espec s' = espec s /\
    items (load s') = items (load s) /\
    (forall t', (forall t ch r, In (t, (ch, r)) pts -> ~ t == t') ->
       lookup (items (solar s')) t' = lookup (items (solar s)) t' /\ lookup (items (grid s')) t' = lookup (items (grid s)) t') /\
    reachable s'.
Proof.
  induction pts as [|[t [ch r]] pts IH]; intros s Hs Hi Hv Hf Hr.
  - exists s. split; [reflexivity|]. split; [apply C01_schedules_sorted_unique_in_range; auto|]. auto.
  - assert (Hr0 : 0 <= r < 1) by (apply (Hr t ch r); left; auto).
    assert (Step : exists s1, match ch with Some true => create_random_insolation s t r | Some false => create_random_voltage s t r | None => (s, Ok tt) end = (s1, Ok tt) /\
      reachable s1 /\ espec s1 = espec s /\ items (load s1) = items (load s) /\
      forall t', ~ t == t' -> lookup (items (solar s1)) t' = lookup (items (solar s)) t' /\ lookup (items (grid s1)) t' = lookup (items (grid s)) t').
    { assert (RA : forall o s1, step s o = (s1, Ok OUnit) -> reachable s1).
      { intros o s1 E. destruct Hs as (sp & ov & a & b & c & os & Es).
        exists sp, ov, a, b, c, (os ++ [o])%list.
        assert (RS : forall os s0, fst (run s0 (os ++ [o])) = fst (step (fst (run s0 os)) o)).
        { clear. induction os as [|p os IH]; intros s0; cbn [app run].
          - cbn [fst]. destruct (step s0 o) as [x y]. reflexivity.
          - destruct (step s0 p) as [x y]. specialize (IH x). destruct (run x (os ++ [o])). destruct (run x os). exact IH. }
        rewrite RS, <- Es, E. reflexivity. }
      destruct ch as [[]|].
      - destruct (C10_random_insolation_accepted s t r Hs Hi Hr0) as (s1 & v & E & _ & _ & _ & A & B & C).
        exists s1. split; [exact E|]. split; [apply (RA (ORandSolar t r)); cbn [step]; rewrite E; reflexivity|].
        split; [unfold create_random_insolation, add_solar_event in E; repeat (destruct (_ || _)%bool; [discriminate|]); assert (Q1 := f_equal (fun p => espec (fst p)) E); symmetry; exact Q1|].
        split; [exact C|]. intros t' Ht. split; [auto|congruence].
      - destruct (C10_random_voltage_accepted s t r Hs Hv Hf Hr0) as (s1 & v & E & _ & _ & _ & _ & A & B & C).
        exists s1. split; [exact E|]. split; [apply (RA (ORandGrid t r)); cbn [step]; rewrite E; reflexivity|].
        split; [unfold create_random_voltage, add_grid_event in E; repeat (destruct (_ || _)%bool; [discriminate|]); assert (Q1 := f_equal (fun p => espec (fst p)) E); symmetry; exact Q1|].
        split; [exact C|]. intros t' Ht. split; [congruence|auto].
      - exists s. split; [reflexivity|]. auto. }
    destruct Step as (s1 & E1 & R1 & S1 & L1 & K1).
    destruct (IH s1 R1) as (s' & E2 & OK & S2 & L2 & K2 & R2); try (rewrite S1; assumption).
    { intros t2 ch2 r2 Hin. apply (Hr t2 ch2 r2). right. exact Hin. }
    exists s'. split; [cbn [random_loop]; rewrite E1; exact E2|]. split; [exact OK|].
    split; [congruence|]. split; [congruence|]. split; [|exact R2].
    intros t' Ht. destruct (K2 t') as [A B]; [intros t2 ch2 r2 Hin; apply (Ht t2 ch2 r2); right; exact Hin|].
    destruct (K1 t') as [C D]; [apply (Ht t ch r); left; reflexivity|]. split; congruence.
Qed.
Print Assumptions C10_random_events_loop.
Example C10_hypotheses_met :
  reachable (init_events default_spec true true true true) /\
  let p := random_loop (init_events default_spec true true true true) [(1, (Some true, 1#2)); (2, (Some false, 1#4)); (3, (None, 0))] in
  snd p = Ok tt /\ map eT (items (solar (fst p))) = [1] /\ map eT (items (grid (fst p))) = [2].
Proof. split; [do 5 eexists; exists []; reflexivity|]. vm_compute. auto. Qed.
Example C10_default_spec_ok :
  ins_min default_spec <= ins_max default_spec /\ vol_min default_spec <= vol_max default_spec /\
  frq_min default_spec <= 60 <= frq_max default_spec.
Proof. repeat split; unfold Qle; simpl; lia. Qed.

(** * C11 *)
Theorem C11_insolation_ramp :
  forall s tstart tstop target tstep S0, reachable s -> 0 < tstep ->
  snd (solar_events s tstart) = Ok S0 ->
  ins_min (espec s) <= Sinsol S0 <= ins_max (espec s) ->
  ins_min (espec s) <= target <= ins_max (espec s) ->
  exists s' n, insolation_ramp s tstart tstop target tstep = (s', Ok tt) /\
    schedules_ok s' /\
    items (grid s') = items (grid s) /\ items (load s') = items (load s) /\
    (* exactly the points tstart + i*tstep below tstop *)
    (forall i, (i < n)%nat <-> tstart + inject_Z (Z.of_nat i) * tstep < tstop) /\
    (* on the straight line from the initial insolation to the target *)
    (forall i, (i < n)%nat -> exists v,
        lookup (items (solar s')) (tstart + inject_Z (Z.of_nat i) * tstep) = Some v /\
        Tactual v = 29815#100 /\
        (n = 1%nat -> Sinsol v == Sinsol S0) /\
        ((2 <= n)%nat -> Sinsol v == Sinsol S0 +
           inject_Z (Z.of_nat i) / inject_Z (Z.of_nat (n - 1)) * (target - Sinsol S0))) /\
    (* nothing else changes *)
    (forall t, (forall i, (i < n)%nat -> ~ t == tstart + inject_Z (Z.of_nat i) * tstep) ->
        lookup (items (solar s')) t = lookup (items (solar s)) t).
Proof.
  intros s a b g st S0 Hr Hst Hq HS Hg.
  destruct (insolation_ramp_ok s a b g st S0 (reachable_inv s Hr) Hst Hq HS Hg)
    as (s' & n & E & HI & Hgr & Hld & Hn & Hv & Ho).
  exists s', n. split; auto. split; [apply HI|]. repeat (split; [assumption|]). auto.
Qed.
Print Assumptions C11_insolation_ramp.

Example C11_hypotheses_met :
  let s := init_events default_spec true true true true in
  reachable s /\ snd (solar_events s 1) = Ok (SolarV 100 (29815#100)) /\
  map (fun e => Sinsol (eV e)) (items (solar (fst (insolation_ramp s 1 2 40 (1#4))))) <> [].
Proof.
  split; [exists default_spec, true, true, true, true, []; reflexivity|].
  split; [reflexivity|]. vm_compute. discriminate.
Qed.

(** with a single point the target is never scheduled *)
Theorem C11_single_point_target_refuted :
  exists s s', reachable s /\ insolation_ramp s 1 (5#4) 40 (1#4) = (s', Ok tt) /\
    forall t v, lookup (items (solar s')) t = Some v -> ~ Sinsol v == 40.
Proof.
  exists (init_events default_spec true true true true). eexists.
  split; [exists default_spec, true, true, true, true, []; reflexivity|].
  split; [vm_compute; reflexivity|].
  intros t v. cbn. destruct (qeq _ t); [|discriminate]. intros [= <-]. vm_compute. discriminate.
Qed.
Print Assumptions C11_single_point_target_refuted.

(** and the ramp may start from an insolation that is not the active one *)
Theorem C11_wrong_start_refuted :
  exists s s' v, reachable s /\ insolation_ramp s 3 4 40 (1#4) = (s', Ok tt) /\
    scheduled (SolarV (ins_default (espec s)) Tactual_default) (items (solar s)) 3 (SolarV 80 300) /\
    lookup (items (solar s')) 3 = Some v /\ ~ Sinsol v == 80.
Proof.
  exists (fst (run (init_events default_spec true true true true) [OAddSolar 1 60 300; OAddSolar 2 80 300])).
  do 2 eexists. split; [do 6 eexists; reflexivity|]. split; [vm_compute; reflexivity|].
  split.
  - left. exists (Ev 2 (SolarV 80 300)). cbn. split; auto. split; [unfold Qle; simpl; lia|].
    split; auto. intros e' [<-|[<-|[]]]; cbn; intros; lra.
  - split; [vm_compute; reflexivity|]. vm_compute. discriminate.
Qed.
Print Assumptions C11_wrong_start_refuted.

(** * C12 *)
Theorem C12_voltage_ramp_refuted :
  forall s tstart tstop target tstep v, 0 < tstep -> tstart < tstop ->
  snd (grid_events s tstart) = Ok v ->
  snd (voltage_ramp s tstart tstop target tstep) = Raise TypeError.
Proof.
  intros s a b g st v Hst Hab Hq. unfold voltage_ramp.
  destruct (grid_events s a) as [s1 r]. simpl in Hq. subst r.
  destruct (arange a b st) as [l|x] eqn:Ear.
  - pose proof (arange_length a b st l Hst Ear 0) as H.
    destruct l as [|y l]; [|reflexivity]. exfalso.
    assert (H0 : (0 < length (@nil Q))%nat).
    { apply H. change (inject_Z (Z.of_nat 0)) with 0. rewrite Qmult_0_l, Qplus_0_r. exact Hab. } simpl in H0. lia.
  - unfold arange in Ear. destruct (qeq st 0) eqn:E; [qb; lra|discriminate].
Qed.
Print Assumptions C12_voltage_ramp_refuted.
(** What is left of the property: a ramp without points is accepted, and no ramp - accepted
    or not - changes the schedules beyond what the query of the grid voltage at its start
    does. *)
Theorem C12_no_ramp_adds_events_partial :
  forall s tstart tstop target tstep,
  fst (voltage_ramp s tstart tstop target tstep) = fst (grid_events s tstart) /\
  (forall v, 0 < tstep -> tstop <= tstart -> snd (grid_events s tstart) = Ok v ->
     snd (voltage_ramp s tstart tstop target tstep) = Ok tt).
Proof.
  intros s a b g st. unfold voltage_ramp. destruct (grid_events s a) as [s1 r]. split.
  - destruct r as [v|x]; [|reflexivity]. destruct (arange a b st) as [[|y l]|x]; reflexivity.
  - intros v Hst Hab Hq. simpl in Hq. subst r. destruct (arange a b st) as [l|x] eqn:Ear.
    + pose proof (arange_length a b st l Hst Ear 0) as H. destruct l as [|y l]; [reflexivity|]. exfalso.
      assert (K : (0 < length (y :: l))%nat) by (simpl; lia). apply H in K.
      change (inject_Z (Z.of_nat 0)) with 0 in K. rewrite Qmult_0_l, Qplus_0_r in K. lra.
    + unfold arange in Ear. destruct (qeq st 0) eqn:E; [qb; lra|discriminate].
Qed.
Print Assumptions C12_no_ramp_adds_events_partial.
Example C12_hypotheses_met :
  snd (grid_events (init_events default_spec true true true true) 1) = Ok (GridV 1 0 60).
Proof. reflexivity. Qed.

(** * C13 *)
Theorem C13_spec_isolation_refuted :
  exists w u, 
    snd (call w 0 (OAddSolar 1 20 300)) = Raise ValueError /\
    snd (new_instance w (Some u) true true true) = Ok tt /\
    snd (call (fst (new_instance w (Some u) true true true)) 0 (OAddSolar 1 20 300)) = Ok OUnit.
Proof.
  exists (World default_spec [init_events default_spec true true true true]),
    [(KInsolation, [(KMin, 10)])]. vm_compute. auto.
Qed.
Print Assumptions C13_spec_isolation_refuted.

(** isolation does hold for instances created without a specification, and a
    rejected specification changes nothing *)
Theorem C13_spec_isolation_partial :
  forall w se ge le, 
  cspec (fst (new_instance w None se ge le)) = cspec w /\
  (forall u, snd (new_instance w (Some u) se ge le) = Raise AssertionError ->
     fst (new_instance w (Some u) se ge le) = w) /\
  (forall i o s, nth_error (insts w) i = Some s ->
     snd (call (fst (new_instance w None se ge le)) i o) = snd (call w i o)).
Proof.
  intros w se ge le. split; [reflexivity|]. split.
  - intros u. unfold new_instance, update_events_spec.
    destruct (forallb _ u); simpl; [discriminate|]. intros _. destruct w; reflexivity.
  - intros i o s Hi. unfold call. simpl. rewrite (nth_error_prefix _ _ _ _ Hi), Hi.
    unfold view. simpl. destruct (step _ o). reflexivity.
Qed.
Print Assumptions C13_spec_isolation_partial.
