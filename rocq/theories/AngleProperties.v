(** C99: grid schedules given by phase angles (override off). *)
From Verif Require Import Base EventsModel EventsSpec TimedLemmas QueryLemmas EventsProofs EventsProofs2
  AngleSpec AngleProofs.

(** Voltage and angle are those of the schedule at every query of a forward run. *)
Theorem C99_scheduled_angle_kept_partial :
  forall s ts, reachable s -> gridEn s = true -> override_angle s = false -> steps_admissible s ->
  let s0 := reset_counters s in
  forward (items (grid s)) None ts ->
  Forall2 (fun t r => exists v, r = Ok v /\
     scheduled (vol_default (espec s), ang_default (espec s))
               (map va (items (grid s))) t (Vgrid v, Vangle v)) ts (grid_run s0 ts).
Proof.
  intros s ts Hr En Ho Hadm s0 Hf.
  pose proof (step_inv s OReset (reachable_inv s Hr)) as HI.
  apply (grid_run_off ts s0 None); auto.
  - split; simpl; [lia|]. intros Hne. pose proof (len_pos _ Hne). lia.
  - apply synced_start. reflexivity.
Qed.
Print Assumptions C99_scheduled_angle_kept_partial.

(** With the last event seen in its window, the frequency reported is the one
    that belongs to the angle step. *)
Theorem C99_frequency_follows_angle_partial :
  forall s ts, reachable s -> gridEn s = true -> override_angle s = false -> steps_admissible s ->
  let s0 := reset_counters s in
  forward (items (grid s)) None ts -> windowed (items (grid s)) None ts ->
  Forall2 (fun t r => exists v, r = Ok v /\
     scheduled (vol_default (espec s), ang_default (espec s), frq_default (espec s))
               (with_step_frequency (ang_default (espec s)) (items (grid s)))
               t (Vgrid v, Vangle v, fgrid v)) ts (grid_run s0 ts).
Proof.
  intros s ts Hr En Ho Hadm s0 Hf Hw.
  pose proof (step_inv s OReset (reachable_inv s Hr)) as HI.
  apply (grid_run_off_freq ts s0 None); auto.
  - split; simpl; [lia|]. intros Hne. pose proof (len_pos _ Hne). lia.
  - apply synced_start. reflexivity.
  - intros i e _ Hi. simpl in Hi. lia.
Qed.
Print Assumptions C99_frequency_follows_angle_partial.

(** Queries never change the times, voltages or angles of the schedule, whatever
    they return, so a second run sees the same angles. *)
Fixpoint grid_queries (s : events) (ts : list Q) : events :=
  match ts with [] => s | t :: ts' => grid_queries (fst (grid_events s t)) ts' end.
Theorem C99_queries_keep_angles :
  forall s ts, reachable s -> override_angle s = false ->
  map va (items (grid (grid_queries s ts))) = map va (items (grid s)).
Proof.
  intros s ts Hr. apply reachable_inv in Hr. revert s Hr.
  induction ts as [|t ts IH]; intros s HI Ho; [reflexivity|]. simpl.
  destruct (grid_query_keeps s t HI Ho) as (H1 & _ & H2).
  rewrite IH; auto. apply grid_query_inv; auto.
Qed.
Print Assumptions C99_queries_keep_angles.

(** The full claim (any accepted schedule can be played) fails: a step of more
    than about +0.013 or -0.026 rad (0.7 or 1.4 degrees) is accepted when it is
    scheduled and makes every query in its window raise ValueError. *)
Theorem C99_larger_step_refuted :
  forall T t V a f, grid_ok default_spec (GridV V a f) ->
  (a > 126#10000 \/ a < -(252#10000)) -> T <= t -> t < T + (3#1000) ->
  exists s, add_grid_event (init_events default_spec false true true true) T V a f = (s, Ok tt)
    /\ snd (grid_events s t) = Raise ValueError.
Proof.
  intros T t V a f Hok Ha H1 H2.
  destruct (add_grid_exact (init_events default_spec false true true true) T V a f) as [[_ [s Es]]|[Hb _]].
  2:{ exfalso. apply Hb. exact Hok. }
  exists s. split; [exact Es|].
  unfold add_grid_event in Es. destruct (_ || _)%bool; [discriminate|]. destruct (_ || _)%bool; [discriminate|].
  assert (E : s = fst (update_totals (set_grid (init_events default_spec false true true true)
     (Sched (insert_event gridV_eqb T (GridV V a f) []) 0 0)), tt)) by (injection Es as <-; reflexivity).
  subst s. cbn [fst]. unfold grid_events, grid_events_at. cbn [update_totals set_grid init_events gridEn negb grid items counter].
  unfold insert_event, remove_at. cbn [length remove_loop fst app sort_T ins_sorted].
  unfold py_index at 1. cbn [length]. cbn [Z.of_nat Pos.of_succ_nat Z.ltb Z.compare Z.leb andb nth_error Z.to_nat].
  cbn [eT eV]. replace (qlt t T) with false by (symmetry; apply qlt_false; lra).
  cbn [andb]. replace (qle T t) with true by (symmetry; apply qle_iff; lra).
  unfold py_index at 1. cbn [length]. cbn [Z.of_nat Pos.of_succ_nat Z.ltb Z.compare Z.leb andb nth_error Z.to_nat Z.add Z.pos_sub].
  cbn [eT eV override_angle update_totals set_grid init_events andb negb]. replace (qlt t (T + (3#1000))) with true by (symmetry; apply qlt_iff; lra).
  unfold old_grid. cbn [counter grid update_totals set_grid init_events Z.eqb items total eV Vangle Vgrid grid_default espec ang_default default_spec].
  match goal with |- context [add_grid_event ?s _ _ _ ?g] => destruct (add_grid_exact s T V a g) as [[Hg _]|[_ Eg]] end.
  - exfalso. destruct Hg as [_ [Hl Hh]]. cbn [fgrid espec frq_min frq_max default_spec] in Hl, Hh.
    assert (K : (a - 0) / ((2 * math_pi) * del_t_event) == a * (1 / ((2 * math_pi) * del_t_event))) by (field; repeat split; vm_compute; discriminate).
    assert (L : 56 <= 60 + (a - 0) / ((2 * math_pi) * del_t_event)) by exact Hl.
    assert (U : 60 + (a - 0) / ((2 * math_pi) * del_t_event) <= 62) by exact Hh. clear Hl Hh.
    set (x := (a - 0) / ((2 * math_pi) * del_t_event)) in *. clearbody x.
    assert (Kb : 1591#10 < 1 / ((2 * math_pi) * del_t_event)) by (vm_compute; reflexivity).
    set (k := 1 / ((2 * math_pi) * del_t_event)) in *. clearbody k.
    destruct Ha as [Ha|Ha]; nra.
  - rewrite Eg. reflexivity.
Qed.
Print Assumptions C99_larger_step_refuted.

Definition angle_demo : events :=
  fst (run (init_events default_spec false true true true)
    [OAddGrid 2 (9#10) (1#100) 61; OAddGrid 1 (8#10) (-(1#100)) 59; OAddGrid 3 1 (1#200) 60]).
Example C99_hypotheses_met :
  reachable angle_demo /\ gridEn angle_demo = true /\ override_angle angle_demo = false
  /\ forward (items (grid angle_demo)) None [0; 1; (3#2); 2; 3; 4]
  /\ windowed (items (grid angle_demo)) None [0; 1; (3#2); 2; 3; 4].
Proof.
  split; [do 6 eexists; reflexivity|]. split; [reflexivity|]. split; [reflexivity|].
  split.
  - cbn. repeat split; auto; try (unfold Qle; simpl; lia);
    intros e1 e2 [<-|[<-|[<-|[]]]] [<-|[<-|[<-|[]]]]; cbn; intros; try reflexivity; lra.
  - cbn. unfold last_seen_in_window. repeat split; intros e He Hm Ht;
    cbn in He; destruct He as [<-|[<-|[<-|[]]]]; cbn in *; try (exfalso; lra);
    try (exfalso; specialize (Hm (Ev 3 (GridV 1 (1#200) 60)) ltac:(auto)); cbn in Hm; lra);
    try (exists 3; split; [reflexivity|lra]).
Qed.
(** its steps: -0.01 (58.4 Hz), +0.02 would be out of range, so a second demo
    with small steps meets the range condition *)
Definition angle_demo2 : events :=
  fst (run (init_events default_spec false true true true)
    [OAddGrid 2 (9#10) (-(1#200)) 61; OAddGrid 1 (8#10) (-(1#100)) 59; OAddGrid 3 1 (1#200) 60]).
Example C99_steps_admissible_met : steps_admissible angle_demo2 /\ ~ steps_admissible angle_demo.
Proof.
  split.
  - intros e He. cbn in He. destruct He as [<-|[<-|[<-|[]]]]; split; vm_compute; discriminate.
  - intros H. specialize (H _ (or_intror (or_introl eq_refl))). destruct H as [_ H]. vm_compute in H. apply H. reflexivity.
Qed.
