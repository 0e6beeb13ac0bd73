(** C131: running the same simulation again. *)
From Verif Require Import Base EventsModel EventsSpec TimedLemmas QueryLemmas EventsProofs EventsProofs2 RerunModel.

(** queries leave the programmed schedule alone, except the stored angles *)
Definition same_schedule (s s' : events) : Prop :=
  same_config s s' /\ items (solar s') = items (solar s) /\ items (load s') = items (load s) /\
  map vf (items (grid s')) = map vf (items (grid s)).

Lemma same_schedule_trans a b c : same_schedule a b -> same_schedule b c -> same_schedule a c.
Proof.
  unfold same_schedule. intros (C1 & S1 & L1 & G1) (C2 & S2 & L2 & G2).
  split; [eapply same_config_trans; eauto|]. repeat split; congruence.
Qed.
Lemma query_items {A} (d : A) sc t : items (fst (query_sched d sc t)) = items sc.
Proof.
  unfold query_sched. destruct (items sc) as [|e0 l] eqn:E; [exact E|].
  destruct (qlt t (eT e0)); [exact E|]. destruct (py_index (e0 :: l) (counter sc)) as [ec|x]; [|exact E].
  destruct (qlt t (eT ec) && (1 <=? counter sc)%Z)%bool.
  - destruct (py_index (e0 :: l) (counter sc - 1)); exact E.
  - destruct (qle (eT ec) t); [reflexivity|exact E].
Qed.
Lemma query_keeps s o : Safe s -> is_query o = true -> same_schedule s (fst (step s o)).
Proof.
  intros HS Hq. destruct o; try discriminate; cbn [step].
  - unfold wrap, solar_events. destruct (solarEn s) eqn:En; [|repeat split].
    pose proof (query_items (SolarV (ins_default (espec s)) Tactual_default) (solar s) t) as Q.
    destruct (query_sched _ (solar s) t) as [sc r]. cbn in *. repeat split; auto.
  - unfold wrap. cbn [fst]. destruct (gridEn s) eqn:En; [|rewrite grid_disabled by auto; repeat split].
    destruct (items (grid s)) as [|e0 l] eqn:Ei; [rewrite grid_empty by auto; repeat split|].
    assert (Hne : items (grid s) <> []) by congruence.
    destruct HS as [HI Ho Rs [Rg Rg0] Rl].
    destruct (grid_exact s t HI Rg Ho En Hne) as (l1 & ec & l2 & el & Hit & Hc & _ & Hcase). cbv zeta in Hcase.
    destruct Hcase as [[Ht Eq]|[(Ht & Hw & s' & Eq & Hcfg & Hi & Hc' & Htt & Hi2 & Hi3 & Hc2 & Hc3)|(Ht & Hw & Eq)]]; rewrite Eq; cbn [fst].
    + repeat split.
    + split; [exact Hcfg|]. split; [exact Hi2|]. split; [exact Hi3|]. rewrite Hi, Hit, !map_app. reflexivity.
    + repeat split.
  - unfold wrap, load_events. destruct (loadEn s) eqn:En; [|repeat split].
    pose proof (query_items Zload_default (load s) t) as Q.
    destruct (query_sched _ (load s) t) as [sc r]. cbn in *. repeat split; auto.
Qed.
Lemma queries_keep qs : forall s, Safe s -> forallb is_query qs = true ->
  Safe (fst (run s qs)) /\ same_schedule s (fst (run s qs)).
Proof.
  induction qs as [|o qs IH]; intros s HS Hq; cbn [run forallb] in *.
  - split; auto. repeat split.
  - apply andb_true_iff in Hq as [Ho Hq].
    assert (Hr : removes o = false) by (destruct o; try discriminate; reflexivity).
    pose proof (step_safe s o Hr HS) as H1. pose proof (query_keeps s o HS Ho) as H2.
    destruct (step s o) as [s1 r]. cbn [fst] in *. destruct (IH s1 H1 Hq) as [H3 H4].
    destruct (run s1 qs) as [s2 rs]. cbn [fst] in *. split; auto. eapply same_schedule_trans; eauto.
Qed.

(** After a run that completed - whatever it queried - the next run reports, at every
    time of a forward run, what the schedule programmed by the user says; after a run
    that failed the same holds once reset_event_counters has been called. *)
Theorem C131_next_run_follows_schedule_partial :
  forall s qs ts, reachable s -> override_angle s = true -> forallb is_query qs = true ->
  let s0 := reset_counters s in
  let good s1 :=
    (solarEn s = true -> forward (items (solar s)) None ts ->
     Forall2 (fun t r => exists v, r = Ok v /\
       scheduled (SolarV (ins_default (espec s)) Tactual_default) (items (solar s)) t v) ts (solar_run s1 ts)) /\
    (loadEn s = true -> forward (items (load s)) None ts ->
     Forall2 (fun t r => exists v, r = Ok v /\ scheduled Zload_default (items (load s)) t v) ts (load_run s1 ts)) /\
    (gridEn s = true -> forward (items (grid s)) None ts ->
     Forall2 (fun t r => exists v, r = Ok v /\
       scheduled (vol_default (espec s), frq_default (espec s)) (map vf (items (grid s))) t (Vgrid v, fgrid v)) ts (grid_run s1 ts)) in
  good (batch_run s0 qs Completed) /\ good (reset_counters (batch_run s0 qs Raised)).
Proof.
  intros s qs ts Hr Ho Hq s0 good.
  assert (HS : Safe s0) by (apply Safe_reset; auto; apply reachable_inv; auto).
  destruct (queries_keep qs s0 HS Hq) as [HS1 (Hc & H1 & H2 & H3)].
  assert (G : good (reset_counters (fst (run s0 qs)))); [|split; exact G].
  set (s1 := fst (run s0 qs)) in *. clearbody s1.
  destruct Hc as (C1 & C2 & C3 & C4 & C5). unfold s0 in *. cbn in C1, C2, C3, C4, C5, H1, H2, H3.
  assert (HR : Safe (reset_counters s1)) by (apply Safe_reset; [apply HS1|congruence]).
  split; [|split]; intros En Hf.
  - rewrite <- H1, <- C1. apply (solar_forward (reset_counters s1)); [apply HR|cbn; congruence|reflexivity|].
    cbn. rewrite H1. exact Hf.
  - rewrite <- H2. apply (load_forward (reset_counters s1)); [apply HR|cbn; congruence|reflexivity|].
    cbn. rewrite H2. exact Hf.
  - rewrite <- H3, <- C1. apply (grid_run_forward ts (reset_counters s1) None); auto.
    + cbn; congruence.
    + apply synced_start. reflexivity.
    + cbn. eapply forward_vf; [symmetry; exact H3|exact Hf].
Qed.
Print Assumptions C131_next_run_follows_schedule_partial.

(** REFUTED after a failure: the next run starts with the event reached by the failed
    run - a grid voltage and frequency scheduled for later (the schedule asks for the
    defaults), and an irradiance scheduled for later. *)
Definition rerun_demo : events :=
  fst (run (init_events default_spec true true true true)
    [OAddGrid 2 (9#10) 0 61; OAddGrid 4 (8#10) 0 59; OAddGrid 9 1 0 60;
     OAddSolar 2 50 300; OAddSolar 4 60 300; OAddSolar 9 70 300]).
Theorem C131_after_failed_run_refuted :
  exists s qs vg vs, reachable s /\ override_angle s = true /\ forallb is_query qs = true /\
  let s1 := batch_run (reset_counters s) qs Raised in
  (forall e, In e (items (grid s)) -> 0 < eT e) /\
  snd (grid_events s1 0) = Ok vg /\ Vgrid vg = 8#10 /\ fgrid vg = 59 /\
  vol_default (espec s) = 1 /\ frq_default (espec s) = 60 /\
  snd (solar_events s1 3) = Ok vs /\ vs = SolarV 60 300 /\
  scheduled (SolarV (ins_default (espec s)) Tactual_default) (items (solar s)) 3 (SolarV 50 300).
Proof.
  exists rerun_demo, [OQSolar 0; OQGrid 0; OQSolar 2; OQGrid 2; OQSolar 4; OQGrid 4].
  eexists. eexists. split; [do 6 eexists; reflexivity|]. split; [reflexivity|]. split; [reflexivity|].
  cbv zeta. split.
  { intros e He. vm_compute in He. destruct He as [<-|[<-|[<-|[]]]]; reflexivity. }
  split; [vm_compute; reflexivity|]. split; [reflexivity|]. split; [reflexivity|]. split; [reflexivity|]. split; [reflexivity|].
  split; [vm_compute; reflexivity|]. split; [reflexivity|].
  left. exists (Ev 2 (SolarV 50 300)). split; [vm_compute; auto|]. split; [unfold Qle; simpl; lia|]. split; [reflexivity|].
  intros e He. vm_compute in He. destruct He as [<-|[<-|[<-|[]]]]; cbn [eT]; intros; lra.
Qed.
Print Assumptions C131_after_failed_run_refuted.

Example C131_hypotheses_met :
  reachable rerun_demo /\ override_angle rerun_demo = true /\ solarEn rerun_demo = true /\ gridEn rerun_demo = true /\
  forward (items (solar rerun_demo)) None [0; 2; 3; 4; 9] /\ forward (items (grid rerun_demo)) None [0; 2; 3; 4; 9] /\
  let s1 := batch_run (reset_counters rerun_demo) [OQSolar 0; OQGrid 0; OQSolar 2; OQGrid 2; OQSolar 4; OQGrid 4] Completed in
  solar_run s1 [0; 2; 3; 4; 9] = map Ok [SolarV 100 (29815#100); SolarV 50 300; SolarV 50 300; SolarV 60 300; SolarV 70 300].
Proof.
  split; [do 6 eexists; reflexivity|]. split; [reflexivity|]. split; [reflexivity|]. split; [reflexivity|].
  assert (F : forall A (a b c : A), forward [Ev 2 a; Ev 4 b; Ev 9 c] None [0; 2; 3; 4; 9]).
  { intros A a b c. cbn. repeat split; auto; try (unfold Qle; simpl; lia);
    intros e1 e2 [<-|[<-|[<-|[]]]] [<-|[<-|[<-|[]]]]; cbn; intros; try reflexivity; lra. }
  split; [|split; [|vm_compute; reflexivity]].
  - match goal with |- forward ?l _ _ => let x := eval vm_compute in l in change l with x end. apply F.
  - match goal with |- forward ?l _ _ => let x := eval vm_compute in l in change l with x end. apply F.
Qed.
