(** Property C110: load events take effect in a simulation. *)
From Coq Require Import String.
From Verif Require Import Base EventsModel EventsSpec EventsProofs EventsProofs2 EventsProperties ModifyModel ModifyProperties LoadModel.
Open Scope string_scope.

(** a per-unit impedance equal to an impedance in ohm *)
Definition is_impedance (Zb : Q) (pu ohm : loadV) : Prop := Zre pu * Zb == Zre ohm /\ Zim pu * Zb == Zim ohm.

Lemma differs_false a b : differs a b = false -> Zre a == Zre b /\ Zim a == Zim b.
Proof.
  unfold differs. intros H. apply negb_false_iff, andb_true_iff in H as [H1 H2]. now rewrite !qeq_iff in *.
Qed.
Lemma per_unit_ok Zb z : ~ Zb == 0 -> is_impedance Zb (per_unit Zb z) z.
Proof. intros H. split; cbn [per_unit Zre Zim]; field; assumption. Qed.

(** what one evaluation does, on a class that has S_load1_calc *)
Lemma update_ok cls Zb s t : defined_for cls "S_load1_calc" = true -> ~ Zb == 0 ->
  let '(s1, r) := update_Zload1 cls Zb true s t in
  l_ev s1 = fst (load_events (l_ev s) t) /\
  match snd (load_events (l_ev s) t) with
  | Ok z => r = Ok tt /\ is_impedance Zb (l_z s1) z
  | Raise x => r = Raise x
  end.
Proof.
  intros Hc Hz. unfold update_Zload1. destruct (load_events (l_ev s) t) as [e [z|x]]; cbn [fst snd l_ev]; [|auto].
  destruct (differs (l_z s) (per_unit Zb z)) eqn:E; cbn [l_ev l_z]; (split; [reflexivity|]).
  - rewrite Hc. split; [reflexivity|]. now apply per_unit_ok.
  - split; [reflexivity|]. apply differs_false in E as [E1 E2]. destruct (per_unit_ok Zb z Hz) as [P1 P2].
    split; [rewrite E1|rewrite E2]; assumption.
Qed.
Lemma evals_follow cls Zb s ts ls : defined_for cls "S_load1_calc" = true -> ~ Zb == 0 -> forall z0,
  Forall2 (fun t r => exists v, r = Ok v /\ scheduled Zload_default ls t v) ts (load_run s ts) ->
  exists l, load_evals cls Zb true (Ld z0 s) ts = (l, Ok tt) /\
    Forall2 (fun t z => exists v, scheduled Zload_default ls t v /\ is_impedance Zb z v) ts l.
Proof.
  intros Hc Hz. revert s. induction ts as [|t ts IH]; intros s z0 H; [exists []; split; constructor|].
  cbn [load_run] in H. cbn [load_evals].
  pose proof (update_ok cls Zb (Ld z0 s) t Hc Hz) as U. cbn [l_ev] in U.
  destruct (update_Zload1 cls Zb true (Ld z0 s) t) as [[z1 s1] r] eqn:E. destruct U as [U1 U2]. cbn [l_ev l_z] in U1, U2.
  destruct (load_events s t) as [e q] eqn:Q. cbn [fst snd] in U1, U2. subst s1.
  inversion H as [|? ? ? ? (v & Hv & Hs) Hrest]; subst. destruct U2 as [-> U2].
  destruct (IH _ z1 Hrest) as (l & L1 & L2). rewrite L1. exists (z1 :: l). split; [reflexivity|].
  constructor; [|exact L2]. exists v. auto.
Qed.

(** In every stand-alone forward simulation of every DER type except the compiled
    one, after the evaluation at time t the load impedance is the one the schedule
    gives for t (the default before the first event). *)
Theorem C110_load_follows_schedule_partial :
  forall cls Zb s ts z0, In cls der_classes -> cls <> "SolarPVDERThreePhaseNumba" -> ~ Zb == 0 ->
  reachable s -> loadEn s = true ->
  let s0 := reset_counters s in
  forward (items (load s0)) None ts ->
  exists l, load_evals cls Zb true (Ld z0 s0) ts = (l, Ok tt) /\
    Forall2 (fun t z => exists v, scheduled Zload_default (items (load s0)) t v /\ is_impedance Zb z v) ts l.
Proof.
  intros cls Zb s ts z0 Hin Hn Hz Hr He s0 Hf. apply evals_follow; auto; [|now apply C04_load_active_event].
  assert (A : forallb (fun n => String.eqb n "SolarPVDERThreePhaseNumba" || defined_for n "S_load1_calc")%bool der_classes = true) by (vm_compute; reflexivity).
  rewrite forallb_forall in A. specialize (A cls Hin). apply orb_true_iff in A as [A|A]; [|exact A].
  apply String.eqb_eq in A. contradiction.
Qed.
Print Assumptions C110_load_follows_schedule_partial.

(** A DER that is not stand-alone never looks at the load events. *)
Theorem C110_external_grid :
  forall cls Zb s ts, load_evals cls Zb false s ts = (map (fun _ => l_z s) ts, Ok tt).
Proof. intros cls Zb s ts. induction ts as [|t ts IH]; [reflexivity|]. cbn [load_evals map]. cbn [update_Zload1]. now rewrite IH. Qed.
Print Assumptions C110_external_grid.

(** The compiled three-phase type: the first evaluation at which the scheduled
    load differs from the present one raises AttributeError - for every schedule
    and time. *)
Theorem C110_compiled_type_refuted :
  forall Zb s t e z, ~ Zb == 0 -> load_events (l_ev s) t = (e, Ok z) -> ~ is_impedance Zb (l_z s) z ->
  snd (update_Zload1 "SolarPVDERThreePhaseNumba" Zb true s t) = Raise AttributeError.
Proof.
  intros Zb s t e z Hz He Hd. unfold update_Zload1. rewrite He.
  destruct (differs (l_z s) (per_unit Zb z)) eqn:E; [vm_compute; reflexivity|].
  exfalso. apply Hd. apply differs_false in E as [E1 E2]. destruct (per_unit_ok Zb z Hz) as [P1 P2].
  split; [rewrite E1|rewrite E2]; assumption.
Qed.
Print Assumptions C110_compiled_type_refuted.

(** a load of 5 ohm connected at 1 s: ordinary and compiled type *)
Definition load_ex : events := fst (run (init_events default_spec true true true true) [OAddLoad 1 5 0]).
Example C110_hypotheses_met :
  reachable load_ex /\ forward (items (load (reset_counters load_ex))) None [1#2; 1; 2] /\
  (let z0 := per_unit 5 Zload_default in
   (exists l, load_evals "SolarPVDERThreePhase" 5 true (Ld z0 (reset_counters load_ex)) [1#2; 1; 2] = (l, Ok tt) /\
      Forall2 (fun a b => Zre a == b) l [2000000; 1; 1]) /\
   snd (load_evals "SolarPVDERThreePhaseNumba" 5 true (Ld z0 (reset_counters load_ex)) [1#2; 1; 2]) = Raise AttributeError).
Proof.
  split; [do 6 eexists; reflexivity|]. split.
  - cbn. repeat split; cbn; try lra; try discriminate; intros ? ? [<-|[]] [<-|[]]; reflexivity.
  - cbv zeta. split; [|vm_compute; reflexivity].
    eexists. split; [vm_compute; reflexivity|]. repeat constructor; vm_compute; reflexivity.
Qed.
