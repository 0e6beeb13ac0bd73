(** C127: the grid events of a simulation act on its DER. *)
From Verif Require Import RBase PhasorModel ODEModel GridModel PhasorProperties GridProperties WiringModel.
From Coq Require Import List Arith.
Import RBase.
Import ListNotations.
Open Scope R_scope.

(** * Specification *)
(** the phasors and frequency a schedule entry stands for *)
Definition scheduled (rb rc : R) (ev : cx * R) (q : cx * cx * cx * R) : Prop :=
  let '(va, vb, vc, w) := q in va = to_pu (fst ev) /\ phase_set rb rc va vb vc /\ w = snd ev.

Lemma set_same w i g : set_grid w i g i = g.
Proof. unfold set_grid. rewrite Nat.eqb_refl. reflexivity. Qed.
Lemma set_other w i j g : j <> i -> set_grid w i g j = w j.
Proof. intros H. unfold set_grid. apply Nat.eqb_neq in H. rewrite H. reflexivity. Qed.
Lemma evals_run r S_ w : forall l,
  do_acts r S_ w (map Evaluate l) (sim_grid r) =
  run_grid (w (sim_grid r)) (map (fun t => (t, S_ (grid_events_of r (sim_grid r)) t)) l).
Proof.
  intros l. revert w. induction l as [|t l IH]; intros w; [reflexivity|].
  change (do_acts r S_ (evaluate r S_ w t) (map Evaluate l) (sim_grid r) =
    run_grid (steady_state_model (w (sim_grid r)) t (S_ (grid_events_of r (sim_grid r)) t)) (map (fun t => (t, S_ (grid_events_of r (sim_grid r)) t)) l)).
  rewrite IH. unfold evaluate. rewrite set_same. reflexivity.
Qed.

(** * C127 *)
(** When the DER, the grid and the simulation were given the same Grid and the same
    events object: in every evaluation that is not earlier than a previous one the DER
    reads the scheduled voltages and frequency, and these are also what is recorded for
    that time. *)
Theorem C127_same_objects_partial : forall r S_ w rb rc ev0 l t,
  der_grid r = sim_grid r -> grid_events_of r (sim_grid r) = sim_events r ->
  w (sim_grid r) = grid_init rb rc ev0 -> 0 <= t -> (forall t', In t' l -> t' <= t) ->
  let w1 := do_acts r S_ w (map Evaluate (l ++ [t])) in
  scheduled rb rc (S_ (sim_events r) t) (der_reads r w1) /\
  recorded r (record_point r S_ w1 t) = der_reads r w1.
Proof.
  intros r S_ w rb rc ev0 l t Hd He Hw Ht Hl w1.
  set (c := fun t => (t, S_ (sim_events r) t)).
  assert (E : w1 (sim_grid r) = run_grid (grid_init rb rc ev0) (map c l ++ [(t, S_ (sim_events r) t)])).
  { unfold w1. rewrite evals_run, Hw, map_app. cbn [map]. rewrite He. reflexivity. }
  assert (Hl' : forall x, In x (map c l) -> fst x <= t) by (intros x Hx; apply in_map_iff in Hx; destruct Hx as (t' & <- & Hx); cbn; auto).
  destruct (C58_follows_events rb rc ev0 (map c l) t (S_ (sim_events r) t) Ht Hl') as [A B].
  destruct (C58_phase_set rb rc ev0 (map c l ++ [(t, S_ (sim_events r) t)])) as (P & _).
  assert (Rb : forall g lst, g_rb (run_grid g lst) = g_rb g /\ g_rc (run_grid g lst) = g_rc g).
  { intros g lst. revert g. induction lst as [|x lst IH]; intros g; [auto|]. cbn [run_grid fold_left]. unfold run_grid in IH.
    destruct (IH (steady_state_model g (fst x) (snd x))) as [-> ->]. unfold steady_state_model. cbv zeta. cbn [g_rb g_rc].
    repeat match goal with |- context [if ?b then _ else _] => destruct b; cbn [g_rb g_rc] end; auto. }
  destruct (Rb (grid_init rb rc ev0) (map c l ++ [(t, S_ (sim_events r) t)])) as [B1 B2].
  destruct (C58_recorded_grid rb rc ev0 (map c l) t (S_ (sim_events r) t) (w1 (sim_grid r)) Ht Hl') as (R1 & R2 & R3 & R4 & _).
  { rewrite E. exact B1. } { rewrite E. exact B2. }
  unfold scheduled, der_reads, recorded, record_point. rewrite Hd, set_same. rewrite E in *. split; [auto|]. congruence.
Qed.
Print Assumptions C127_same_objects_partial.

(** REFUTED when the simulation was given another Grid than the DER (nothing compares
    them): whatever the events, evaluations and recordings, the DER reads the voltage
    and frequency its own Grid had at the beginning. *)
Theorem C127_two_grids_refuted : forall r S_ w l, der_grid r <> sim_grid r ->
  der_reads r (do_acts r S_ w l) = der_reads r w.
Proof.
  intros r S_ w l H. revert w. induction l as [|a l IH]; intros w; [reflexivity|].
  change (der_reads r (do_acts r S_ (do_act r S_ w a) l) = der_reads r w). rewrite IH.
  unfold der_reads. destruct a; cbn [do_act]; unfold evaluate, record_point; rewrite set_other; auto.
Qed.
Print Assumptions C127_two_grids_refuted.

(** REFUTED when the simulation was given another events object than the Grid: wherever
    the schedules differ, the recorded grid is not the one the DER was simulated with. *)
Theorem C127_two_schedules_refuted : forall r S_ w rb rc ev0 l t,
  der_grid r = sim_grid r -> w (sim_grid r) = grid_init rb rc ev0 -> 0 <= t -> (forall t', In t' l -> t' <= t) ->
  S_ (sim_events r) t <> S_ (grid_events_of r (sim_grid r)) t ->
  let w1 := do_acts r S_ w (map Evaluate (l ++ [t])) in
  scheduled rb rc (S_ (grid_events_of r (sim_grid r)) t) (der_reads r w1) /\
  recorded r (record_point r S_ w1 t) <> der_reads r w1.
Proof.
  intros r S_ w rb rc ev0 l t Hd Hw Ht Hl Hne w1.
  set (r' := Wiring (der_grid r) (sim_grid r) (grid_events_of r) (grid_events_of r (sim_grid r))).
  destruct (C127_same_objects_partial r' S_ w rb rc ev0 l t Hd eq_refl Hw Ht Hl) as [A _].
  assert (Eq : do_acts r' S_ w (map Evaluate (l ++ [t])) (sim_grid r) = w1 (sim_grid r)) by (unfold w1; rewrite (evals_run r); exact (evals_run r' S_ w (l ++ [t]))).
  unfold der_reads in A. change (der_grid r') with (der_grid r) in A. rewrite Hd, Eq in A. change (sim_events r') with (grid_events_of r (sim_grid r)) in A.
  unfold der_reads. rewrite Hd.
  split; [exact A|]. unfold scheduled, recorded, record_point in *. rewrite set_same. cbn [ts_grid_point g_vag g_vbg g_vcg g_w].
  destruct A as (A1 & _ & A3). intros K. assert (K1 : g_vag (w1 (sim_grid r)) = to_pu (fst (S_ (sim_events r) t))) by (unfold to_pu, Vgridrated, Vbase_grid in *; congruence).
  assert (K2 : g_w (w1 (sim_grid r)) = snd (S_ (sim_events r) t)) by congruence.
  apply Hne. rewrite A1 in K1. rewrite A3 in K2.
  destruct (S_ (sim_events r) t) as [[a1 a2] aw]. destruct (S_ (grid_events_of r (sim_grid r)) t) as [[b1 b2] bw]. cbn [fst snd] in *. subst bw.
  unfold to_pu, cscale in K1. cbn [re im] in K1. assert (X1 := f_equal re K1). assert (X2 := f_equal im K1). cbn [re im] in X1, X2.
  assert (a1 = b1) by lra. assert (a2 = b2) by lra. congruence.
Qed.
Print Assumptions C127_two_schedules_refuted.

(** * Concrete case: a sag to half voltage at 1 s *)
Definition sag : R -> cx * R := fun t => (if rlt t 1 then Cx 1 0 else Cx (1/2) 0, 377).
Definition ex_sched : schedules := fun i => match i with O => sag | _ => fun _ => (Cx 1 0, 377) end.
Example C127_hypotheses_met :
  let w : world := fun _ => grid_init 1 1 (sag 0) in
  let same := Wiring 0 0 (fun _ => O) 0 in let other := Wiring 1 0 (fun _ => O) 0 in
  (der_grid same = sim_grid same /\ grid_events_of same (sim_grid same) = sim_events same /\
   fst (fst (fst (der_reads same (do_acts same ex_sched w (map Evaluate ([0] ++ [2])))))) = to_pu (Cx (1/2) 0)) /\
  (der_grid other <> sim_grid other /\
   fst (fst (fst (der_reads other (do_acts other ex_sched w (map Evaluate ([0] ++ [2])))))) = to_pu (Cx 1 0)) /\
  ex_sched 1%nat 2 <> ex_sched 0%nat 2.
Proof.
  cbv zeta. assert (L : forall b, b = true -> (if b then Cx 1 0 else Cx (1/2) 0) = Cx 1 0) by (intros b ->; auto).
  assert (S0 : sag 0 = (Cx 1 0, 377)) by (unfold sag; rewrite (proj2 (rlt_iff 0 1)) by lra; reflexivity).
  assert (S2 : sag 2 = (Cx (1/2) 0, 377)) by (unfold sag; rewrite (proj2 (rlt_false 2 1)) by lra; reflexivity).
  split; [split; [reflexivity|split; [reflexivity|]]|split; [split; [discriminate|]|]].
  - destruct (C127_same_objects_partial (Wiring 0 0 (fun _ => O) 0) ex_sched (fun _ => grid_init 1 1 (sag 0)) 1 1 (sag 0) [0] 2 eq_refl eq_refl eq_refl) as [A _].
    { lra. } { intros t' [<-|[]]; lra. }
    change (ex_sched (sim_events (Wiring 0 0 (fun _ => O) 0)) 2) with (sag 2) in A. rewrite S2 in A. unfold scheduled in A. destruct A as (A & _). exact A.
  - rewrite C127_two_grids_refuted by discriminate. unfold der_reads. rewrite S0. reflexivity.
  - cbn. rewrite S2. intros K. assert (X := f_equal (fun q => re (fst q)) K). cbn in X. lra.
Qed.
