(** C58, C59 and C73: the stand-alone grid source and the reported grid power. *)
From Verif Require Import RBase PhasorModel ODEModel GridModel PhasorProperties.
From Coq Require Import List.
Import RBase.
Import ListNotations.
Open Scope R_scope.

(** ** Specification *)
(** Phases b and c lag and lead phase a by 120 degrees, with the given magnitude ratios. *)
Definition phase_set (rb rc : R) (va vb vc : cx) : Prop :=
  vb = cmul (crect rb (- (120 * PI / 180))) va /\ vc = cmul (crect rc (120 * PI / 180)) va.
(** Per-unit grid voltage for an event voltage (20415 V rated, 500 V base). *)
Definition to_pu (v : cx) : cx := cscale (20415 / 500) v.
(** Grid voltage of phase a reported after each call of a history. *)
Fixpoint va_trace (s : gridst) (l : list (R * (cx * R))) : list cx :=
  match l with [] => [] | c :: l' => let s' := steady_state_model s (fst c) (snd c) in g_vag s' :: va_trace s' l' end.

(** ** Proofs *)
Lemma Ub_rect r u : Ub_calc (cscale r u) = cmul (crect r (- (120 * PI / 180))) u.
Proof.
  unfold Ub_calc, crect. replace (- (120 * PI / 180)) with (- (2/3) * PI) by field.
  apply cx_eq; unfold cmul, cscale; cbn [re im]; ring.
Qed.
Lemma Uc_rect r u : Uc_calc (cscale r u) = cmul (crect r (120 * PI / 180)) u.
Proof.
  unfold Uc_calc, crect. replace (120 * PI / 180) with (2/3 * PI) by field.
  apply cx_eq; unfold cmul, cscale; cbn [re im]; ring.
Qed.
Lemma csub_abs0 a b : ~ (0 < cabs (csub a b)) -> a = b.
Proof.
  intros H. pose proof (cabs_nonneg (csub a b)). assert (E : cabs (csub a b) = 0) by lra.
  assert (N : cnorm2 (csub a b) = 0) by (rewrite <- cabs_sq, E; ring).
  unfold cnorm2, csub in N. cbn [re im] in N. destruct a as [a1 a2], b as [b1 b2]. cbn [re im] in N.
  destruct (Rplus_sqr_eq_0 _ _ N). f_equal; lra.
Qed.
Lemma Rabs_sub0 a b : ~ (0 < Rabs (a - b)) -> a = b.
Proof. intros H. pose proof (Rabs_pos (a - b)). apply Rminus_diag_uniq. destruct (Req_dec (a - b) 0); auto. apply Rabs_pos_lt in H1. lra. Qed.

Definition inv (rb rc : R) (V : cx -> Prop) (W : R -> Prop) (s : gridst) : Prop :=
  g_rb s = rb /\ g_rc s = rc /\ phase_set rb rc (Vagrid s) (Vbgrid s) (Vcgrid s) /\
  g_vag s = Vagrid s /\ g_vbg s = Vbgrid s /\ g_vcg s = Vcgrid s /\ V (Vagrid s) /\ W (g_w s).
Lemma step_inv rb rc V W s t ev : inv rb rc V W s -> V (to_pu (fst ev)) -> W (snd ev) -> inv rb rc V W (steady_state_model s t ev).
Proof.
  intros (A & B & C & D & E & F & HV & HW) H1 H2. unfold steady_state_model.
  assert (P : phase_set rb rc (cscale (Vgridrated / Vbase_grid) (fst ev)) (Ub_calc (cscale (g_rb s) (cscale (Vgridrated / Vbase_grid) (fst ev)))) (Uc_calc (cscale (g_rc s) (cscale (Vgridrated / Vbase_grid) (fst ev)))))
    by (split; rewrite ?Ub_rect, ?Uc_rect, ?A, ?B; auto).
  cbv zeta.
  set (b1 := _ && rle (t_vprev s) t). destruct b1;
  match goal with |- context [if ?b then _ else _] => destruct b end; unfold inv; cbn; repeat (split; auto).
Qed.
Lemma run_inv rb rc V W l : forall s, inv rb rc V W s -> Forall (fun c => V (to_pu (fst (snd c))) /\ W (snd (snd c))) l -> inv rb rc V W (run_grid s l).
Proof.
  induction l as [|c l IH]; intros s H F; auto. inversion F as [|? ? [F1 F2] F3]; subst.
  apply IH; auto. apply step_inv; auto.
Qed.
Lemma init_inv rb rc ev (V : cx -> Prop) (W : R -> Prop) : V (to_pu (fst ev)) -> W (snd ev) -> inv rb rc V W (grid_init rb rc ev).
Proof. intros HV HW. unfold inv, grid_init. cbn. split; auto. split; auto. split; [split; [apply Ub_rect|apply Uc_rect]|]. repeat (split; auto). Qed.

(** last change times never exceed the largest call time *)
Lemma step_times s t ev T : t_vprev s <= T -> t_fprev s <= T -> t <= T ->
  t_vprev (steady_state_model s t ev) <= T /\ t_fprev (steady_state_model s t ev) <= T.
Proof.
  intros A B C. unfold steady_state_model. cbv zeta.
  set (b1 := _ && rle (t_vprev s) t). destruct b1; match goal with |- context [if ?b then _ else _] => destruct b end; cbn; auto.
Qed.
Lemma run_times l : forall s T, t_vprev s <= T -> t_fprev s <= T -> Forall (fun c => fst c <= T) l ->
  t_vprev (run_grid s l) <= T /\ t_fprev (run_grid s l) <= T.
Proof.
  induction l as [|c l IH]; intros s T A B F; [auto|]. inversion F; subst. cbn [run_grid fold_left].
  apply IH; auto; apply step_times; auto.
Qed.
Lemma step_follow s t ev : t_vprev s <= t -> t_fprev s <= t ->
  g_vag (steady_state_model s t ev) = to_pu (fst ev) /\ g_w (steady_state_model s t ev) = snd ev.
Proof.
  intros A B. unfold steady_state_model. cbv zeta.
  replace (rle (t_vprev s) t) with true by (symmetry; apply rle_iff; auto).
  destruct (rlt 0 (cabs (csub (Vagrid s) (cscale (Vgridrated / Vbase_grid) (fst ev))))) eqn:E1; cbn [andb];
   cbn [t_fprev g_w]; replace (rle (t_fprev s) t) with true by (symmetry; apply rle_iff; auto);
   destruct (rlt 0 (Rabs (g_w s - snd ev))) eqn:E2; cbn [andb]; cbn; unfold Vgridrated, Vbase_grid in *.
  all: repeat match goal with H : rlt _ _ = false |- _ => apply rlt_false in H end.
  - auto.
  - split; auto. apply Rabs_sub0. lra.
  - split; auto. apply csub_abs0. unfold to_pu. intros X. lra.
  - split; [apply csub_abs0; unfold to_pu|apply Rabs_sub0]; intros X; lra.
Qed.
Lemma step_mono s t ev : t_vprev s <= t_vprev (steady_state_model s t ev) /\ t_fprev s <= t_fprev (steady_state_model s t ev).
Proof.
  unfold steady_state_model. cbv zeta.
  destruct (rlt 0 (cabs (csub (Vagrid s) (cscale (Vgridrated / Vbase_grid) (fst ev))))); cbn [andb];
  destruct (rle (t_vprev s) t) eqn:E1; cbn [t_fprev g_w];
  destruct (rlt 0 (Rabs (g_w s - snd ev))); cbn [andb]; destruct (rle (t_fprev s) t) eqn:E2; cbn;
  repeat match goal with H : rle _ _ = true |- _ => apply rle_iff in H end; lra.
Qed.
Lemma run_mono l : forall s, t_vprev s <= t_vprev (run_grid s l) /\ t_fprev s <= t_fprev (run_grid s l).
Proof.
  induction l as [|c l IH]; intros s; [cbn; lra|]. cbn [run_grid fold_left]. fold (run_grid (steady_state_model s (fst c) (snd c)) l).
  destruct (IH (steady_state_model s (fst c) (snd c))). destruct (step_mono s (fst c) (snd c)). lra.
Qed.
Lemma step_changed_v s t ev : g_vag (steady_state_model s t ev) <> Vagrid s -> t_vprev (steady_state_model s t ev) = t.
Proof.
  unfold steady_state_model. cbv zeta.
  destruct (rlt 0 (cabs (csub (Vagrid s) (cscale (Vgridrated / Vbase_grid) (fst ev))))) eqn:E1; cbn [andb];
  destruct (rle (t_vprev s) t) eqn:E2; match goal with |- context [if ?b then _ else _] => destruct b end; cbn; intros H; auto; contradiction H; auto.
Qed.
Lemma step_changed_f s t ev : g_w (steady_state_model s t ev) <> g_w s -> t_fprev (steady_state_model s t ev) = t.
Proof.
  unfold steady_state_model. cbv zeta.
  set (b1 := _ && rle (t_vprev s) t).
  destruct b1; match goal with |- context [if ?b then _ else _] => destruct b end; cbn; intros H; auto; contradiction H; auto.
Qed.
Lemma step_stay_v s t ev : t < t_vprev s -> g_vag (steady_state_model s t ev) = Vagrid s.
Proof.
  intros H. unfold steady_state_model. cbv zeta. replace (rle (t_vprev s) t) with false by (symmetry; apply rle_false; auto).
  rewrite Bool.andb_false_r. match goal with |- context [if ?b then _ else _] => destruct b end; reflexivity.
Qed.
Lemma step_stay_f s t ev : t < t_fprev s -> g_w (steady_state_model s t ev) = g_w s.
Proof.
  intros H. unfold steady_state_model. cbv zeta. set (b1 := _ && rle (t_vprev s) t).
  destruct b1; cbn [t_fprev]; replace (rle (t_fprev s) t) with false by (symmetry; apply rle_false; auto);
  rewrite Bool.andb_false_r; reflexivity.
Qed.
Lemma run_app s l c : run_grid s (l ++ [c]) = steady_state_model (run_grid s l) (fst c) (snd c).
Proof. unfold run_grid. rewrite fold_left_app. reflexivity. Qed.

(** ** C58 *)
(** Whatever the history of calls (in any time order) and event results: the phase
    voltages stay a 120-degree set with the constructor's magnitude ratios, phase a is
    the per-unit value of some event result seen so far, and so is the frequency. *)
Theorem C58_phase_set :
  forall rb rc ev0 (l : list (R * (cx * R))),
  let s := run_grid (grid_init rb rc ev0) l in
  phase_set rb rc (g_vag s) (g_vbg s) (g_vcg s) /\
  (exists ev, In ev (ev0 :: map snd l) /\ g_vag s = to_pu (fst ev)) /\
  (exists ev, In ev (ev0 :: map snd l) /\ g_w s = snd ev).
Proof.
  intros rb rc ev0 l s.
  assert (I : inv rb rc (fun v => exists ev, In ev (ev0 :: map snd l) /\ v = to_pu (fst ev)) (fun w => exists ev, In ev (ev0 :: map snd l) /\ w = snd ev) s).
  { apply run_inv.
    - apply init_inv; exists ev0; split; auto; left; auto.
    - apply Forall_forall. intros c Hc. split; exists (snd c); split; auto; right; apply in_map; auto. }
  destruct I as (_ & _ & P & E1 & E2 & E3 & HV & HW). rewrite E1, E2, E3. auto.
Qed.
Print Assumptions C58_phase_set.

(** With unbalance ratios 1 the set is balanced: equal magnitudes (that of the event
    voltage times 20415/500) and zero sum. *)
Theorem C58_balanced :
  forall ev0 (l : list (R * (cx * R))),
  let s := run_grid (grid_init 1 1 ev0) l in
  cabs (g_vbg s) = cabs (g_vag s) /\ cabs (g_vcg s) = cabs (g_vag s) /\
  cadd (cadd (g_vag s) (g_vbg s)) (g_vcg s) = Cx 0 0 /\
  (exists ev, In ev (ev0 :: map snd l) /\ cabs (g_vag s) = 20415 / 500 * cabs (fst ev)).
Proof.
  intros ev0 l s. destruct (C58_phase_set 1 1 ev0 l) as ([B C] & (ev & I & E) & _). fold s in B, C, E.
  assert (X : forall u, cscale 1 u = u) by (intros [u1 u2]; unfold cscale; cbn [re im]; f_equal; ring).
  rewrite <- Ub_rect, X in B. rewrite <- Uc_rect, X in C. rewrite B, C.
  destruct (C44_balanced_set (g_vag s)) as (H1 & H2 & H3 & _). repeat (split; auto).
  exists ev. split; auto. rewrite E. unfold to_pu. replace (cscale (20415/500) (fst ev)) with (cmul (Cx (20415/500) 0) (fst ev)).
  - rewrite cabs_mul. f_equal. unfold cabs, cnorm2. cbn [re im]. replace (20415 / 500 * (20415 / 500) + 0 * 0) with (Rsqr (20415/500)) by (unfold Rsqr; ring).
    apply sqrt_Rsqr. lra.
  - apply cx_eq; unfold cmul, cscale; cbn [re im]; ring.
Qed.
Print Assumptions C58_balanced.

(** A call at a time that is not before any earlier call puts the event values of that
    time on the grid. *)
Theorem C58_follows_events :
  forall rb rc ev0 l t ev, 0 <= t -> (forall c, In c l -> fst c <= t) ->
  let s := run_grid (grid_init rb rc ev0) (l ++ [(t, ev)]) in
  g_vag s = to_pu (fst ev) /\ g_w s = snd ev.
Proof.
  intros rb rc ev0 l t ev Ht H s. unfold s. rewrite run_app. cbn [fst snd].
  destruct (run_times l (grid_init rb rc ev0) t) as [A B]; auto.
  - apply Forall_forall. auto.
  - apply step_follow; auto.
Qed.
Print Assumptions C58_follows_events.
Example C58_follows_events_hypotheses_met : exists (l : list (R * (cx * R))) t (ev : cx * R), 0 <= t /\ (forall c, In c l -> fst c <= t) /\ length l = 2%nat /\ fst ev <> Cx 1 0.
Proof.
  exists [(0, (Cx 1 0, 377)); (3, (Cx 1 0, 377))], 5, (Cx (9/10) 0, 377). split; [lra|]. split.
  - intros c [<-|[<-|[]]]; cbn; lra.
  - split; auto. cbn. intros E. injection E. lra.
Qed.

(** Once a call at time t1 has changed the voltage (frequency), later calls for times
    before t1 (solver stepping back) leave the voltage (frequency) as it is. *)
Theorem C58_recorded_grid :
  forall rb rc ev0 l t ev s0, 0 <= t -> (forall c, In c l -> fst c <= t) -> g_rb s0 = rb -> g_rc s0 = rc ->
  let s := run_grid (grid_init rb rc ev0) (l ++ [(t, ev)]) in
  let r := ts_grid_point s0 ev in
  g_vag r = g_vag s /\ g_vbg r = g_vbg s /\ g_vcg r = g_vcg s /\ g_w r = g_w s /\
  g_vag r = to_pu (fst ev) /\ phase_set rb rc (g_vag r) (g_vbg r) (g_vcg r).
Proof.
  intros rb rc ev0 l t ev s0 Ht H Hb Hc s r.
  destruct (C58_follows_events rb rc ev0 l t ev Ht H) as [A B]. fold s in A, B.
  destruct (C58_phase_set rb rc ev0 (l ++ [(t, ev)])) as ([Pb Pc] & _). fold s in Pb, Pc.
  assert (E : g_vag r = to_pu (fst ev)) by reflexivity.
  assert (R : phase_set rb rc (g_vag r) (g_vbg r) (g_vcg r)).
  { unfold r, ts_grid_point, phase_set. cbn [g_vag g_vbg g_vcg]. rewrite Hb, Hc, Ub_rect, Uc_rect. split; reflexivity. }
  destruct R as [Rb Rc]. rewrite E, <- A in Rb, Rc.
  split; [congruence|]. split; [congruence|]. split; [congruence|]. split; [rewrite B; reflexivity|]. split; [exact E|].
  unfold phase_set. rewrite E, <- A. auto.
Qed.
Print Assumptions C58_recorded_grid.
(** Recording results (one call per stored time point) does not disturb what the grid does
    afterwards: the next call yields the same voltages as without the recording, and - unless
    it goes back in time - the same frequency. *)
Theorem C58_recording_is_harmless :
  forall s evs t ev, let s' := fold_left ts_grid_point evs s in
  let a := steady_state_model s' t ev in let b := steady_state_model s t ev in
  g_vag a = g_vag b /\ g_vbg a = g_vbg b /\ g_vcg a = g_vcg b /\ (t_fprev s <= t -> g_w a = g_w b).
Proof.
  intros s evs t ev s' a b.
  assert (E : g_rb s' = g_rb s /\ g_rc s' = g_rc s /\ Vagrid s' = Vagrid s /\ Vbgrid s' = Vbgrid s /\ Vcgrid s' = Vcgrid s /\ t_vprev s' = t_vprev s /\ t_fprev s' = t_fprev s).
  { unfold s'. clear. revert s. induction evs as [|e l IH]; intros s; cbn [fold_left]; [repeat split|].
    destruct (IH (ts_grid_point s e)) as (A1 & A2 & A3 & A4 & A5 & A6 & A7). rewrite A1, A2, A3, A4, A5, A6, A7. repeat split. }
  destruct E as (A1 & A2 & A3 & A4 & A5 & A6 & A7). unfold a, b, steady_state_model. cbv zeta. rewrite A1, A2, A3, A6.
  assert (F : forall z, t_fprev z <= t -> g_w (if rlt 0 (Rabs (g_w z - snd ev)) && rle (t_fprev z) t
            then GridSt (g_rb z) (g_rc z) (Vagrid z) (Vbgrid z) (Vcgrid z) (snd ev) (g_vag z) (g_vbg z) (g_vcg z) (t_vprev z) t else z) = snd ev).
  { intros z Hz. rewrite (proj2 (rle_iff _ _) Hz), andb_true_r. destruct (rlt 0 (Rabs (g_w z - snd ev))) eqn:Q; [reflexivity|].
    apply rlt_false in Q. pose proof (Rabs_pos (g_w z - snd ev)) as P. destruct (Req_dec (g_w z - snd ev) 0) as [U|U]; [lra|]. apply Rabs_pos_lt in U. lra. }
  set (cnd := rlt 0 (cabs (csub (Vagrid s) (cscale (Vgridrated / Vbase_grid) (fst ev)))) && rle (t_vprev s) t).
  repeat split.
  1-3: destruct cnd; cbn [g_w t_fprev Vagrid Vbgrid Vcgrid]; rewrite ?A3, ?A4, ?A5, ?A7;
    repeat match goal with |- context [if ?c then _ else _] => destruct c end; cbn; rewrite ?A3, ?A4, ?A5; auto.
  intros Ht. cbn [g_w]. rewrite !F; [reflexivity| |]; destruct cnd; cbn [t_fprev]; rewrite ?A7; exact Ht.
Qed.
Print Assumptions C58_recording_is_harmless.
(** a time before the last recorded change leaves the grid alone *)
Theorem C58_no_going_back :
  forall rb rc ev0 l1 t1 ev1 l2 t ev, t < t1 ->
  let s0 := run_grid (grid_init rb rc ev0) l1 in
  let s1 := run_grid (grid_init rb rc ev0) (l1 ++ [(t1, ev1)]) in
  let s2 := run_grid (grid_init rb rc ev0) (l1 ++ [(t1, ev1)] ++ l2) in
  let s3 := run_grid (grid_init rb rc ev0) (l1 ++ [(t1, ev1)] ++ l2 ++ [(t, ev)]) in
  (g_vag s1 <> g_vag s0 -> g_vag s3 = g_vag s2 /\ g_vbg s3 = g_vbg s2 /\ g_vcg s3 = g_vcg s2) /\
  (g_w s1 <> g_w s0 -> g_w s3 = g_w s2).
Proof.
  intros rb rc ev0 l1 t1 ev1 l2 t ev Hlt s0 s1 s2 s3.
  assert (E1 : s1 = steady_state_model s0 t1 ev1) by (apply (run_app _ l1 (t1, ev1))).
  assert (E2 : s2 = run_grid s1 l2) by (unfold s2, s1, run_grid; rewrite app_assoc, fold_left_app; reflexivity).
  assert (E3 : s3 = steady_state_model s2 t ev).
  { unfold s3. rewrite !app_assoc. rewrite run_app. cbn [fst snd]. unfold s2. rewrite app_assoc. reflexivity. }
  assert (I0 : inv rb rc (fun _ => True) (fun _ => True) s0) by (apply run_inv; [apply init_inv; auto|apply Forall_forall; auto]).
  assert (I2 : inv rb rc (fun _ => True) (fun _ => True) s2) by (apply run_inv; [apply init_inv; auto|apply Forall_forall; auto]).
  pose proof (step_inv rb rc _ _ s2 t ev I2 I I) as I3. rewrite <- E3 in I3.
  destruct (run_mono l2 s1) as [M1 M2]. rewrite <- E2 in M1, M2.
  destruct I0 as (_ & _ & _ & F0 & _). split; intros H.
  - rewrite E1, F0 in H. apply step_changed_v in H. rewrite <- E1 in H.
    assert (X : g_vag s3 = g_vag s2).
    { rewrite E3, step_stay_v by lra. destruct I2 as (_ & _ & _ & F2 & _). auto. }
    destruct I2 as (_ & _ & [P2 P2'] & F2 & F2' & F2'' & _). destruct I3 as (_ & _ & [P3 P3'] & F3 & F3' & F3'' & _).
    split; auto. rewrite F2', F2'', F3', F3'', P2, P2', P3, P3', <- F2, <- F3, X. auto.
  - rewrite E1 in H. apply step_changed_f in H. rewrite <- E1 in H. rewrite E3. apply step_stay_f. lra.
Qed.
Print Assumptions C58_no_going_back.
Example C58_no_going_back_hypotheses_met :
  exists ev0 t1 ev1 t, t < t1 /\ g_vag (run_grid (grid_init 1 1 ev0) ([] ++ [(t1, ev1)])) <> g_vag (run_grid (grid_init 1 1 ev0) []) /\
    g_w (run_grid (grid_init 1 1 ev0) ([] ++ [(t1, ev1)])) <> g_w (run_grid (grid_init 1 1 ev0) []).
Proof.
  exists (Cx 1 0, 377), 5, (Cx 2 0, 378), 4. split; [lra|].
  destruct (C58_follows_events 1 1 (Cx 1 0, 377) [] 5 (Cx 2 0, 378) ltac:(lra) ltac:(intros c [])) as [A B].
  rewrite A, B. split; [intros E; apply (f_equal re) in E; unfold to_pu, cscale, Vgridrated, Vbase_grid in E; cbn in E; unfold Vgridrated, Vbase_grid in E; lra|cbn; lra].
Qed.

(** ** C73: re-running *)
(** REFUTED: the same event schedule and the same sequence of times give a different
    grid voltage when the same Grid object is simulated a second time. *)
Theorem C73_rerun_refuted :
  exists (schedule : R -> cx * R) (ts : list R),
  let calls := map (fun t => (t, schedule t)) ts in
  let s0 := grid_init 1 1 (schedule 0) in
  va_trace s0 calls <> va_trace (run_grid s0 calls) calls.
Proof.
  exists (fun t => (if rle 5 t then Cx 2 0 else Cx 1 0, 377)), [0; 6].
  cbv zeta. cbn [map].
  replace (rle 5 0) with false by (symmetry; apply rle_false; lra). replace (rle 5 6) with true by (symmetry; apply rle_iff; lra).
  set (s0 := grid_init 1 1 (Cx 1 0, 377)). set (calls := [(0, (Cx 1 0, 377)); (6, (Cx 2 0, 377))]).
  assert (A : g_vag (steady_state_model s0 0 (Cx 1 0, 377)) = to_pu (Cx 1 0)) by (apply (step_follow s0 0); cbn; lra).
  assert (B : g_vag (steady_state_model (run_grid s0 calls) 0 (Cx 1 0, 377)) = to_pu (Cx 2 0)).
  { assert (C : Vagrid (run_grid s0 calls) = to_pu (Cx 2 0)).
    { assert (I0 : inv 1 1 (fun _ => True) (fun _ => True) (run_grid s0 calls)) by (apply run_inv; [apply init_inv; auto|apply Forall_forall; auto]).
      destruct I0 as (_ & _ & _ & F & _). rewrite <- F. apply (C58_follows_events 1 1 (Cx 1 0, 377) [(0, (Cx 1 0, 377))] 6 (Cx 2 0, 377)); [lra|intros c [<-|[]]; cbn; lra]. }
    rewrite step_stay_v; auto.
    assert (T : t_vprev (run_grid s0 calls) = 6); [|lra].
    unfold calls. change (run_grid s0 [(0, (Cx 1 0, 377)); (6, (Cx 2 0, 377))]) with (steady_state_model (steady_state_model s0 0 (Cx 1 0, 377)) 6 (Cx 2 0, 377)).
    apply step_changed_v.
    assert (I0 : inv 1 1 (fun _ => True) (fun _ => True) (steady_state_model s0 0 (Cx 1 0, 377))) by (apply step_inv; [apply init_inv; auto|auto|auto]).
    destruct I0 as (_ & _ & _ & F & _). rewrite <- F, A.
    assert (G : g_vag (steady_state_model (steady_state_model s0 0 (Cx 1 0, 377)) 6 (Cx 2 0, 377)) = to_pu (Cx 2 0))
      by (apply (C58_follows_events 1 1 (Cx 1 0, 377) [(0, (Cx 1 0, 377))] 6 (Cx 2 0, 377)); [lra|intros c [<-|[]]; cbn; lra]).
    rewrite G. intros E. apply (f_equal re) in E. unfold to_pu, cscale in E. cbn [re im] in E. lra. }
  unfold calls at 1 3. cbn [va_trace fst snd]. rewrite A, B. intros E. apply (f_equal (fun l => re (hd (Cx 0 0) l))) in E. cbn [hd] in E. unfold to_pu, cscale in E. cbn [re im] in E. lra.
Qed.
Print Assumptions C73_rerun_refuted.

(** True part: whatever happened before, a run whose times are non-decreasing and not
    before the times of all earlier calls reports the scheduled voltage at every point. *)
Theorem C73_rerun_partial :
  forall (schedule : R -> cx * R) ev0 l ts, 
  (forall c, In c l -> forall t, In t ts -> fst c <= t) -> (forall t, In t ts -> 0 <= t) -> Sorted.StronglySorted Rle ts ->
  va_trace (run_grid (grid_init 1 1 ev0) l) (map (fun t => (t, schedule t)) ts) = map (fun t => to_pu (fst (schedule t))) ts.
Proof.
  intros schedule ev0 l ts H P SS. revert l H. induction SS as [|t ts SS IH F]; intros l H; auto.
  cbn [map va_trace fst snd].
  change (steady_state_model (run_grid (grid_init 1 1 ev0) l) t (schedule t)) with (steady_state_model (run_grid (grid_init 1 1 ev0) l) (fst (t, schedule t)) (snd (t, schedule t))).
  rewrite <- run_app. f_equal.
  - apply (C58_follows_events 1 1 ev0 l t (schedule t)); [apply P; left; auto|]. intros c Hc. apply H; auto. left; auto.
  - apply IH; [intros; apply P; right; auto|]. intros c Hc t' Ht'. apply in_app_or in Hc. destruct Hc as [Hc|[<-|[]]].
    + apply H; auto. right; auto.
    + cbn. rewrite Forall_forall in F. auto.
Qed.
Print Assumptions C73_rerun_partial.
Example C73_rerun_hypotheses_met : exists (l : list (R * (cx * R))) ts, (forall c, In c l -> forall t, In t ts -> fst c <= t) /\ (forall t, In t ts -> 0 <= t) /\
  Sorted.StronglySorted Rle ts /\ length l = 1%nat /\ length ts = 2%nat.
Proof.
  exists [(1, (Cx 1 0, 377))], [2; 3]. split; [|split; [|split]]; auto.
  - intros c [<-|[]] t [<-|[<-|[]]]; cbn; lra.
  - intros t [<-|[<-|[]]]; lra.
  - repeat constructor; lra.
Qed.

(** ** C59: reported grid power *)
(** Sum over the phases of (1/2) * conj(current into the grid source) * source voltage. *)
Definition grid_power3 (p : prm) (Zl vag vbg vcg va vb vc ia ib ic : cx) : cx :=
  cadd (cadd (S_G_ph p Zl vag va ia) (S_G_ph p Zl vbg vb ib)) (S_G_ph p Zl vcg vc ic).
(** The instantaneous quantity is the sum; the stored series weighs phases b and c twice. *)
Theorem C59_grid_power_partial :
  forall p Zl vag vbg vcg va vb vc ia ib ic,
  S_G_three p Zl vag vbg vcg va vb vc ia ib ic = grid_power3 p Zl vag vbg vcg va vb vc ia ib ic /\
  S_G_t_three p Zl vag vbg vcg va vb vc ia ib ic =
    cadd (grid_power3 p Zl vag vbg vcg va vb vc ia ib ic) (cadd (S_G_ph p Zl vbg vb ib) (S_G_ph p Zl vcg vc ic)) /\
  S_G_t_single p Zl vag va ia = S_G_ph p Zl vag va ia.
Proof.
  intros. unfold S_G_three, S_G_t_three, S_G_t_single, grid_power3, S_G_ph, iG. repeat split; apply cx_eq; unfold cadd, cscale, cmul; cbn [re im]; field.
Qed.
Print Assumptions C59_grid_power_partial.
(** The other stored power series agree with the sums of the per-phase powers. *)
Theorem C59_other_powers :
  forall Zl va vb vc ia ib ic,
  S_t_three va vb vc ia ib ic = cadd (cadd (S_ph va ia) (S_ph vb ib)) (S_ph vc ic) /\
  S_load1_t_three Zl va vb vc = cadd (cadd (S_load_ph Zl va) (S_load_ph Zl vb)) (S_load_ph Zl vc).
Proof. intros. unfold S_t_three, S_load1_t_three, S_ph, S_load_ph, S_ph. split; apply cx_eq; unfold cadd, cscale; cbn [re im]; ring. Qed.
Print Assumptions C59_other_powers.
Theorem C59_grid_power_refuted :
  exists p Zl vag vbg vcg va vb vc ia ib ic, Zl <> Cx 0 0 /\ a_tr p <> 0 /\
  vbg = Ub_calc vag /\ vcg = Uc_calc vag /\ vb = Ub_calc va /\ vc = Uc_calc va /\ ib = Ub_calc ia /\ ic = Uc_calc ia /\
  S_G_t_three p Zl vag vbg vcg va vb vc ia ib ic <> grid_power3 p Zl vag vbg vcg va vb vc ia ib ic.
Proof.
  exists (Prm 1 1 1 1 1 1 10 1 1 1 1 1 1 10 1 1 1 1 10 (Cx 1 2) 1), (Cx 1 0), (Cx 1 0), (Ub_calc (Cx 1 0)), (Uc_calc (Cx 1 0)),
    (Cx 0 0), (Ub_calc (Cx 0 0)), (Uc_calc (Cx 0 0)), (Cx 1 0), (Ub_calc (Cx 1 0)), (Uc_calc (Cx 1 0)).
  split; [intros E; injection E; lra|]. split; [cbn; lra|]. repeat (split; [reflexivity|]).
  rewrite (proj1 (proj2 (C59_grid_power_partial _ _ _ _ _ _ _ _ _ _ _))). set (g := grid_power3 _ _ _ _ _ _ _ _ _ _ _).
  assert (X : cadd (S_G_ph (Prm 1 1 1 1 1 1 10 1 1 1 1 1 1 10 1 1 1 1 10 (Cx 1 2) 1) (Cx 1 0) (Ub_calc (Cx 1 0)) (Ub_calc (Cx 0 0)) (Ub_calc (Cx 1 0)))
      (S_G_ph (Prm 1 1 1 1 1 1 10 1 1 1 1 1 1 10 1 1 1 1 10 (Cx 1 2) 1) (Cx 1 0) (Uc_calc (Cx 1 0)) (Uc_calc (Cx 0 0)) (Uc_calc (Cx 1 0))) = Cx (-1) 0).
  { pose proof w3_sq as W. unfold Ub_calc, Uc_calc, S_G_ph. rewrite cexp_p, cexp_m. cbn [a_tr].
    assert (D : / (1 * 1 + 0 * 0) = 1) by field.
    apply cx_eq; unfold cdiv, cadd, csub, cscale, cmul, cneg, conj, cinv, cnorm2; cbn [re im]; unfold Rdiv; rewrite ?D, ?Rinv_1; set (w := w3) in *; clearbody w; ring_simplify; try (replace (w ^ 2) with (3/4) by (rewrite <- W; ring)); lra. }
  rewrite X. intros E. apply (f_equal re) in E. unfold cadd in E. cbn [re] in E. lra.
Qed.
Print Assumptions C59_grid_power_refuted.
