(** C134: phase angle and frequency at a grid event are converted with the time step of the
    simulation. *)
From Verif Require Import Base EventsModel EventsProofs SimCreateModel StepModel.

(** * Specification vocabulary *)
(** the event in force just before event number [length pre] *)
Definition before (s : events) (pre : list (ev gridV)) : gridV :=
  match rev pre with [] => GridV (vol_default (espec s)) (ang_default (espec s)) (frq_default (espec s)) | e :: _ => eV e end.
(** the frequency a jump of the phase angle amounts to, if it happens within [dt] *)
Definition jump_frequency (dt : Q) (from to : gridV) : Q := 60 + (Vangle to - Vangle from) / ((2 * math_pi) * dt).
(** the phase angle a change of the frequency leads to within [dt] *)
Definition drift_angle (dt : Q) (from to : gridV) : Q := Vangle from + 2 * math_pi * (fgrid to - fgrid from) * dt.
(** grid event [e] becomes active at [t]: the query reaches it, up to 3 ms after the last
    event of the schedule *)
Definition activates (s : events) (pre : list (ev gridV)) (e : ev gridV) (t : Q) : Prop :=
  exists post, items (grid s) = pre ++ e :: post /\ counter (grid s) = Z.of_nat (length pre) /\ gridEn s = true /\
    eT e <= t /\ t < eT (last (e :: post) e) + (3#1000).
Definition in_limits (s : events) (V f : Q) : Prop :=
  vol_min (espec s) <= V <= vol_max (espec s) /\ frq_min (espec s) <= f <= frq_max (espec s).
(** the time step of simulation [i] *)
Definition step_of (w : steps) (i : nat) : option Q := nth_error (sim_inc w) i.

(** * Proofs *)
Lemma py_last {A} (l : list A) x y : py_index (l ++ x :: y) (-1) = Ok (last (x :: y) x).
Proof.
  destruct (@exists_last _ (x :: y)) as (m & z & E); [discriminate|]. rewrite E, app_assoc, py_index_last. rewrite last_last. reflexivity.
Qed.
Lemma old_before s pre e post : items (grid s) = pre ++ e :: post -> counter (grid s) = Z.of_nat (length pre) -> old_grid s = Ok (before s pre).
Proof.
  intros Hi Hc. unfold old_grid, before, grid_default. rewrite Hc. destruct (rev pre) as [|x r] eqn:E.
  - assert (pre = []) as -> by (rewrite <- (rev_involutive pre), E; reflexivity). reflexivity.
  - assert (Ep : pre = rev r ++ [x]) by (rewrite <- (rev_involutive pre), E; reflexivity).
    assert (L : length pre = Datatypes.S (length (rev r))) by (rewrite Ep, app_length; cbn; lia).
    replace (Z.of_nat (length pre) =? 0)%Z with false by (symmetry; apply Z.eqb_neq; lia).
    replace (Z.of_nat (length pre) - 1)%Z with (Z.of_nat (length (rev r))) by lia.
    rewrite (py_index_nat _ _ x); [reflexivity|]. rewrite Hi, Ep, <- app_assoc. rewrite nth_error_app2, Nat.sub_diag by lia. reflexivity.
Qed.
Lemma add_ok s T V a f : in_limits s V f -> exists s', add_grid_event s T V a f = (s', Ok tt).
Proof.
  intros [[H1 H2] [H3 H4]]. unfold add_grid_event.
  replace (qlt V (vol_min (espec s))) with false by (symmetry; apply qlt_false; auto). replace (qlt (vol_max (espec s)) V) with false by (symmetry; apply qlt_false; auto).
  replace (qlt f (frq_min (espec s))) with false by (symmetry; apply qlt_false; auto). replace (qlt (frq_max (espec s)) f) with false by (symmetry; apply qlt_false; auto).
  cbn. eexists. reflexivity.
Qed.
Lemma add_bad s T V a f : ~ in_limits s V f -> add_grid_event s T V a f = (s, Raise ValueError).
Proof.
  intros H. unfold add_grid_event.
  destruct (qlt V (vol_min (espec s))) eqn:E1; [reflexivity|]. destruct (qlt (vol_max (espec s)) V) eqn:E2; [reflexivity|]. cbn.
  destruct (qlt f (frq_min (espec s))) eqn:E3; [reflexivity|]. destruct (qlt (frq_max (espec s)) f) eqn:E4; [reflexivity|]. exfalso. apply H.
  apply qlt_false in E1, E2, E3, E4. repeat split; auto.
Qed.
Lemma activated dt s pre e t : activates s pre e t ->
  grid_events_at dt s t =
    let (ang, f) := if override_angle s then (drift_angle dt (before s pre) (eV e), fgrid (eV e)) else (Vangle (eV e), jump_frequency dt (before s pre) (eV e)) in
    match add_grid_event s (eT e) (Vgrid (eV e)) ang f with
    | (s', Raise x) => (s', Raise x)
    | (s', Ok _) => (advance_grid s', Ok (GridV (Vgrid (eV e)) ang f))
    end.
Proof.
  intros (post & Hi & Hc & He & Ht & Hw). pose proof (old_before s pre e post Hi Hc) as Ho.
  unfold grid_events_at. rewrite He. cbn [negb].
  assert (Ne : exists x0 lx, items (grid s) = x0 :: lx) by (rewrite Hi; destruct pre; cbn; eauto). destruct Ne as (x0 & lx & Ex). rewrite Ex.
  rewrite Hc. rewrite <- Ex, (py_index_nat _ _ e); [|rewrite Hi, nth_error_app2, Nat.sub_diag by lia; reflexivity].
  replace (qlt t (eT e)) with false by (symmetry; apply qlt_false; auto). cbn [andb].
  replace (qle (eT e) t) with true by (symmetry; apply qle_iff; auto). rewrite Hi, py_last.
  replace (qlt t (eT (last (e :: post) e) + (3 # 1000))) with true by (symmetry; apply qlt_iff; auto). rewrite Ho.
  unfold jump_frequency, drift_angle. destruct (override_angle s); cbn [negb andb]; reflexivity.
Qed.

(** * C134 *)
(** Whatever the step of the events object is, an event that becomes active is reported with
    the converted quantity, or refused when that is out of limits. *)
Theorem C134_conversion : forall w s pre e t, activates s pre e t ->
  (override_angle s = true -> in_limits s (Vgrid (eV e)) (fgrid (eV e)) ->
     snd (grid_events_run w s t) = Ok (GridV (Vgrid (eV e)) (drift_angle (ev_step w) (before s pre) (eV e)) (fgrid (eV e)))) /\
  (override_angle s = false -> in_limits s (Vgrid (eV e)) (jump_frequency (ev_step w) (before s pre) (eV e)) ->
     snd (grid_events_run w s t) = Ok (GridV (Vgrid (eV e)) (Vangle (eV e)) (jump_frequency (ev_step w) (before s pre) (eV e)))) /\
  (override_angle s = false -> ~ in_limits s (Vgrid (eV e)) (jump_frequency (ev_step w) (before s pre) (eV e)) ->
     grid_events_run w s t = (s, Raise ValueError)).
Proof.
  intros w s pre e t Ha. unfold grid_events_run. rewrite (activated _ s pre e t Ha). repeat split; intros Ho Hl; rewrite Ho; cbv beta iota zeta.
  - destruct (add_ok s (eT e) (Vgrid (eV e)) (drift_angle (ev_step w) (before s pre) (eV e)) (fgrid (eV e)) Hl) as (s' & ->). reflexivity.
  - destruct (add_ok s (eT e) (Vgrid (eV e)) (Vangle (eV e)) _ Hl) as (s' & ->). reflexivity.
  - rewrite add_bad by exact Hl. reflexivity.
Qed.
Print Assumptions C134_conversion.

(** The step is that of the simulation as long as nobody assigns either of them ... *)
Theorem C134_unassigned_steps_agree_partial : forall h i q,
  (forall a, In a h -> a = Create) -> step_of (acts h) i = Some q -> ev_step (acts h) = q.
Proof.
  intros h. induction h as [|a h IH] using rev_ind; intros i q H Hs.
  - destruct i; discriminate.
  - unfold acts in *. rewrite fold_left_app in *. cbn [fold_left] in *. rewrite (H a) in * by (apply in_or_app; right; left; reflexivity). cbn [act ev_step sim_inc] in *.
    unfold step_of in Hs. cbn [sim_inc] in Hs.
    destruct (Nat.lt_ge_cases i (length (sim_inc (fold_left act h init_steps)))) as [Lt|Ge].
    + rewrite nth_error_app1 in Hs by auto. 
      assert (Q : ev_step (fold_left act h init_steps) = q) by (apply (IH i q); auto; intros b Hb; apply H; apply in_or_app; left; auto).
      assert (Z : ev_step (fold_left act h init_steps) = tInc0).
      { clear - H. assert (H' : forall a, In a h -> a = Create) by (intros b Hb; apply H, in_or_app; left; auto). clear H.
        induction h as [|b h IH] using rev_ind; [reflexivity|]. rewrite fold_left_app. cbn [fold_left]. rewrite (H' b) by (apply in_or_app; right; left; reflexivity). reflexivity. }
      congruence.
    + rewrite nth_error_app2 in Hs by auto. destruct (i - _)%nat as [|n]; [injection Hs as <-; reflexivity|]. destruct n; discriminate.
Qed.
Print Assumptions C134_unassigned_steps_agree_partial.
(** ... and after the user has copied it to the events object, until the next assignment of
    the step of this simulation or of the events object, or the next creation. *)
Theorem C134_copied_step_agrees_partial : forall h h' i q, step_of (acts h) i <> None ->
  (forall a, In a h' -> exists j q', a = SetInc j q' /\ j <> i) ->
  let w := acts (h ++ [SetInc i q; SetEventStep q] ++ h') in ev_step w = q /\ step_of w i = Some q.
Proof.
  intros h h' i q Hi H. cbv zeta. unfold acts, step_of in *. rewrite !fold_left_app. cbn [fold_left act ev_step sim_inc].
  set (w0 := fold_left act h init_steps) in *.
  assert (S1 : forall l j q', nth_error l j <> None -> nth_error (set_nth l j q') j = Some q').
  { induction l as [|x l IH]; intros [|j] q' Hn; cbn in *; try congruence. apply IH; auto. }
  assert (S2 : forall l j j' q', j <> j' -> nth_error (set_nth l j' q') j = nth_error l j).
  { induction l as [|x l IH]; intros [|j] [|j'] q' Hn; cbn; try congruence; try reflexivity. apply IH. congruence. }
  remember (Steps q (set_nth (sim_inc w0) i q)) as w1 eqn:E1.
  assert (P : ev_step w1 = q /\ nth_error (sim_inc w1) i = Some q) by (rewrite E1; cbn [ev_step sim_inc]; split; [reflexivity|apply S1; auto]). clear E1.
  revert w1 P. induction h' as [|a h' IH]; intros w1 P; [exact P|]. cbn [fold_left]. apply IH.
  - intros b Hb. apply H. right; auto.
  - destruct (H a (or_introl eq_refl)) as (j & q' & -> & Hj). cbn [act ev_step sim_inc]. rewrite S2 by congruence. exact P.
Qed.
Print Assumptions C134_copied_step_agrees_partial.

(** REFUTED otherwise: assigning the time step of a simulation - as the project's own tests
    and notebooks do - leaves the step of its events object behind: the reported frequency
    is wrong, or an admissible event aborts the run. *)
Definition coarse : steps := acts [Create; SetInc 0 (1#120)].
Definition jump_schedule (a : Q) : events := fst (add_grid_event (init_events default_spec false true true true) 1 1 a 60).
Theorem C134_own_step_refuted :
  step_of coarse 0 = Some (1#120) /\ ~ ev_step coarse == 1#120 /\
  (exists v, snd (grid_events_run coarse (jump_schedule (1#500)) 1) = Ok v /\ fgrid v > 603#10 /\
     jump_frequency (1#120) (before (jump_schedule (1#500)) []) (GridV 1 (1#500) 60) < 601#10) /\
  (in_limits (jump_schedule (1#10)) 1 (jump_frequency (1#120) (before (jump_schedule (1#10)) []) (GridV 1 (1#10) 60)) /\
     snd (grid_events_run coarse (jump_schedule (1#10)) 1) = Raise ValueError).
Proof.
  split; [reflexivity|]. split; [vm_compute; discriminate|]. split.
  - eexists. split; [vm_compute; reflexivity|]. split; vm_compute; reflexivity.
  - split; [|vm_compute; reflexivity]. unfold in_limits. repeat split; vm_compute; discriminate.
Qed.
Print Assumptions C134_own_step_refuted.

(** Non-vacuity of C134_conversion: the jump of 1/500 rad, at the instant of the event. *)
Example C134_hypotheses_met :
  activates (jump_schedule (1#500)) [] (Ev 1 (GridV 1 (1#500) 60)) 1 /\
  in_limits (jump_schedule (1#500)) 1 (jump_frequency (ev_step (acts [Create])) (before (jump_schedule (1#500)) []) (GridV 1 (1#500) 60)).
Proof.
  split.
  - exists []. vm_compute. repeat split; try reflexivity; discriminate.
  - unfold in_limits. repeat split; vm_compute; discriminate.
Qed.
