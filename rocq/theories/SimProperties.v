(** C54, C55, C56, C57, C61, C74, C75, C76: the simulation object. *)
From Coq Require Import String.
From Verif Require Import Base EventsModel EventsProofs2 SimModel SimLemmas SimSpec
  SimProofs SimProofs2 SimProofs3 SimProofs4.
Open Scope string_scope.
Open Scope Q_scope.

(* ================================================================== *)
(** * C54: state vector layout *)

Lemma der_y0_total {V} m (x : string -> V) : der_y0 m (fun n => Some (x n)) = Ok (List.map x (spec_states m)).
Proof. destruct m; reflexivity. Qed.
Lemma n_len m : List.length (ode_names m) = n_ODE m.
Proof. destruct m; reflexivity. Qed.
Lemma ode_spec m : ode_names m = spec_states m.
Proof. destruct m; reflexivity. Qed.
Lemma y0_spec m : y0_names m = spec_states m.
Proof. destruct m; reflexivity. Qed.
Lemma spec_nodup m : NoDup (spec_states m).
Proof. apply nodupb_ok. destruct m; reflexivity. Qed.

Lemma assign_other {V} ns : forall (vs : list V) d n, ~ In n ns -> assign ns vs d n = d n.
Proof.
  induction ns as [|k ns IH]; intros [|v vs] d n H; auto. simpl. rewrite IH by (intros C; apply H; now right).
  unfold put. destruct (String.eqb k n) eqn:E; auto. apply String.eqb_eq in E. subst. exfalso. apply H. now left.
Qed.
Lemma assign_nth {V} ns : NoDup ns -> forall (vs : list V) d n i, List.length vs = List.length ns ->
  nth_error ns i = Some n -> assign ns vs d n = nth_error vs i.
Proof.
  induction ns as [|k ns IH]; intros ND [|v vs] d n i L H; try discriminate; [destruct i; discriminate|].
  inversion ND as [|? ? Hk ND']; subst. destruct i as [|i]; simpl in *.
  - injection H as <-. rewrite assign_other by auto. unfold put. now rewrite String.eqb_refl.
  - apply IH; auto.
Qed.
Lemma assign_prefix {V} ns : forall (vs : list V) d, assign ns vs d = assign ns (firstn (List.length ns) vs) d.
Proof. induction ns as [|k ns IH]; intros [|v vs] d; simpl; auto. Qed.

(** y0 of a DER lists exactly n_ODE states, in the documented order, for every
    value of the state; unpacking a vector of that length in ODE_model puts
    entry i into state i, so reading y0 afterwards gives the vector back; and
    the derivative vector is ordered the same way. *)
Theorem C54_state_vector_layout : forall (V : Type) (m : mtype) (x : string -> V) (d : dstate V) (y : list V),
  List.length y = n_ODE m ->
  List.length (spec_states m) = n_ODE m /\
  der_y0 m (fun n => Some (x n)) = Ok (List.map x (spec_states m)) /\
  (exists d', ode_unpack m y d = Ok d' /\
     (forall i n, nth_error (spec_states m) i = Some n -> d' n = nth_error y i) /\
     (forall n, ~ In n (spec_states m) -> d' n = d n) /\
     der_y0 m d' = Ok y) /\
  result_names m = List.map (fun n => "d" ++ n) (spec_states m).
Proof.
  intros V m x d y Hy. split; [apply spec_states_len|]. split; [apply der_y0_total|]. split.
  2:{ destruct m; reflexivity. }
  assert (E : ode_unpack m y d = Ok (assign (ode_names m) y d)).
  { unfold ode_unpack. rewrite n_len, Hy, Nat.eqb_refl. destruct m; reflexivity. }
  exists (assign (ode_names m) y d). split; auto. rewrite ode_spec.
  assert (N : forall i n, nth_error (spec_states m) i = Some n -> assign (spec_states m) y d n = nth_error y i).
  { intros i n H. apply assign_nth; auto. apply spec_nodup. now rewrite spec_states_len. }
  split; auto. split; [intros; now apply assign_other|].
  unfold der_y0. rewrite y0_spec. apply mapM_nth. { now rewrite spec_states_len. }
  intros i n H. destruct (nth_error_lt y i) as [v Hv].
  { rewrite Hy, <- spec_states_len. now apply in_index in H. }
  exists v. split; auto. rewrite (N i n H), Hv. reflexivity.
Qed.
Print Assumptions C54_state_vector_layout.

(** A vector of the wrong length is rejected by ODE_model; only the numba
    variant accepts (and ignores) surplus entries. *)
Theorem C54_wrong_length_rejected : forall (V : Type) (m : mtype) (d : dstate V) (y : list V),
  List.length y <> n_ODE m ->
  (m <> MNumba -> ode_unpack m y d = Raise ValueError) /\
  (m = MNumba -> (List.length y < n_ODE m)%nat -> ode_unpack m y d = Raise IndexError) /\
  (m = MNumba -> (n_ODE m < List.length y)%nat -> ode_unpack m y d = ode_unpack m (firstn (n_ODE m) y) d).
Proof.
  intros V m d y H. split; [|split].
  - intros Hm. unfold ode_unpack. rewrite n_len.
    destruct (Nat.eqb (List.length y) (n_ODE m)) eqn:E; [apply Nat.eqb_eq in E; contradiction|].
    destruct m; auto. contradiction.
  - intros -> C. unfold ode_unpack. cbn [n_ODE] in C. apply Nat.ltb_lt in C. now rewrite C.
  - intros -> L. unfold ode_unpack. cbn [n_ODE] in *. rewrite firstn_length.
    replace (Nat.min 23 (List.length y)) with 23%nat by lia.
    replace (Nat.ltb (List.length y) 23) with false by (symmetry; apply Nat.ltb_ge; lia).
    change (Nat.ltb 23 23) with false. cbv iota. f_equal. apply (assign_prefix (ode_names MNumba)).
Qed.
Print Assumptions C54_wrong_length_rejected.

(** collect_states stores column i of the solution as the series of state i,
    for every solution whose rows are full state vectors. *)
Theorem C54_solution_columns_stored : forall (V : Type) (o : ops V) (m : mtype) (vdc : V) (ts : list Q)
  (sol : list (list V)) (a : attrs V),
  (forall r, In r sol -> List.length r = n_ODE m) ->
  exists a', collect_states o m vdc ts sol a = Ok a' /\
    forall i n, nth_error (spec_states m) i = Some n ->
    exists l, a' (n ++ "_t") = Some (A1 l) /\ List.map Some l = List.map (fun r => nth_error r i) sol.
Proof.
  intros V o m vdc ts sol a Hr.
  destruct (cs_sound o m vdc ts sol a Hr) as (a' & kn & Hc & X & H & F).
  exists a'. split; auto. intros i n Hi. fold (state_attr n).
  destruct (H (state_attr n)) as (l & E & L & N).
  { apply (cs_check_states o m vdc kn Hc). apply in_map. eapply nth_error_In; eauto. }
  exists l. split; auto. apply nth_error_ext. { now rewrite !map_length. }
  intros j Hj. rewrite map_length in Hj. rewrite !nth_error_map, N by lia.
  destruct (nth_error_lt sol j) as [r Er]; [lia|]. rewrite Er. cbn [option_map].
  assert (Hlr : List.length r = n_ODE m) by (apply Hr; eapply nth_error_In; eauto).
  pose proof (N j ltac:(lia)) as Nj. rewrite Er in Nj. unfold env0 in *.
  rewrite (cs_sample o m vdc _ r Hlr i n Hi) in *.
  destruct (nth_error_lt l j) as [v Ev]; [lia|]. rewrite Ev in Nj. now rewrite <- Nj.
Qed.
Print Assumptions C54_solution_columns_stored.

(** The index table used to fill the Jacobian agrees with the state vector,
    except that the last entry of the three-phase model is called "Vrms". *)
Theorem C54_jacobian_index : forall m,
  (m <> MThree -> jac_names m = spec_states m) /\
  (m = MThree -> firstn 23 (jac_names m) = firstn 23 (spec_states m) /\
                 skipn 23 (jac_names m) = ["Vrms"] /\ skipn 23 (spec_states m) = ["Vrms_filter"]).
Proof. intros m. destruct m; split; intros; try contradiction; try discriminate; repeat split; reflexivity. Qed.
Print Assumptions C54_jacobian_index.

Example C54_hypotheses_met :
  exists d, ode_unpack MSingleC [1;2;3;4;5;6;7;8;9;10] (fun _ => @None Q) = Ok d /\
            d "xaR" = Some 3 /\ d "xP" = Some 7 /\ d "wte" = Some 10 /\ d "Vdc" = None.
Proof. eexists. repeat split; reflexivity. Qed.

(* ================================================================== *)
(** * C55: restart in loop mode *)

(** sim.y0, read after any non-empty sequence of loop-mode intervals (solutions
    collected or not), is the final row of the last solution — for every model
    type except the three-phase model with RMS filter. *)
Theorem C55_loop_restart_partial : forall (V : Type) (o : ops V) (m : mtype) (d : der V) (ts : list Q) (cs : bool)
  (y : list V) (h : list (op V)),
  m <> MThree -> der_y0 m (d_state d) = Ok y ->
  Forall (fun p => exists iv, p = ORun iv) h -> runs h <> [] -> Forall (wf_interval m) (runs h) ->
  exists s0 s, make_sim o m d ts true cs = Ok s0 /\ sim_y0 m (at_ s0) = Ok y /\
    run_ops o h s0 = Ok s /\ sim_y0 m (at_ s) = Ok (last_row (runs h)).
Proof.
  intros V o m d ts cs y h Hm Hy Ha Hne Hwf.
  destruct (make_ok o m d ts true cs y Hy) as (s0 & E0 & Y0 & T & L & C & _ & HI & _).
  exists s0. destruct h as [|p h]; [contradiction|]. inversion Ha as [|? ? [iv ->] Ha']; subst. cbn [runs] in *.
  assert (Hlen := der_y0_len _ _ y Hy).
  assert (HvM : forall s : sim V, typ s0 = MThree -> exists v, nth_error y 23 = Some v /\ Last (at_ s) "Vrms_filter" v)
    by (intros; contradiction).
  assert (Hr : forall r, restart (typ s0) y r = r) by (intros r; destruct (typ s0); auto; contradiction).
  inversion Hwf as [|? ? Wiv Wrest]; subst.
  destruct (collect_sol s0) eqn:Ecs.
  - specialize (HI eq_refl eq_refl).
    destruct (InvY_run o _ d y [] iv s0 HI (HvM s0) Wiv) as (s1 & E1 & I1).
    assert (G : forall h0 ivs s, all_runs h0 -> InvY o (typ s0) d y ivs s -> ivs <> [] ->
              Forall (wf_interval (typ s0)) (runs h0) ->
              exists s', run_ops o h0 s = Ok s' /\ InvY o (typ s0) d y (ivs ++ runs h0)%list s').
    { induction h0 as [|q h0 IH]; intros ivs s Hal Hi Hn Hw.
      - exists s. cbn [runs]. rewrite app_nil_r. auto.
      - inversion Hal as [|? ? [iv2 ->] Hal']; subst. cbn [runs] in *. inversion Hw; subst.
        destruct Hi as (Hi & Hs & Hv).
        destruct (InvY_run o _ d y ivs iv2 s Hi Hv) as (s2 & E2 & I2); auto.
        destruct (IH (ivs ++ [iv2])%list s2) as (s3 & E3 & I3); auto. { destruct ivs; discriminate. }
        exists s3. cbn [run_ops]. rewrite E2. cbn [bindR]. split; auto. now rewrite <- app_assoc in I3. }
    destruct (G h ([] ++ [iv])%list s1 Ha' I1) as (s2 & E2 & I2); auto. { discriminate. }
    exists s2. split; auto. split; auto. cbn [run_ops]. rewrite E1. cbn [bindR]. split; auto.
    rewrite (InvY_y0 o _ d y _ s2 Hlen I2). now rewrite Hr.
  - destruct (finish_nocollect o _ y iv s0 eq_refl Ecs (HvM s0) Wiv) as (s1 & E1 & S1).
    destruct (run_nocollect o _ y h _ s1 Ha' S1 Wrest) as (s2 & E2 & (A & B & Cc & D)).
    exists s2. split; auto. split; auto. cbn [run_ops]. rewrite E1. cbn [bindR]. split; auto.
    assert (El : (match runs h with [] => last (i_sol iv) [] | _ => last_row (runs h) end) = last_row (iv :: runs h)).
    { destruct (runs h) as [|i2 l]; auto. unfold last_row. cbn [rev]. rewrite <- !app_assoc.
      destruct (rev l); reflexivity. }
    rewrite El in Cc. destruct y as [|v0 ?]; [destruct (typ s0); discriminate|].
    rewrite (states_last_y0 _ (at_ s2) _ _ v0 Cc Hlen); [|intros; contradiction]. now rewrite Hr.
Qed.
Print Assumptions C55_loop_restart_partial.

(** Hence the next interval, started from sim.y0 by a solver that returns the
    initial state as its first row, begins where the previous one ended. *)
Theorem C55_next_interval_partial : forall (V : Type) (o : ops V) (m : mtype) (d : der V) (ts : list Q) (cs : bool)
  (y : list V) (h : list (op V)) (solver : list V -> list Q -> list (list V)) (tn : list Q),
  m <> MThree -> der_y0 m (d_state d) = Ok y ->
  Forall (fun p => exists iv, p = ORun iv) h -> runs h <> [] -> Forall (wf_interval m) (runs h) ->
  (forall y t l, nth_error (solver y (t :: l)) 0 = Some y) -> tn <> [] ->
  exists s0 s y1, make_sim o m d ts true cs = Ok s0 /\ run_ops o h s0 = Ok s /\
    sim_y0 m (at_ s) = Ok y1 /\ nth_error (solver y1 tn) 0 = Some (last_row (runs h)).
Proof.
  intros V o m d ts cs y h solver tn Hm Hy Ha Hne Hwf Hs Ht.
  destruct (C55_loop_restart_partial V o m d ts cs y h Hm Hy Ha Hne Hwf) as (s0 & s & E0 & _ & E1 & E2).
  exists s0, s, (last_row (runs h)). repeat split; auto. destruct tn; [contradiction|]. apply Hs.
Qed.
Print Assumptions C55_next_interval_partial.

(** For the three-phase model with RMS filter the last component is never
    updated: it is the value the filter had when the simulation was created. *)
Theorem C55_three_phase_restart : forall (V : Type) (o : ops V) (d : der V) (ts : list Q) (y : list V)
  (iv : interval V) (h : list (op V)),
  der_y0 MThree (d_state d) = Ok y ->
  Forall (wf_interval MThree) (iv :: runs h) -> Forall two_points (iv :: runs h) ->
  exists s0 s, make_sim o MThree d ts true true = Ok s0 /\ run_ops o (ORun iv :: h) s0 = Ok s /\
    sim_y0 MThree (at_ s) = Ok (firstn 23 (last_row (iv :: runs h)) ++ skipn 23 y)%list.
Proof.
  intros V o d ts y iv h Hy Hwf H2.
  destruct (make_ok o MThree d ts true true y Hy) as (s0 & E0 & Y0 & T & _ & _ & _ & HI & _).
  specialize (HI eq_refl eq_refl). exists s0. inversion Hwf as [|? ? Wiv Wr]; subst.
  assert (Hlen := der_y0_len MThree _ y Hy).
  assert (HvM : MThree = MThree -> exists v, nth_error y 23 = Some v /\ Last (at_ s0) "Vrms_filter" v).
  { intros _. unfold sim_y0 in Y0. revert Y0. clear -Hlen. intros Y0.
    destruct (nth_error_lt y 23) as [v Hv]; [rewrite Hlen; simpl; lia|]. exists v. split; auto.
    assert (G : forall l r i k, mapM (fun k => bindR (aget (at_ s0) k) a_last) l = Ok r -> nth_error l i = Some k ->
      bindR (aget (at_ s0) k) a_last = match nth_error r i with Some v => Ok v | None => Raise IndexError end).
    { induction l as [|a l IH]; intros r i k H Hi; [destruct i; discriminate|]. simpl in H.
      destruct (bindR (aget (at_ s0) a) a_last) eqn:Ea; [|discriminate]. simpl in H.
      destruct (mapM _ l) eqn:El; [|discriminate]. simpl in H. injection H as <-.
      destruct i as [|i]; simpl in *. - injection Hi as <-. exact Ea. - now apply IH. }
    unfold Last. rewrite (G _ _ 23%nat "Vrms_filter" Y0 eq_refl), Hv. reflexivity. }
  destruct (InvY_run o _ d y [] iv s0 HI HvM Wiv) as (s1 & E1 & I1).
  destruct (run_ops_InvY o MThree d y h ([] ++ [iv])%list s1 I1) as (s2 & E2 & I2); auto. { discriminate. }
  exists s2. split; auto. cbn [run_ops]. rewrite E1. cbn [bindR]. split; auto.
  rewrite (InvY_y0 o _ d y _ s2 Hlen I2). reflexivity.
Qed.
Print Assumptions C55_three_phase_restart.

(** Witness: the three-phase model does not restart from its last state. *)
Definition ex_ops : ops Q :=
  Ops Q (fun a b => a + b) (fun a => a) (fun a => a) (fun a => a) (fun a => a) (fun a b => a + b)
      (fun a => a) (fun a b => a * b) (fun a b c => a + b + c) (fun a b => a * b) (fun a b => a + b)
      (fun a b c => a + b + c) (fun a => a) (fun t v => t + v).
Definition ex_der : der Q := Der Q (fun _ => Some 1) 1 (fun _ => 7) 1 2 3 false.
Definition ex_grid : gridf Q := Gridf Q (fun t => t) (fun t => t) (fun t => t) (fun t => t).
Definition ex_row (n : nat) (v : Q) : list Q := repeat v n.
Definition ex_iv (n : nat) (ts vs : list Q) : interval Q := Interval Q ex_der ex_grid ts (List.map (ex_row n) vs).
Lemma ex_iv_wf m ts vs : ts <> [] -> List.length vs = List.length ts -> wf_interval m (ex_iv (n_ODE m) ts vs).
Proof.
  intros Hn Hl. split; [exact Hn|]. split.
  - simpl. now rewrite map_length.
  - intros r Hr. simpl in Hr. apply in_map_iff in Hr. destruct Hr as (v & <- & _). apply repeat_length.
Qed.

Theorem C55_loop_restart_refuted : exists (d : der Q) (y : list Q) (h : list (op Q)) s0 s,
  der_y0 MThree (d_state d) = Ok y /\ Forall (wf_interval MThree) (runs h) /\ runs h <> [] /\
  make_sim ex_ops MThree d [0] true true = Ok s0 /\ run_ops ex_ops h s0 = Ok s /\
  sim_y0 MThree (at_ s) <> Ok (last_row (runs h)).
Proof.
  exists ex_der, (ex_row 24 1), [ORun (ex_iv 24 [0; 1] [1; 5])].
  eexists; eexists. split; [reflexivity|]. split.
  { constructor; [|constructor]. apply (ex_iv_wf MThree); [discriminate|reflexivity]. }
  split; [discriminate|]. split; [reflexivity|]. split; [reflexivity|].
  vm_compute. intros H. injection H as H. discriminate H.
Qed.
Print Assumptions C55_loop_restart_refuted.

Example C55_hypotheses_met :
  der_y0 MBal (d_state ex_der) = Ok (ex_row 11 1) /\
  Forall (wf_interval MBal) [ex_iv 11 [0; 1] [1; 5]; ex_iv 11 [1; 2] [5; 9]] /\
  match make_sim ex_ops MBal ex_der [0] true true with
  | Ok s0 => match run_ops ex_ops [ORun (ex_iv 11 [0; 1] [1; 5]); ORun (ex_iv 11 [1; 2] [5; 9])] s0 with
             | Ok s => sim_y0 MBal (at_ s) | Raise e => Raise e end
  | Raise e => Raise e end = Ok (ex_row 11 9).
Proof.
  split; [reflexivity|]. split.
  - constructor; [|constructor; [|constructor]]; apply (ex_iv_wf MBal); try discriminate; reflexivity.
  - vm_compute. reflexivity.
Qed.

(* ================================================================== *)
(** * C56: trajectories *)

(** After any history of loop-mode intervals (with trajectory reads in
    between), provided at least one interval was run first, get_trajectories
    returns exactly the documented series; the time axis is 0 followed by the new
    time points of each interval, and every series is the initial value
    followed by its value at each of these points. *)
Theorem C56_trajectories_consistent : forall (V : Type) (o : ops V) (m : mtype) (d : der V) (ts : list Q)
  (y : list V) (iv : interval V) (h : list (op V)),
  der_y0 m (d_state d) = Ok y -> Forall (wf_interval m) (iv :: runs h) ->
  exists s0 s s' trs, make_sim o m d ts true true = Ok s0 /\
    run_ops o (ORun iv :: h) s0 = Ok s /\ get_trajectories s = (s', Ok trs) /\
    tt_ s' = Some (A1 (0 :: new_times (iv :: runs h))) /\
    (forall k, In k (List.map fst trs) <-> In k (spec_names m)) /\
    (forall k v, In (k, v) trs -> exists l, v = A1 l /\
       List.map Some l = Some (spec_initial d k) :: new_samples o m k (iv :: runs h) /\
       List.length l = List.length (0 :: new_times (iv :: runs h))).
Proof.
  intros V o m d ts y iv h Hy Hwf.
  destruct (make_ok o m d ts true true y Hy) as (s0 & E0 & _ & _ & _ & _ & _ & HI & _).
  specialize (HI eq_refl eq_refl). inversion Hwf as [|? ? Wiv Wr]; subst.
  destruct (Inv_run o m d [] iv s0 HI Wiv) as (s1 & E1 & I1 & _).
  destruct (run_ops_Inv o m d h ([] ++ [iv])%list s1 I1) as (s2 & E2 & I2); auto. { discriminate. }
  destruct (Inv_get o m d _ s2 I2) as (s3 & trs & E3 & _ & N & T & H & _); auto. { discriminate. }
  exists s0, s2, s3, trs. split; auto. cbn [run_ops]. rewrite E1. cbn [bindR]. split; auto. split; auto.
  cbn [app] in *. split; auto. split.
  - intros k. rewrite N. apply traj_names.
  - intros k v Hin. destruct (H k v Hin) as (l & -> & El). exists l. split; auto. split; auto.
    apply (f_equal (@List.length _)) in El. rewrite map_length in El. cbn [List.length] in El. rewrite El.
    rewrite new_len by auto. reflexivity.
Qed.
Print Assumptions C56_trajectories_consistent.

(** When the intervals join (the first starts at 0, each is increasing and
    starts where the previous one ended) no time point is duplicated. *)
Theorem C56_no_duplicate_times : forall (V : Type) (ivs : list (interval V)),
  joined 0 ivs -> StronglySorted Qlt (0 :: new_times ivs).
Proof. intros V ivs. apply joined_sorted. Qed.
Print Assumptions C56_no_duplicate_times.

(** Batch mode: the series have exactly one sample per point of the time grid. *)
Theorem C56_batch_trajectories : forall (V : Type) (o : ops V) (m : mtype) (d d' : der V) (g : gridf V)
  (solver : list V -> list Q -> list (list V)) (y1 : list V) (tStart tStop tInc : Q) (s0 : sim V),
  der_y0 m (d_state d) = Ok y1 -> typ s0 = m -> loop_mode s0 = false -> collect_sol s0 = true ->
  (forall y ts, List.length y = n_ODE m -> List.length (solver y ts) = List.length ts /\
                forall r, In r (solver y ts) -> List.length r = n_ODE m) ->
  ~ tInc == 0 ->
  exists tgrid s s' trs, t_calc tStart tStop tInc = Ok tgrid /\
    run_batch o d d' g solver tStart tStop tInc s0 = Ok s /\
    get_trajectories s = (s', Ok trs) /\ tt_ s' = Some (A1 tgrid) /\
    (forall k, In k (List.map fst trs) <-> In k (spec_names m)) /\
    (forall k v, In (k, v) trs -> exists l, v = A1 l /\ List.length l = List.length tgrid /\
       List.map Some l = List.map (fun p => spec_sample o m d' g (fst p) (snd p) k)
                                  (combine tgrid (solver y1 tgrid))).
Proof.
  intros V o m d d' g solver y1 tStart tStop tInc s0 Hy Ht Hl Hc Hsol Hinc.
  assert (exists tgrid, t_calc tStart tStop tInc = Ok tgrid) as [tg Etg].
  { unfold t_calc, arange. destruct (qeq tInc 0) eqn:E; [qb; contradiction|]. eauto. }
  pose proof (der_y0_len m _ y1 Hy) as Hlen.
  destruct (iy_sound o m (d_vdc d) y1 (at_ s0) Hlen) as (a1 & kn & _ & X1 & _).
  pose proof (iy_states o m (d_vdc d) y1 (at_ s0) a1 Hlen X1) as Y1.
  destruct (Hsol y1 tg Hlen) as [Sl Sr].
  destruct (full_sound o m d' g tg (solver y1 tg) a1 Sl Sr) as (a2 & X2 & H & F).
  destruct (In_mapM_pair a2 (traj_list m)) as (r & Er & Hf & Hi).
  { intros k Hk. destruct (H k (traj_append m k Hk)) as (l & El & _). eauto. }
  set (s1 := Sim V m a2 tg (Some (A1 tg)) (ut_ s0) false true).
  exists tg, s1, s1, r.
  assert (HH : forall k v, In (k, v) r -> exists l, v = A1 l /\ List.length l = List.length tg /\
       List.map Some l = List.map (fun p => spec_sample o m d' g (fst p) (snd p) k) (combine tg (solver y1 tg))).
  { intros k v Hin. assert (Hk : In k (traj_list m)) by (rewrite <- Hf; apply (in_map fst) in Hin; exact Hin).
    destruct (H k (traj_append m k Hk)) as (l & El & Ll & Nl). pose proof (Hi k v Hin) as Ev.
    exists l. split; [congruence|]. split; auto. apply samples_list; auto. }
  split; auto. split; [|split; [|split; [|split]]]; auto.
  - unfold run_batch. rewrite Etg. cbn [bindR]. rewrite Ht. unfold initialize_y0_t. rewrite Hy. cbn [bindR].
    rewrite X1. cbn [bindR]. rewrite Y1. cbn [bindR]. unfold finish_run, collect_results.
    cbn [collect_sol loop_mode typ at_ tv ut_]. rewrite Hc, Hl, X2. reflexivity.
  - unfold get_trajectories, s1. cbn [loop_mode typ at_ tt_ bindR]. rewrite Er. cbn [bindR a_len].
    rewrite (mapM_len (List.length tg) r); auto.
    intros k v Hin. destruct (HH k v Hin) as (l & -> & Ll & _). eauto.
  - intros k. rewrite Hf. apply traj_names.
Qed.
Print Assumptions C56_batch_trajectories.

Example C56_hypotheses_met :
  joined 0 [ex_iv 24 [0; 1] [1; 5]; ex_iv 24 [1; 2; 3] [5; 9; 4]] /\
  match make_sim ex_ops MThree ex_der [0] true true with
  | Ok s0 => match run_ops ex_ops [ORun (ex_iv 24 [0; 1] [1; 5]); OGet; ORun (ex_iv 24 [1; 2; 3] [5; 9; 4])] s0 with
             | Ok s => let '(s', r) := get_trajectories s in
               (tt_ s', match r with Ok trs => option_map snd (find (fun p => String.eqb (fst p) "Vrms_filter_t") trs) | _ => None end)
             | Raise e => (None, None) end
  | Raise e => (None, None) end = (Some (A1 [0; 1; 2; 3]), Some (A1 [7; 5; 9; 4])).
Proof.
  split.
  - eexists. split; [reflexivity|]. split; [repeat constructor|].
    eexists. split; [reflexivity|]. split; [repeat constructor|]. exact I.
  - vm_compute. reflexivity.
Qed.

(* ================================================================== *)
(** * C57: time grid *)

Lemma t_calc_ok a b st : 0 < st -> exists l, t_calc a b st = Ok l.
Proof. intros H. unfold t_calc, arange. destruct (qeq st 0) eqn:E; [qb; lra|]. eauto. Qed.

(** For tStart <= tStop and a positive step, the time vector starts at tStart,
    has spacing tInc, covers tStop, overshoots it by less than one step, and
    its last point is tStop exactly when tStop is on the grid. *)
Theorem C57_time_grid : forall tStart tStop tInc, 0 < tInc -> tStart <= tStop ->
  exists l, t_calc tStart tStop tInc = Ok l /\ l <> [] /\
    (forall i t, nth_error l i = Some t -> t == tStart + inject_Z (Z.of_nat i) * tInc) /\
    tStop <= last l tStart /\ last l tStart < tStop + tInc /\
    ((exists n : nat, tStop == tStart + inject_Z (Z.of_nat n) * tInc) <-> last l tStart == tStop).
Proof.
  intros a b st Hst Hab. destruct (t_calc_ok a b st Hst) as [l El]. exists l. split; auto.
  unfold t_calc in El. pose proof (arange_length a (b + st) st l Hst El) as HL.
  pose proof (fun i => arange_nth a (b + st) st l i El) as HN.
  assert (Hne : l <> []).
  { intros C. specialize (HL 0%nat). rewrite C in HL. simpl in HL.
    assert (0 < 0)%nat; [|lia]. apply HL. change (inject_Z 0) with 0. lra. }
  assert (Hnth : forall i t, nth_error l i = Some t -> t == a + inject_Z (Z.of_nat i) * st).
  { intros i t H. pose proof (in_index _ _ _ H) as Hi. rewrite (HN i Hi) in H. injection H as <-. reflexivity. }
  pose proof (nth_error_last l a Hne) as Hlast.
  assert (Elast := Hnth _ _ Hlast).
  assert (Hl0 : (0 < List.length l)%nat) by (destruct l; [contradiction|simpl; lia]).
  set (n := (List.length l - 1)%nat) in *.
  assert (H1 : a + inject_Z (Z.of_nat n) * st < b + st) by (apply HL; lia).
  assert (H2 : ~ a + inject_Z (Z.of_nat (Datatypes.S n)) * st < b + st) by (rewrite <- HL; lia).
  rewrite Nat2Z.inj_succ in H2. unfold Z.succ in H2. rewrite inject_Z_plus in H2. change (inject_Z 1) with 1 in H2.
  split; auto. split; auto. split; [lra|]. split; [lra|]. split.
  - intros (k & Ek).
    assert (Hk : (k <= n)%nat).
    { assert (k < List.length l)%nat by (apply HL; lra). lia. }
    destruct (Nat.eq_dec k n) as [->|D]; [lra|].
    assert (inject_Z (Z.of_nat k) + 1 <= inject_Z (Z.of_nat n)).
    { change 1 with (inject_Z 1). rewrite <- inject_Z_plus, <- Zle_Qle. lia. }
    nra.
  - intros E. exists n. lra.
Qed.
Print Assumptions C57_time_grid.
Example C57_hypotheses_met : match t_calc 0 (45#100) (1#10) with Ok l => List.length l = 6%nat | _ => False end.
Proof. reflexivity. Qed.

(** The stepping loop of the alternative solver: whatever the fuel, as long as
    no step fails, its times are tStart + i*tInc for exactly the i with
    tStart + i*tInc <= tStop + 1e-6: one point fewer than the time grid when tStop
    is not on it. *)
Lemma vode_nth step st b : 0 < st -> (forall k, step k = true) ->
  forall fuel t k i x, nth_error (vode_loop fuel step b st t k) i = Some x ->
  x == t + inject_Z (Z.of_nat (Datatypes.S i)) * st /\ x <= b + (1#1000000).
Proof.
  intros Hst Hs. induction fuel as [|f IH]; intros t k i x H; [destruct i; discriminate|].
  cbn [vode_loop] in H. destruct (qle st (b + (1#1000000) - t)) eqn:E; [|destruct i; discriminate].
  rewrite Hs in H. qb. destruct i as [|i]; simpl in H.
  - injection H as <-. change (Z.of_nat 1) with 1%Z. change (inject_Z 1) with 1. split; lra.
  - apply IH in H. destruct H as [H1 H2]. split; auto. rewrite H1. rewrite !Nat2Z.inj_succ. unfold Z.succ.
    rewrite !inject_Z_plus. change (inject_Z 1) with 1. ring.
Qed.
Lemma vode_len step st b : 0 < st -> (forall k, step k = true) ->
  forall fuel t k i, (i < fuel)%nat -> t + inject_Z (Z.of_nat (Datatypes.S i)) * st <= b + (1#1000000) ->
  (i < List.length (vode_loop fuel step b st t k))%nat.
Proof.
  intros Hst Hs. induction fuel as [|f IH]; intros t k i Hi H; [lia|].
  cbn [vode_loop]. rewrite Hs.
  assert (Hz : 0 <= inject_Z (Z.of_nat i)). { change 0 with (inject_Z 0). rewrite <- Zle_Qle. lia. }
  rewrite Nat2Z.inj_succ in H. unfold Z.succ in H. rewrite inject_Z_plus in H. change (inject_Z 1) with 1 in H.
  destruct (qle st (b + (1#1000000) - t)) eqn:E; [|qb; nra].
  destruct i as [|i]; simpl; [lia|]. apply -> Nat.succ_lt_mono. apply IH; [lia|].
  rewrite !Nat2Z.inj_succ in *. unfold Z.succ in *. rewrite !inject_Z_plus in *. change (inject_Z 1) with 1 in *. lra.
Qed.
Theorem C57_stepping_solver_times : forall (tStart tStop tInc : Q) (fuel : nat), 0 < tInc ->
  tStart <= tStop -> tStop + (1#1000000) < tStart + inject_Z (Z.of_nat fuel) * tInc ->
  let l := vode_times fuel (fun _ => true) tStart tStop tInc in
  forall i, (exists t, nth_error l i = Some t /\ t == tStart + inject_Z (Z.of_nat i) * tInc) <->
            tStart + inject_Z (Z.of_nat i) * tInc <= tStop + (1#1000000).
Proof.
  intros a b st fuel Hst Hab Hf l i. unfold l, vode_times. split.
  - intros (t & H & E). destruct i as [|i]; simpl in H.
    + injection H as <-. change (inject_Z (Z.of_nat 0)) with 0. lra.
    + apply (vode_nth (fun _ => true) st b Hst (fun _ => eq_refl)) in H. lra.
  - intros H. destruct i as [|i].
    + exists a. split; auto. change (inject_Z (Z.of_nat 0)) with 0. ring.
    + assert (Hi : (i < fuel)%nat).
      { destruct (Nat.lt_ge_cases i fuel); auto.
        assert (inject_Z (Z.of_nat fuel) <= inject_Z (Z.of_nat (Datatypes.S i))) by (rewrite <- Zle_Qle; lia). nra. }
      pose proof (vode_len (fun _ => true) st b Hst (fun _ => eq_refl) fuel a 0 i Hi H) as L.
      destruct (nth_error_lt _ _ L) as [x Hx]. exists x. split; auto.
      now apply (vode_nth (fun _ => true) st b Hst (fun _ => eq_refl)) in Hx.
Qed.
Print Assumptions C57_stepping_solver_times.

(* ================================================================== *)
(** * C61: solver failures *)

Lemma index_true_spec {A} (f : A -> bool) l : existsb f l = true ->
  exists x, nth_error l (index_true f l) = Some x /\ f x = true /\
    forall j y, (j < index_true f l)%nat -> nth_error l j = Some y -> f y = false.
Proof.
  induction l as [|a l IH]; simpl; intros H; [discriminate|].
  destruct (f a) eqn:E; simpl in *.
  - exists a. repeat split; auto. intros j y Hj. lia.
  - destruct (IH H) as (x & H1 & H2 & H3). exists x. repeat split; auto.
    intros [|j] y Hj Hy; simpl in *; [congruence|]. apply (H3 j y); auto. lia.
Qed.

(** status code of a solver step: 1 (Adams) and 2 (BDF) are the valid ones;
    the indicator is never negative *)
Definition step_failed (z : Z) : Prop := z = 0%Z \/ (2 < z)%Z.

(** With one indicator per time step: the check raises exactly when some step
    failed; it then records the start time and the code of the first failing step
    and marks the run as not converged; otherwise it marks it converged and
    records nothing. *)
Theorem C61_failures_reported : forall (mused : list Z) (t : list Q) (s : solver_st),
  List.length mused = (List.length t - 1)%nat ->
  ((exists z, In z mused /\ step_failed z) ->
     exists i ti z, nth_error mused i = Some z /\ step_failed z /\ nth_error t i = Some ti /\
       (forall j z', (j < i)%nat -> nth_error mused j = Some z' -> ~ step_failed z') /\
       check_simulation mused t s = (SolverSt (Some false) (fails s ++ [(ti, z)])%list, Raise ValueError)) /\
  ((forall z, In z mused -> ~ step_failed z) ->
     check_simulation mused t s = (SolverSt (Some true) (fails s), Ok tt)).
Proof.
  intros mused t s HL.
  assert (B : forall z, bad_status z = true <-> step_failed z).
  { intros z. unfold bad_status, step_failed. rewrite orb_true_iff, Z.eqb_eq, Z.ltb_lt. tauto. }
  unfold check_simulation. split.
  - intros (z & Hz & Hb).
    assert (E : existsb bad_status mused = true) by (apply existsb_exists; exists z; rewrite B; auto).
    rewrite E, HL, Nat.eqb_refl.
    destruct (index_true_spec bad_status mused E) as (x & H1 & H2 & H3).
    pose proof (in_index _ _ _ H1) as Hi. destruct (nth_error_lt t (index_true bad_status mused)) as [ti Hti]; [lia|].
    exists (index_true bad_status mused), ti, x. rewrite <- B. repeat split; auto.
    + intros j z' Hj Hz' C. apply B in C. rewrite (H3 j z' Hj Hz') in C. discriminate.
    + rewrite Hti, H1. reflexivity.
  - intros H. assert (E : existsb bad_status mused = false).
    { destruct (existsb bad_status mused) eqn:E; auto. apply existsb_exists in E. destruct E as (z & Hz & Hb).
      apply B in Hb. exfalso. apply (H z Hz Hb). }
    now rewrite E.
Qed.
Print Assumptions C61_failures_reported.
Example C61_hypotheses_met :
  check_simulation [1; 2; 0; 7]%Z [0; 1; 2; 3; 4] (SolverSt None []) =
  (SolverSt (Some false) [(2, 0%Z)], Raise ValueError).
Proof. reflexivity. Qed.

(* ================================================================== *)
(** * C74: the alternative solver *)

(** Every documented solver can be selected when a simulation is created:
    false for 'ode-vode-bdf' (the initial state is read before it exists), and an
    unknown solver name is reported with AttributeError instead of the message. *)
Theorem C74_solver_selection_refuted : forall (V : Type) (m : mtype),
  construct_solver (V:=V) m "odeint" = Ok tt /\
  construct_solver (V:=V) m "ode-vode-bdf" = Raise AttributeError /\
  (forall st, ~ In st ["odeint"; "ode-vode-bdf"] -> construct_solver (V:=V) m st = Raise AttributeError).
Proof.
  intros V m. split; [reflexivity|]. split; [destruct m; reflexivity|].
  intros st Hst. unfold construct_solver, initialize_solver.
  destruct (existsb (String.eqb st) solver_list) eqn:E; auto.
  apply existsb_In in E. contradiction.
Qed.
Print Assumptions C74_solver_selection_refuted.

(** Selecting it later works; but its runs never produce a convergence flag of
    their own: without an earlier odeint run the call raises AttributeError,
    and after one it returns the flag of that earlier run whatever happened. *)
Theorem C74_stale_convergence_refuted : forall (V : Type) (m : mtype) (o : ops V) (d : der V) ts lm cs y,
  der_y0 m (d_state d) = Ok y ->
  (exists s0, make_sim o m d ts lm cs = Ok s0 /\
     initialize_solver m (at_ s0) (Some "odeint") "ode-vode-bdf" = (Some "ode-vode-bdf", Ok tt)) /\
  (forall mused t fl, call_ODE_solver "ode-vode-bdf" mused t (SolverSt None fl) = (SolverSt None fl, Raise AttributeError)) /\
  (forall mused t b fl, call_ODE_solver "ode-vode-bdf" mused t (SolverSt (Some b) fl) = (SolverSt (Some b) fl, Ok b)).
Proof.
  intros V m o d ts lm cs y Hy. split; [|split; reflexivity].
  destruct (make_ok o m d ts lm cs y Hy) as (s0 & E0 & Y0 & _). exists s0. split; auto.
  unfold initialize_solver. cbn [existsb solver_list]. change (String.eqb "ode-vode-bdf" "odeint") with false.
  change (String.eqb "ode-vode-bdf" "ode-vode-bdf") with true. cbn [orb]. rewrite Y0. reflexivity.
Qed.
Print Assumptions C74_stale_convergence_refuted.

(** What does hold: with odeint the flag returned is True exactly when no step
    failed, and otherwise the call raises. *)
Theorem C74_odeint_flag_partial : forall (mused : list Z) (t : list Q) (s : solver_st),
  List.length mused = (List.length t - 1)%nat ->
  ((forall z, In z mused -> ~ step_failed z) <-> snd (call_ODE_solver "odeint" mused t s) = Ok true) /\
  ((exists z, In z mused /\ step_failed z) <-> snd (call_ODE_solver "odeint" mused t s) = Raise ValueError).
Proof.
  intros mused t s HL. destruct (C61_failures_reported mused t s HL) as [F1 F2].
  unfold call_ODE_solver. change (String.eqb "odeint" "odeint") with true. cbv iota.
  assert (D : (exists z, In z mused /\ step_failed z) \/ (forall z, In z mused -> ~ step_failed z)).
  { clear. induction mused as [|z l IH]; [right; intros ? []|].
    assert (Dz : step_failed z \/ ~ step_failed z) by (unfold step_failed; lia).
    destruct Dz as [Dz|Dz]; [left; exists z; simpl; auto|].
    destruct IH as [(w & Hw & Bw)|IH]; [left; exists w; simpl; auto|].
    right. intros w [<-|Hw]; auto. }
  destruct D as [D|D].
  - destruct (F1 D) as (i & ti & z & _ & _ & _ & _ & E). rewrite E. cbn. split; split; intros H; auto; try discriminate.
    exfalso. destruct D as (w & Hw & Bw). apply (H w Hw Bw).
  - rewrite (F2 D). cbn. split; split; intros H; auto; try discriminate.
    exfalso. destruct H as (w & Hw & Bw). apply (D w Hw Bw).
Qed.
Print Assumptions C74_odeint_flag_partial.

(* ================================================================== *)
(** * C75: reading trajectories does not disturb the simulation *)

(** After at least one interval (of two or more points), reading does not
    change the restart state and can be repeated with the same result. *)
Theorem C75_reading_harmless_partial : forall (V : Type) (o : ops V) (m : mtype) (d : der V) (ts : list Q)
  (y : list V) (iv : interval V) (h : list (op V)),
  der_y0 m (d_state d) = Ok y -> Forall (wf_interval m) (iv :: runs h) ->
  Forall (fun i => (2 <= List.length (i_t i))%nat) (iv :: runs h) ->
  exists s0 s s1 s2 trs, make_sim o m d ts true true = Ok s0 /\
    run_ops o (ORun iv :: h) s0 = Ok s /\ get_trajectories s = (s1, Ok trs) /\
    get_trajectories s1 = (s2, Ok trs) /\
    is_ok (sim_y0 m (at_ s)) = true /\ sim_y0 m (at_ s1) = sim_y0 m (at_ s).
Proof.
  intros V o m d ts y iv h Hy Hwf H2.
  destruct (make_ok o m d ts true true y Hy) as (s0 & E0 & Y0 & T & _ & _ & _ & HI & _).
  specialize (HI eq_refl eq_refl). inversion Hwf as [|? ? Wiv Wr]; subst m.
  assert (Hlen := der_y0_len _ _ y Hy).
  assert (HvM : typ s0 = MThree -> exists v, nth_error y 23 = Some v /\ Last (at_ s0) "Vrms_filter" v).
  { intros D. rewrite D in *. unfold sim_y0 in Y0. revert Y0. clear -Hlen. intros Y0.
    destruct (nth_error_lt y 23) as [v Hv]; [rewrite Hlen; simpl; lia|]. exists v. split; auto.
    assert (G : forall l r i k, mapM (fun k => bindR (aget (at_ s0) k) a_last) l = Ok r -> nth_error l i = Some k ->
      bindR (aget (at_ s0) k) a_last = match nth_error r i with Some v => Ok v | None => Raise IndexError end).
    { induction l as [|a l IH]; intros r i k H Hi; [destruct i; discriminate|]. simpl in H.
      destruct (bindR (aget (at_ s0) a) a_last) eqn:Ea; [|discriminate]. simpl in H.
      destruct (mapM _ l) eqn:El; [|discriminate]. simpl in H. injection H as <-.
      destruct i as [|i]; simpl in *. - injection Hi as <-. exact Ea. - now apply IH. }
    unfold Last. rewrite (G _ _ 23%nat "Vrms_filter" Y0 eq_refl), Hv. reflexivity. }
  destruct (InvY_run o _ d y [] iv s0 HI HvM Wiv) as (s1 & E1 & I1).
  destruct (run_ops_InvY o _ d y h ([] ++ [iv])%list s1 I1) as (s2 & E2 & I2); auto. { discriminate. }
  cbn [app] in I2.
  destruct (Inv_get o _ d _ s2 (proj1 I2)) as (s3 & trs & E3 & I3 & N3 & T3 & L3 & G1 & G2 & U3); auto. { discriminate. }
  destruct (InvY_get o _ d y _ s2 I2) as (s3' & trs' & E3' & I3'); auto. { discriminate. }
  rewrite E3 in E3'. injection E3' as <- <-.
  destruct (Inv_get o _ d _ s3 I3) as (s4 & trs4 & E4 & I4 & N4 & T4 & L4 & G3 & G4 & U4); auto. { discriminate. }
  exists s0, s2, s3, s4, trs. split; auto. cbn [run_ops]. rewrite E1. cbn [bindR]. split; auto. split; auto.
  assert (trs4 = trs) as ->.
  { assert (P : forall k v v', In (k, v) trs -> In (k, v') trs4 -> v = v').
    { intros k v v' Hi Hi'. destruct (L3 k v Hi) as (w & -> & El). destruct (L4 k v' Hi') as (w' & -> & El').
      f_equal. rewrite <- El' in El. clear -El. revert w' El. induction w as [|a w IH]; intros [|b w'] El; simpl in *; try discriminate; auto.
      injection El as -> El. f_equal. auto. }
    rewrite <- N3 in N4. clear -P N4. revert trs4 N4 P. induction trs as [|[k v] trs IH]; intros [|[k' v'] trs4] N P; simpl in *; try discriminate; auto.
    injection N as -> N. f_equal.
    - f_equal. symmetry. eapply P; left; reflexivity.
    - apply IH; auto. intros; eapply P; right; eauto. }
  split; auto. rewrite (InvY_y0 o _ d y _ s2 Hlen I2), (InvY_y0 o _ d y _ s3 Hlen I3'). auto.
Qed.
Print Assumptions C75_reading_harmless_partial.

Lemma mapM_split_raise {A B} (f : A -> res B) l1 x l2 e :
  (forall a, In a l1 -> is_ok (f a) = true) -> f x = Raise e -> mapM f (l1 ++ x :: l2)%list = Raise e.
Proof.
  induction l1 as [|a l1 IH]; intros H Hx; simpl.
  - now rewrite Hx.
  - pose proof (H a (or_introl eq_refl)) as Ha. destruct (f a); [|discriminate]. simpl.
    rewrite IH; auto. intros; apply H; now right.
Qed.
Lemma mapM_all_ok {A B} (f : A -> res B) l r : mapM f l = Ok r -> forall a, In a l -> is_ok (f a) = true.
Proof.
  revert r. induction l as [|b l IH]; intros r H a [].
  - subst. simpl in H. destruct (f a); [reflexivity|discriminate].
  - simpl in H. destruct (f b); [|discriminate]. simpl in H. destruct (mapM f l) eqn:E; [|discriminate].
    eapply IH; eauto.
Qed.

(** Before the first interval, reading raises TypeError, and it destroys the
    DC-link series, so that for every model with a DC-link state the restart state
    can no longer be read: the simulation object is unusable. *)
Theorem C75_reading_harmless_refuted : forall (V : Type) (o : ops V) (m : mtype) (d : der V) (ts : list Q)
  (y : list V) (cs : bool),
  der_y0 m (d_state d) = Ok y ->
  exists s0 s1, make_sim o m d ts true cs = Ok s0 /\ sim_y0 m (at_ s0) = Ok y /\
    get_trajectories s0 = (s1, Raise TypeError) /\
    (In "Vdc" (spec_states m) -> sim_y0 m (at_ s1) = Raise IndexError).
Proof.
  intros V o m d ts y cs Hy.
  destruct (make_ok o m d ts true cs y Hy) as (s0 & E0 & Y0 & T & Lm & _ & _ & _ & HU).
  destruct (HU eq_refl) as [Hut Hr].
  assert (Hu : forall k, In k (append_list m) -> exists q, at_ s0 (under k) = Some (A0 (d_misc d q))).
  { intros k Hk. apply reset_append in Hk. apply in_map_iff in Hk. destruct Hk as ([k1 q] & Ek & Hin).
    simpl in Ek. subst k1. exists q. now apply Hr. }
  destruct (@invert_ok V (invert_list m)) with (a := at_ s0) as (a' & X & H1 & H2).
  { intros k k' Hk Hk'. apply append_invert in Hk. apply append_invert in Hk'. eapply append_under; eauto. }
  { intros k Hk. apply append_invert in Hk. destruct (Hu k Hk) as (q & Eq). eauto. }
  destruct (In_mapM_pair a' (traj_list m)) as (r & Er & _).
  { intros k Hk. apply traj_append in Hk. rewrite H1 by (now apply append_invert).
    destruct (Hu k Hk) as (q & Eq). eauto. }
  eexists s0, (Sim V m a' (tv s0) (Some (A0 0)) (Some (A0 0)) true (collect_sol s0)).
  split; auto. split; auto. split.
  - unfold get_trajectories. rewrite Lm, T, X, Hut. cbn [at_ tt_ bindR]. rewrite Er. reflexivity.
  - cbn [at_]. intros Hv.
    assert (exists l1 l2, sim_y0_attrs m = (l1 ++ "Vdc_t" :: l2)%list /\ forall k, In k l1 -> ~ In k (invert_list m)) as (l1 & l2 & El & Hl1).
    { assert (Q : forall a b, forallb (fun k => negb (inb k (invert_list m))) a = true ->
         sim_y0_attrs m = (a ++ "Vdc_t" :: b)%list ->
         exists l1 l2, sim_y0_attrs m = (l1 ++ "Vdc_t" :: l2)%list /\ forall k, In k l1 -> ~ In k (invert_list m)).
      { intros a b Hf E. exists a, b. split; auto. intros k Hk. rewrite forallb_forall in Hf. apply Hf in Hk.
        apply not_inb. now destruct (inb k (invert_list m)). }
      destruct m; try (exfalso; apply inb_In in Hv; discriminate Hv);
      first [ apply (Q (firstn 6 (sim_y0_attrs MBal)) (skipn 7 (sim_y0_attrs MBal))); reflexivity
            | apply (Q (firstn 18 (sim_y0_attrs MNumba)) (skipn 19 (sim_y0_attrs MNumba))); reflexivity
            | apply (Q (firstn 18 (sim_y0_attrs MThree)) (skipn 19 (sim_y0_attrs MThree))); reflexivity ]. }
    unfold sim_y0. rewrite El. apply mapM_split_raise.
    + intros k Hk. assert (Hin : In k (sim_y0_attrs m)) by (rewrite El; apply in_or_app; now left).
      pose proof (mapM_all_ok _ _ _ Y0 k Hin) as G. unfold aget in *. rewrite H2 by (now apply Hl1). exact G.
    + unfold aget. rewrite H1 by (apply append_invert, Vdc_in). destruct (Hu "Vdc_t" (Vdc_in m)) as (q & Eq).
      rewrite Eq. reflexivity.
Qed.
Print Assumptions C75_reading_harmless_refuted.

(* ================================================================== *)
(** * C76: a batch run starts from the DER's current state *)

(** Whatever the simulation object holds from earlier runs, run_simulation in
    batch mode integrates from the DER's current state over the time grid, and the
    states stored afterwards are the columns of that solution.  In particular
    a second run continues from the state the first run left in the DER. *)
Theorem C76_batch_starts_from_der_state : forall (V : Type) (o : ops V) (m : mtype) (d d' : der V) (g : gridf V)
  (solver : list V -> list Q -> list (list V)) (y : list V) (tStart tStop tInc : Q) (s : sim V),
  der_y0 m (d_state d) = Ok y -> typ s = m -> collect_sol s = false ->
  (forall y ts, List.length y = n_ODE m -> List.length (solver y ts) = List.length ts /\
                forall r, In r (solver y ts) -> List.length r = n_ODE m) ->
  0 < tInc -> tStart <= tStop ->
  exists tgrid s', t_calc tStart tStop tInc = Ok tgrid /\
    run_batch o d d' g solver tStart tStop tInc s = Ok s' /\
    (forall i n, nth_error (spec_states m) i = Some n ->
       exists l, at_ s' (n ++ "_t") = Some (A1 l) /\
                 List.map Some l = List.map (fun r => nth_error r i) (solver y tgrid)) /\
    (m <> MThree -> sim_y0 m (at_ s') = Ok (last (solver y tgrid) [])).
Proof.
  intros V o m d d' g solver y tStart tStop tInc s Hy Ht Hc Hsol Hinc Hle.
  destruct (C57_time_grid tStart tStop tInc Hinc Hle) as (tg & Etg & Hne & _).
  pose proof (der_y0_len m _ y Hy) as Hlen. destruct (Hsol y tg Hlen) as [Sl Sr].
  destruct (iy_sound o m (d_vdc d) y (at_ s) Hlen) as (a1 & kn & _ & X1 & _).
  pose proof (iy_states o m (d_vdc d) y (at_ s) a1 Hlen X1) as Y1.
  destruct (C54_solution_columns_stored V o m (d_vdc d') tg (solver y tg) a1 Sr) as (a2 & X2 & H2).
  exists tg. eexists. split; auto. split.
  { unfold run_batch. rewrite Etg. cbn [bindR]. rewrite Ht. unfold initialize_y0_t. rewrite Hy. cbn [bindR].
    rewrite X1. cbn [bindR]. rewrite Y1. cbn [bindR]. unfold finish_run. cbn [collect_sol typ at_ tv]. rewrite Hc.
    rewrite X2. cbn [bindR]. reflexivity. }
  unfold set_at. cbn [at_]. split; [exact H2|]. intros Hm.
  assert (Hs : solver y tg <> []). { intros C. rewrite C in Sl. destruct tg; [contradiction|discriminate]. }
  pose proof (cs_states o m (d_vdc d') tg (solver y tg) a1 a2 Hs Sr X2) as SL.
  destruct y as [|v0 y']; [destruct m; discriminate|].
  rewrite (states_last_y0 m a2 _ (v0 :: y') v0 SL Hlen); [|intros; contradiction].
  destruct m; auto; contradiction.
Qed.
Print Assumptions C76_batch_starts_from_der_state.
Example C76_hypotheses_met :
  exists s0, make_sim ex_ops MSingle ex_der [0] false false = Ok s0 /\
  match run_batch ex_ops ex_der ex_der ex_grid
         (fun y ts => List.map (fun t => List.map (fun v => v + t) y) ts) 0 (2#10) (1#10) s0 with
  | Ok s => match at_ s "xQ_t" with Some (A1 l) => List.map Qred l | _ => [] end | _ => [] end = [1; 11#10; 6#5].
Proof. eexists. split; [reflexivity|]. vm_compute. reflexivity. Qed.
