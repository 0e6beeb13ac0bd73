(** C138: the instant at which a simulation starts. *)
From Coquelicot Require Import Coquelicot.
From Verif Require Import RBase CxField PhasorModel PVModel ODEModel Const3Model PhasorProperties PhasorProperties2 CircuitProperties2 CircuitProperties3 PLLProperties FilterProperties BoundProofs BoundProperties SettleProperties SolutionSpec LipschitzProofs SolutionProperties RelabelProperties.
Import RBase.
Open Scope R_scope.

(** * Specification *)
(** the same inputs [c] seconds later, and the same states [c] seconds later with the
    PLL angle advanced by [th] *)
Definition later_env (c : R) (E : R -> env) : R -> env := fun t =>
  let e := E (t - c) in
  Env (e_t e + c) (e_wgrid e) (e_va e) (e_vb e) (e_vc e) (e_grid e) (e_Qref e) (e_Vdcref e) (e_mod e) (e_conn e) (e_Vconst e).
Definition later_run (c th : R) (Y : R -> st) : R -> st := fun t v =>
  match v with WTE => Y (t - c) WTE + th | v => Y (t - c) v end.
(** constant grid frequency, and a clock that shows the simulated time *)
Definition steady_clock (w : R) (E : R -> env) : Prop := forall t, e_wgrid (E t) = w /\ e_t (E t) = t.
Definition multiple_of (x : R) (period : R) : Prop := exists n : Z, x = IZR n * period.

(** * Proofs *)
Definition at_time (c th : R) (e : env) (y : st) : env * st :=
  (Env (e_t e + c) (e_wgrid e) (e_va e) (e_vb e) (e_vc e) (e_grid e) (e_Qref e) (e_Vdcref e) (e_mod e) (e_conn e) (e_Vconst e),
   fun v => match v with WTE => y WTE + th | v => y v end).
Lemma rhs_only_pll p k c th e y : pll_in p k (snd (at_time c th e y)) (fst (at_time c th e y)) = pll_in p k y e ->
  forall v, rhs p k (fst (at_time c th e y)) (snd (at_time c th e y)) v = rhs p k e y v.
Proof.
  intros H v. destruct k; cbn [pll_in] in H; destruct v as [ph cc| | | | | | |]; try destruct ph; cbn [rhs ode1 ode3 odeb odec ode3c];
    rewrite ?H; reflexivity.
Qed.
Lemma pi_multiple x : multiple_of x PI -> exists s, s * s = 1 /\ forall y, sin (y + x) = s * sin y /\ cos (y + x) = s * cos y.
Proof.
  intros H. assert (Sx : sin x = 0) by (apply sin_eq_0_1; exact H). exists (cos x). pose proof (sin2_cos2 x) as Q. unfold Rsqr in Q. rewrite Sx in Q.
  split; [lra|]. intros y. rewrite sin_plus, cos_plus, Sx. split; ring.
Qed.
Lemma cycle_multiple x : multiple_of x (2 * PI) -> forall y, sin (y + x) = sin y /\ cos (y + x) = cos y.
Proof.
  intros [n ->] y. assert (S0 : sin (IZR n * PI) = 0) by (apply sin_eq_0_1; exists n; reflexivity).
  replace (IZR n * (2 * PI)) with (2 * (IZR n * PI)) by ring.
  rewrite sin_plus, cos_plus, sin_2a, cos_2a, S0. pose proof (sin2_cos2 (IZR n * PI)) as Q. unfold Rsqr in Q. rewrite S0 in Q.
  replace (cos (IZR n * PI) * cos (IZR n * PI)) with 1 by lra. split; ring.
Qed.
Lemma vd_form va vb vc w t wte : vd_three_phase va vb vc w t wte =
  2 / 3 * ((re va - re vb / 2 - re vc / 2) * (sin (w * t) * cos wte) + (im va - im vb / 2 - im vc / 2) * (cos (w * t) * cos wte)
         + w3 * (re vb - re vc) * (sin (w * t) * sin wte) + w3 * (im vb - im vc) * (cos (w * t) * sin wte)).
Proof.
  rewrite vd_time, !time_sin. unfold third. rewrite cos_minus, cos_plus. replace (cos (2 / 3 * PI)) with (- (1/2)) by (symmetry; apply cos_2_3).
  replace (sin (2 / 3 * PI)) with w3 by (symmetry; apply sin_2_3). field.
Qed.
Lemma vd1_form va w t wte : vd_single_phase va w t wte = re va * sin (w * t - wte) + im va * cos (w * t - wte).
Proof.
  unfold vd_single_phase, alpha_beta_to_d_q. cbn [fst]. rewrite !time_sin. unfold cmul, cexp. cbn [re im]. rewrite !cos_neg, !sin_neg, cos_PI2, sin_PI2, sin_minus, cos_minus. ring.
Qed.
Lemma vd_pos va vb vc w t wte : (let '(_, _, v2) := phasor_to_symmetrical va vb vc in v2 = Cx 0 0) ->
  vd_three_phase va vb vc w t wte = 2 / 3 * ((re va - re vb / 2 - re vc / 2) * sin (w * t - wte) + (im va - im vb / 2 - im vc / 2) * cos (w * t - wte)).
Proof.
  unfold phasor_to_symmetrical. rewrite cexp_p, cexp_4. intros N. rewrite vd_form, sin_minus, cos_minus.
  destruct va as [a a'], vb as [b b'], vc as [c c']. unfold cscale, cadd, cmul in *. cbn [re im] in *.
  pose proof (f_equal re N) as N1. pose proof (f_equal im N) as N2. cbn [re im] in N1, N2. clear N. set (q := w3) in *. clearbody q.
  assert (A1 : q * (b' - c') = - (a - b / 2 - c / 2)) by lra.
  assert (A2 : q * (b - c) = a' - b' / 2 - c' / 2) by lra.
  rewrite A1, A2. ring.
Qed.
(** balanced copies have no negative sequence *)
Lemma rot_no_negative v : let '(_, _, v2) := phasor_to_symmetrical v (rot PB v) (rot PC v) in v2 = Cx 0 0.
Proof.
  unfold phasor_to_symmetrical. cbn [rot]. unfold Ub_calc, Uc_calc. rewrite cexp_p, cexp_m, cexp_4. pose proof w3_sq as W. set (w := w3) in *. clearbody w.
  destruct v as [a b]. unfold cscale, cadd, cmul. cbn [re im]. apply cx_eq; cbn [re im]; sq34.
Qed.
Lemma pll_turns p k c th e y : multiple_of (e_wgrid e * c) (2 * PI) -> multiple_of th (2 * PI) ->
  pll_in p k (snd (at_time c th e y)) (fst (at_time c th e y)) = pll_in p k y e.
Proof.
  intros H1 H2.
  assert (T3 : forall va vb vc, vd_three_phase va vb vc (e_wgrid e) (e_t e + c) (y WTE + th) = vd_three_phase va vb vc (e_wgrid e) (e_t e) (y WTE)).
  { intros va vb vc. rewrite !vd_form. replace (e_wgrid e * (e_t e + c)) with (e_wgrid e * e_t e + e_wgrid e * c) by ring.
    destruct (cycle_multiple _ H1 (e_wgrid e * e_t e)) as [-> ->]. destruct (cycle_multiple _ H2 (y WTE)) as [-> ->]. reflexivity. }
  assert (T1 : forall va, vd_single_phase va (e_wgrid e) (e_t e + c) (y WTE + th) = vd_single_phase va (e_wgrid e) (e_t e) (y WTE)).
  { intros va. rewrite !vd1_form, !sin_minus, !cos_minus. replace (e_wgrid e * (e_t e + c)) with (e_wgrid e * e_t e + e_wgrid e * c) by ring.
    destruct (cycle_multiple _ H1 (e_wgrid e * e_t e)) as [-> ->]. destruct (cycle_multiple _ H2 (y WTE)) as [-> ->]. reflexivity. }
  destruct k; cbn [pll_in]; [apply T1|apply T3|apply T3|apply T1|apply T3].
Qed.
Lemma pll_half_turns p k c th e y : e_wgrid e * c = th -> multiple_of th PI ->
  pll_in p k (snd (at_time c th e y)) (fst (at_time c th e y)) = pll_in p k y e.
Proof.
  intros H1 H2. destruct (pi_multiple _ H2) as (s & S1 & S2).
  assert (T3 : forall va vb vc, vd_three_phase va vb vc (e_wgrid e) (e_t e + c) (y WTE + th) = vd_three_phase va vb vc (e_wgrid e) (e_t e) (y WTE)).
  { intros va vb vc. rewrite !vd_form. replace (e_wgrid e * (e_t e + c)) with (e_wgrid e * e_t e + th) by (rewrite <- H1; ring).
    destruct (S2 (e_wgrid e * e_t e)) as [-> ->]. destruct (S2 (y WTE)) as [-> ->].
    assert (Q : forall u v, s * u * (s * v) = u * v) by (intros u v; replace (s * u * (s * v)) with (s * s * (u * v)) by ring; rewrite S1; ring). rewrite !Q. reflexivity. }
  assert (T1 : forall va, vd_single_phase va (e_wgrid e) (e_t e + c) (y WTE + th) = vd_single_phase va (e_wgrid e) (e_t e) (y WTE)).
  { intros va. rewrite !vd1_form. replace (e_wgrid e * (e_t e + c) - (y WTE + th)) with (e_wgrid e * e_t e - y WTE) by (rewrite <- H1; ring). reflexivity. }
  destruct k; cbn [pll_in]; [apply T1|apply T3|apply T3|apply T1|apply T3].
Qed.
Lemma pll_any p k c th e y : e_wgrid e * c = th -> (three_phase k -> no_negative_sequence p e y) ->
  pll_in p k (snd (at_time c th e y)) (fst (at_time c th e y)) = pll_in p k y e.
Proof.
  intros H1 HN.
  assert (AR : e_wgrid e * (e_t e + c) - (y WTE + th) = e_wgrid e * e_t e - y WTE) by (rewrite <- H1; ring).
  assert (T3 : forall va vb vc, (let '(_, _, v2) := phasor_to_symmetrical va vb vc in v2 = Cx 0 0) ->
    vd_three_phase va vb vc (e_wgrid e) (e_t e + c) (y WTE + th) = vd_three_phase va vb vc (e_wgrid e) (e_t e) (y WTE)).
  { intros va vb vc N. rewrite !vd_pos by exact N. rewrite AR. reflexivity. }
  assert (T1 : forall va, vd_single_phase va (e_wgrid e) (e_t e + c) (y WTE + th) = vd_single_phase va (e_wgrid e) (e_t e) (y WTE)).
  { intros va. rewrite !vd1_form, AR. reflexivity. }
  destruct k; cbn [pll_in]; [apply T1|apply T3; apply HN; left; reflexivity|apply T3; apply rot_no_negative|apply T1|apply T3; apply HN; right; reflexivity].
Qed.
Lemma later_is_run p k a b c th E Y : run_between a b (rhs p k) E Y ->
  (forall t, a < t < b -> pll_in p k (snd (at_time c th (E t) (Y t))) (fst (at_time c th (E t) (Y t))) = pll_in p k (Y t) (E t)) ->
  run_between (a + c) (b + c) (rhs p k) (later_env c E) (later_run c th Y).
Proof.
  intros [D C] HP.
  assert (L : forall v, exists q, forall t, later_run c th Y t v = Y (t - c) v + q).
  { intros v. destruct v; try (exists 0; intros; cbn [later_run]; ring). exists th. reflexivity. }
  split; intros t v Ht; destruct (L v) as [q Lq].
  - assert (Ht' : a < t - c < b) by lra. pose proof (rhs_only_pll p k c th (E (t - c)) (Y (t - c)) (HP _ Ht') v) as Q.
    change (rhs p k (later_env c E t) (later_run c th Y t) v = rhs p k (E (t - c)) (Y (t - c)) v) in Q. rewrite Q.
    apply (is_derive_ext (fun t => Y (t - c) v + q)); [intros; symmetry; apply Lq|]. specialize (D (t - c) v Ht'). evar_last.
    + apply (is_derive_plus (V := R_NormedModule) (fun t => Y (t - c) v) (fun _ => q)); [|apply (is_derive_const (V := R_NormedModule))].
      apply (is_derive_comp (fun s => Y s v) (fun s => s - c)); [exact D|].
      apply (is_derive_minus (V := R_NormedModule) (fun s => s) (fun _ => c)); [apply is_derive_id|apply (is_derive_const (V := R_NormedModule))].
    + unfold scal, plus, minus, opp, one, zero. simpl. unfold mult, plus, opp. simpl. ring.
  - apply (continuous_ext (fun t => Y (t - c) v + q)); [intros; symmetry; apply Lq|].
    apply (continuous_plus (V := R_NormedModule) (fun t => Y (t - c) v) (fun _ => q)); [|apply continuous_const].
    apply (continuous_comp (fun s => s - c) (fun s => Y s v)).
    + apply (continuous_minus (V := R_NormedModule) (fun s => s) (fun _ => c)); [apply continuous_id|apply continuous_const].
    + apply C. lra.
Qed.

(** * C138 *)
(** Starting later by whole cycles changes nothing, in any model, saturated or not; nor
    do whole turns of the PLL angle. *)
Theorem C138_whole_cycles_partial : forall p k a b c th w E Y,
  steady_clock w E -> multiple_of (w * c) (2 * PI) -> multiple_of th (2 * PI) ->
  run_between a b (rhs p k) E Y ->
  run_between (a + c) (b + c) (rhs p k) (later_env c E) (later_run c th Y) /\ steady_clock w (later_env c E).
Proof.
  intros p k a b c th w E Y HE H1 H2 HR. split.
  - apply later_is_run; auto. intros t _. apply pll_turns; auto. rewrite (proj1 (HE t)). auto.
  - intros t. unfold later_env. cbv zeta. cbn [e_wgrid e_t]. destruct (HE (t - c)) as [-> ->]. split; [reflexivity|ring].
Qed.
Print Assumptions C138_whole_cycles_partial.

(** By half cycles, when the PLL angle is advanced by the angle the grid has turned. *)
Theorem C138_half_cycles_partial : forall p k a b c w E Y,
  steady_clock w E -> multiple_of (w * c) PI -> run_between a b (rhs p k) E Y ->
  run_between (a + c) (b + c) (rhs p k) (later_env c E) (later_run c (w * c) Y).
Proof. intros p k a b c w E Y HE H1 HR. apply later_is_run; auto. intros t _. apply pll_half_turns; auto. rewrite (proj1 (HE t)). reflexivity. Qed.
Print Assumptions C138_half_cycles_partial.

(** By any time, with the PLL angle advanced accordingly: single-phase and balanced
    models always, the other three-phase models without negative-sequence voltage. *)
Theorem C138_any_time_partial : forall p k a b c w E Y,
  steady_clock w E -> (three_phase k -> forall t, a < t < b -> no_negative_sequence p (E t) (Y t)) -> run_between a b (rhs p k) E Y ->
  run_between (a + c) (b + c) (rhs p k) (later_env c E) (later_run c (w * c) Y).
Proof. intros p k a b c w E Y HE HN HR. apply later_is_run; auto. intros t Ht. apply pll_any; auto. rewrite (proj1 (HE t)). reflexivity. Qed.
Print Assumptions C138_any_time_partial.

(** Hence, clear of the limits, a simulation started whole cycles later from the same
    state with the same inputs does the same. *)
Theorem C138_determined_partial : forall p k a b c w E Y Y' m B d,
  steady_clock w E -> multiple_of (w * c) (2 * PI) -> 0 < d -> Cdc p <> 0 -> inputs_within p E a b B m ->
  run_between a b (rhs p k) E Y -> (forall t, a < t < b -> clear_of_limits p k (E t) (Y t) d) ->
  (has_dc_link k -> forall t, a <= t <= b -> 0 < Y t VDC) ->
  run_between (a + c) (b + c) (rhs p k) (later_env c E) Y' -> (forall v, Y' (a + c) v = Y a v) ->
  forall t v, a <= t <= b -> Y' (t + c) v = Y t v.
Proof.
  intros p k a b c w E Y Y' m B d HE Hc Hd HC HI HR HL HV HR' H0 t v Ht.
  assert (S0 : forall s v, later_run c 0 Y (s + c) v = Y s v).
  { intros s u. unfold later_run. replace (s + c - c) with s by ring. destruct u; try reflexivity. ring. }
  rewrite <- (S0 t v). symmetry.
  assert (Z0 : multiple_of 0 (2 * PI)) by (exists 0%Z; ring).
  apply (C132_unique_partial p k (later_env c E) m B (a + c) (b + c) d (later_run c 0 Y) Y'); auto; try lra.
  - intros s Hs. assert (Hs' : a < s - c < b) by lra. exact (HI _ Hs').
  - apply (C138_whole_cycles_partial p k a b c 0 w E Y); auto.
  - intros s Hs. assert (Hs' : a < s - c < b) by lra. specialize (HL _ Hs'). destruct k; exact HL.
  - intros Hk s Hs. assert (Hs' : a <= s - c <= b) by lra. exact (HV Hk _ Hs').
  - intros u. rewrite S0, H0. reflexivity.
Qed.
Print Assumptions C138_determined_partial.

(** An idle DER in step with the grid: the PLL angle follows the grid. *)
Definition idle_env (m : pvm) (t : R) : env := Env t wbase (Cx 1 0) (Cx 0 0) (Cx 0 0) None 0 0 m false 2.
Definition idle_run (t : R) : st := fun v => match v with P PA CxR => 1 | WTE => wbase * t | _ => 0 end.
Lemma idle_vd m t : vd1 uneven_prm (idle_env m t) (idle_run t) = 0.
Proof.
  unfold vd1. rewrite vd1_form. unfold v_calc. cbn [idle_env e_grid e_va e_wgrid e_t idle_run re im]. rewrite Rminus_eq_0, sin_0. ring.
Qed.
Definition idle_prm : prm := Prm 1 1 1 1 1 2 10 1 1 1 1 1 1 10 1 1 1 1 1000 (Cx 0 0) 1.
Lemma idle_rhs m t v : rhs idle_prm SingleConst (idle_env m t) (idle_run t) v = match v with WTE => wbase | _ => 0 end.
Proof.
  set (e := idle_env m t). set (y := idle_run t).
  assert (VD : vd1 idle_prm e y = 0) by (apply (idle_vd m t)).
  assert (OM : omega idle_prm SingleConst e y = 1).
  { unfold omega, we_calc. rewrite VD. unfold y. cbn [idle_run]. pose proof PI_RGT_0. unfold wbase. field. lra. }
  assert (DU : duty idle_prm y PA = Cx 1 0) by (unfold duty, y; cbn [idle_run idle_prm Kp_GCC]; apply cx_eq; cbn [re im]; ring).
  assert (SA : rlt (m_limit idle_prm) (cabs (duty idle_prm y PA)) = false).
  { apply rlt_false. rewrite DU. unfold cabs, cnorm2. cbn [re im idle_prm m_limit]. replace (1 * 1 + 0 * 0) with 1 by ring. rewrite sqrt_1. lra. }
  assert (AC : across idle_prm SingleConst e y PA = Cx 0 0).
  { unfold across, v_term. rewrite DU. unfold csub, cadd, cneg, cscale, v_dc, v_calc, e. cbn [re im e_Vconst idle_env e_grid e_va]. apply cx_eq; cbn [re im]; field. }
  assert (Q : q_error idle_prm SingleConst e y = 0).
  { unfold q_error. cbn [S_pcc]. unfold v_calc, i_of, y, S_ph, cscale, cmul, conj. cbn [idle_run re im e e_conn idle_env e_grid e_va]. ring. }
  assert (PE : p_error idle_prm SingleConst e y = 0).
  { unfold p_error, p_in. cbn [e_conn idle_env e S_term]. unfold S_ph, i_of, y, cscale, cmul, conj. cbn [idle_run re im]. ring. }
  destruct v as [ph c| | | | | | |]; try reflexivity.
  - destruct ph; try reflexivity.
    destruct (rhs_current idle_prm SingleConst e y PA eq_refl) as [B1 B2]. destruct (rhs_inner idle_prm SingleConst e y PA eq_refl) as (B3 & B4 & B5 & B6).
    cbv zeta in *. rewrite SA in *. rewrite aw_off in *. rewrite OM, AC in *.
    assert (IR : i_ref idle_prm SingleConst e y PA = Cx 0 0) by reflexivity. rewrite IR in *.
    destruct c; [rewrite B1|rewrite B2|rewrite B3|rewrite B4|rewrite B5|rewrite B6]; unfold y; cbn [idle_run re im idle_prm Lf Rf Ki_GCC wp]; try field; ring.
  - pose proof (rhs_outer_p idle_prm SingleConst e y) as B. cbv zeta in B. cbn [p_state] in B. rewrite B, PE, !Rmult_0_r. apply aw_d0.
  - destruct (rhs_outer idle_prm SingleConst e y) as [B _]. cbv zeta in B. rewrite B, Q, !Rmult_0_r. apply aw_d0.
  - cbn [rhs odec]. rewrite VD. ring.
  - cbn [rhs odec]. rewrite VD. unfold we_calc, y, wbase. cbn [idle_run]. ring.
Qed.
Lemma idle_ok m a b : run_between a b (rhs idle_prm SingleConst) (idle_env m) idle_run.
Proof.
  assert (D : forall t v, is_derive (fun s => idle_run s v) t (rhs idle_prm SingleConst (idle_env m t) (idle_run t) v)).
  { intros t v. rewrite idle_rhs. destruct v as [[| |] [| | | | |]| | | | | | |]; cbn [idle_run]; try apply @is_derive_const; (auto_derive; [auto|ring]). }
  split; [intros t v _; apply D|]. intros t v _. apply (ex_derive_continuous (V := R_NormedModule) (fun s => idle_run s v)). eexists. apply D.
Qed.

(** REFUTED for other start times: a quarter of a cycle later, from the same state, the
    PLL has to find the grid again. *)
Theorem C138_start_time_refuted : exists p k E Y w c, 0 < w /\ steady_clock w E /\ run_between 0 5 (rhs p k) E Y /\
  ~ run_between (0 + c) (5 + c) (rhs p k) (later_env c E) (later_run c 0 Y).
Proof.
  pose proof PI_RGT_0 as HP. assert (W : 0 < wbase) by (unfold wbase; lra).
  exists idle_prm, SingleConst, (idle_env (PVM 1 1 1 300)), idle_run, wbase, (PI / 2 / wbase).
  split; [exact W|]. split; [intros t; split; reflexivity|]. split; [apply idle_ok|]. intros [D _]. set (c := PI / 2 / wbase) in *.
  assert (Hin : 0 + c < 1 + c < 5 + c) by lra. specialize (D (1 + c) XPLL Hin).
  assert (D0 : is_derive (fun s => later_run c 0 idle_run s XPLL) (1 + c) 0) by (cbn [later_run idle_run]; apply @is_derive_const).
  pose proof (is_derive_unique _ _ _ D) as U1. pose proof (is_derive_unique _ _ _ D0) as U0. rewrite U0 in U1. clear D D0 U0.
  cbn [rhs odec] in U1. change (Ki_PLL idle_prm) with 1 in U1. unfold vd1 in U1. rewrite vd1_form in U1.
  unfold v_calc, later_env, later_run in U1. cbn [idle_env e_grid e_va e_wgrid e_t idle_run re im] in U1.
  replace (wbase * (1 + c - c + c) - (wbase * (1 + c - c) + 0)) with (PI / 2) in U1 by (unfold c; field; lra). rewrite sin_PI2, cos_PI2 in U1. lra.
Qed.
Print Assumptions C138_start_time_refuted.

(** Non-vacuity: the idle DER started one and a half cycles and one cycle later. *)
Example C138_hypotheses_met : forall m,
  steady_clock wbase (idle_env m) /\ run_between 0 5 (rhs idle_prm SingleConst) (idle_env m) idle_run /\
  multiple_of (wbase * (1 / 60)) (2 * PI) /\ multiple_of (wbase * (1 / 40)) PI /\ ~ three_phase SingleConst /\
  (forall t, clear_of_limits idle_prm SingleConst (idle_env m t) (idle_run t) 1) /\ inputs_within idle_prm (idle_env m) 0 5 2 m /\ idle_run 1 WTE <> 0.
Proof.
  pose proof PI_RGT_0 as HP. assert (W : 0 < wbase) by (unfold wbase; lra).
  assert (A : forall r, cabs (Cx r 0) = Rabs r) by (intros r; unfold cabs, cnorm2; cbn [re im]; rewrite Rmult_0_l, Rplus_0_r; apply sqrt_Rsqr_abs).
  intros m. split; [intros t; split; reflexivity|]. split; [apply idle_ok|]. split; [exists 1%Z; unfold wbase; field|]. split; [exists 3%Z; unfold wbase; field|].
  split; [intros [Q | Q]; discriminate|]. split; [|split].
  - intros t. split.
    + intros ph Hp. cbn [has_phase] in Hp. subst ph. unfold duty. cbn [idle_run idle_prm Kp_GCC m_limit].
      match goal with |- cabs (Cx ?x ?y) + _ <= _ => replace x with 1 by ring; replace y with 0 by ring end. rewrite A, Rabs_R1. lra.
    + unfold p_error, p_in, q_error. cbn [e_conn idle_env S_term S_pcc]. unfold S_ph, v_calc, i_of, cscale, cmul, conj. cbn [p_state p_gain idle_run re im e_grid e_va idle_prm Kp_P Kp_Q iref_limit].
      match goal with |- cabs (Cx ?x ?y) + _ <= _ => replace x with 0 by ring; replace y with 0 by ring end. rewrite A, Rabs_R0. lra.
  - intros t _. split; [exact I|]. cbn [idle_env e_Qref e_Vdcref e_Vconst e_mod source_impedance e_grid]. rewrite A, Rabs_R0.
    split; [lra|]. split; [intros [| |]; unfold v_calc; cbn [e_grid e_va e_vb e_vc idle_env]; rewrite A, ?Rabs_R0, ?Rabs_R1; lra|]. rewrite Rabs_right by lra. repeat split; lra.
  - cbn [idle_run]. lra.
Qed.
