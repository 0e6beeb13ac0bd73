(** C137: the three-phase models do not depend on which phase is called a. *)
From Coquelicot Require Import Coquelicot.
From Verif Require Import RBase CxField PhasorModel PVModel ODEModel Const3Model PhasorProperties PhasorProperties2 CircuitProperties2 CircuitProperties3 PLLProperties FilterProperties BoundProofs BoundProperties SettleProperties SolutionSpec LipschitzProofs SolutionProperties.
Import RBase.
Open Scope R_scope.

(** * Specification *)
(** Phase b is renamed a, c is renamed b and a is renamed c. *)
Definition next (ph : phase) : phase := match ph with PA => PB | PB => PC | PC => PA end.
(** Phasors are expressed relative to the new phase a, which lags by 120 degrees. *)
Definition turn (z : cx) : cx := cmul z (crect 1 (2 / 3 * PI)).
(** The state with the phases renamed; the PLL angle moves back by [s] radians. *)
Definition relabel_state (s : R) (y : st) : st := fun v => match v with
  | P ph CiR => re (turn (i_of y (next ph))) | P ph CiI => im (turn (i_of y (next ph)))
  | P ph CxR => re (turn (x_of y (next ph))) | P ph CxI => im (turn (x_of y (next ph)))
  | P ph CuR => re (turn (u_of y (next ph))) | P ph CuI => im (turn (u_of y (next ph)))
  | WTE => y WTE - s
  | v => y v end.
(** The inputs with the phases renamed (supplied voltages, or the sources of the
    stand-alone grid); the clock moves back by [s] radians of the grid frequency. *)
Definition relabel_env (s : R) (e : env) : env :=
  Env (e_t e - s / e_wgrid e) (e_wgrid e) (turn (e_vb e)) (turn (e_vc e)) (turn (e_va e))
      (option_map (fun g => Grid_ (turn (vbg g)) (turn (vcg g)) (turn (vag g)) (Z2 g) (Zload1 g)) (e_grid e))
      (e_Qref e) (e_Vdcref e) (e_mod e) (e_conn e) (e_Vconst e).
Definition three_phase (k : kind) : Prop := k = ThreePhase \/ k = ThreeConst.
(** every duty cycle is within the modulation limit *)
Definition modulation_free (p : prm) (y : st) : Prop := forall ph, cabs (duty p y ph) <= m_limit p.
(** PCC voltages without negative-sequence component *)
Definition no_negative_sequence (p : prm) (e : env) (y : st) : Prop :=
  let v ph := v_calc p e ph (i_of y ph) in
  let '(_, _, v2) := phasor_to_symmetrical (v PA) (v PB) (v PC) in v2 = Cx 0 0.
Definition third : R := 2 / 3 * PI.

(** * Proofs *)
(** equality of polynomials modulo w^2 = 3/4 *)
Ltac sq34 := match goal with W : ?w * ?w = 3 / 4 |- ?l = ?r =>
  apply Rminus_diag_uniq; ring_simplify; try (replace (w ^ 4) with (9/16) by (replace (w ^ 4) with (w * w * (w * w)) by ring; rewrite W; field));
  try (replace (w ^ 3) with (3/4 * w) by (replace (w ^ 3) with (w * w * w) by ring; rewrite W; ring)); try (replace (w ^ 2) with (3/4) by (rewrite <- W; ring)); field end.
Lemma turn_c : crect 1 (2 / 3 * PI) = Cx (- (1 / 2)) w3.
Proof. unfold crect. rewrite cexp_p. apply cx_eq; unfold cscale; cbn [re im]; ring. Qed.
Lemma turn_uc z : turn z = Uc_calc z.
Proof. unfold turn, Uc_calc. rewrite turn_c, <- cexp_p. reflexivity. Qed.
Lemma turn_abs z : cabs (turn z) = cabs z.
Proof. rewrite turn_uc. apply (rot_abs PC z). Qed.
Lemma turn_rot ph z : turn (rot (next ph) z) = rot ph z.
Proof.
  destruct ph; cbn [next rot]; rewrite turn_uc; unfold Uc_calc, Ub_calc; rewrite ?cexp_p, ?cexp_m; destruct z as [a b];
    pose proof w3_sq as W; set (w := w3) in *; clearbody w; apply cx_eq; cbn [re im cmul]; try ring; sq34.
Qed.
Lemma turn_zero : turn (Cx 0 0) = Cx 0 0.
Proof. unfold turn. apply cx_eq; cbn [re im cmul]; ring. Qed.
Lemma rl_i s y ph : i_of (relabel_state s y) ph = turn (i_of y (next ph)).
Proof. unfold i_of at 1. cbn [relabel_state]. destruct (turn _); reflexivity. Qed.
Lemma rl_x s y ph : x_of (relabel_state s y) ph = turn (x_of y (next ph)).
Proof. unfold x_of at 1. cbn [relabel_state]. destruct (turn _); reflexivity. Qed.
Lemma rl_u s y ph : u_of (relabel_state s y) ph = turn (u_of y (next ph)).
Proof. unfold u_of at 1. cbn [relabel_state]. destruct (turn _); reflexivity. Qed.
Lemma duty_mx p y ph : duty p y ph = cadd (cscale (Kp_GCC p) (u_of y ph)) (x_of y ph).
Proof. reflexivity. Qed.
Lemma rl_duty p s y ph : duty p (relabel_state s y) ph = turn (duty p y (next ph)).
Proof. rewrite !duty_mx, rl_u, rl_x. unfold turn. rewrite !cscale_mul. ring. Qed.
Lemma rl_vterm p k s e y ph : three_phase k -> v_term p k (relabel_env s e) (relabel_state s y) ph = turn (v_term p k e y (next ph)).
Proof.
  intros H. unfold v_term. rewrite rl_duty. replace (v_dc k (relabel_env s e) (relabel_state s y)) with (v_dc k e y) by (destruct H as [-> | ->]; reflexivity).
  unfold turn. rewrite !cscale_mul. ring.
Qed.
Lemma rl_v p s e y ph : v_calc p (relabel_env s e) ph (i_of (relabel_state s y) ph) = turn (v_calc p e (next ph) (i_of y (next ph))).
Proof.
  rewrite rl_i. unfold v_calc. cbn [relabel_env e_grid e_va e_vb e_vc]. destruct (e_grid e) as [g|]; cbn [option_map]; [|destruct ph; reflexivity].
  assert (L : forall c vg i, v_standalone p (Grid_ (turn (vbg g)) (turn (vcg g)) (turn (vag g)) (Z2 g) (Zload1 g)) (cmul vg c) (cmul i c) = cmul (v_standalone p g vg i) c).
  { intros c vg i. unfold v_standalone. cbv zeta. cbn [Z2 Zload1]. rewrite !cscale_mul. set (dd := cdiv _ _). clearbody dd. ring. }
  unfold turn at 4 5. destruct ph; cbn [next vag vbg vcg]; apply L.
Qed.
Lemma turn_S v i : S_ph (turn v) (turn i) = S_ph v i.
Proof.
  unfold turn. rewrite turn_c. pose proof w3_sq as W. set (w := w3) in *. clearbody w. destruct v as [a b], i as [c d].
  unfold S_ph, cscale, cmul, conj. cbn [re im]. apply cx_eq; cbn [re im]; sq34.
Qed.
Lemma sum3_next f : sum3 (fun ph => f (next ph)) = sum3 f.
Proof. unfold sum3. cbn [next]. ring. Qed.
Lemma sum3_ext f g : (forall ph, f ph = g ph) -> sum3 f = sum3 g.
Proof. intros H. unfold sum3. rewrite !H. reflexivity. Qed.
Lemma rl_Spcc p k s e y : three_phase k -> S_pcc p k (relabel_env s e) (relabel_state s y) = S_pcc p k e y.
Proof.
  intros H. destruct H as [-> | ->]; cbn [S_pcc]; rewrite <- (sum3_next (fun ph => S_ph (v_calc p e ph (i_of y ph)) (i_of y ph)));
    apply sum3_ext; intros ph; rewrite rl_v, rl_i; apply turn_S.
Qed.
Lemma rl_Sterm p k s e y : three_phase k -> S_term p k (relabel_env s e) (relabel_state s y) = S_term p k e y.
Proof.
  intros H. assert (G : sum3 (fun ph => S_ph (v_term p k (relabel_env s e) (relabel_state s y) ph) (i_of (relabel_state s y) ph)) =
    sum3 (fun ph => S_ph (v_term p k e y ph) (i_of y ph))).
  { rewrite <- (sum3_next (fun ph => S_ph (v_term p k e y ph) (i_of y ph))). apply sum3_ext. intros ph. rewrite rl_vterm, rl_i by auto. apply turn_S. }
  destruct H as [-> | ->]; exact G.
Qed.
Lemma rl_rms p s e y : v_rms p (relabel_env s e) (relabel_state s y) = v_rms p e y.
Proof. unfold v_rms. rewrite !rl_v, !turn_abs. cbn [next]. f_equal. f_equal. unfold Rdiv. ring. Qed.
Lemma rl_q p k s e y : three_phase k -> q_error p k (relabel_env s e) (relabel_state s y) = q_error p k e y.
Proof. intros H. unfold q_error. rewrite rl_Spcc by auto. reflexivity. Qed.
Lemma rl_pin p k s e y : three_phase k -> p_in p k (relabel_env s e) (relabel_state s y) = p_in p k e y.
Proof. intros H. destruct H as [-> | ->]; reflexivity. Qed.
Lemma rl_p p k s e y : three_phase k -> p_error p k (relabel_env s e) (relabel_state s y) = p_error p k e y.
Proof. intros H. unfold p_error. rewrite rl_Sterm, rl_pin by auto. destruct H as [-> | ->]; reflexivity. Qed.
Lemma rl_iref p k s e y ph : three_phase k -> i_ref p k (relabel_env s e) (relabel_state s y) ph = turn (i_ref p k e y (next ph)).
Proof.
  intros H. unfold i_ref. rewrite rl_p, rl_q by auto. cbn [relabel_env e_conn]. destruct (e_conn e); [|now rewrite turn_zero].
  rewrite turn_rot. destruct H as [-> | ->]; reflexivity.
Qed.
(** the PLL input *)
Lemma vd_time va vb vc w t wte : vd_three_phase va vb vc w t wte =
  2 / 3 * (phasor_to_time_1phase va w t * cos wte + phasor_to_time_1phase vb w t * cos (wte - third) + phasor_to_time_1phase vc w t * cos (wte + third)).
Proof.
  unfold vd_three_phase, phasor_to_time, abc_to_dq0, third. rewrite cos_minus, cos_plus, cexp_p, cexp_m. replace (cos (2 / 3 * PI)) with (- (1/2)) by (symmetry; apply cos_2_3).
  replace (sin (2 / 3 * PI)) with w3 by (symmetry; apply sin_2_3).
  unfold cexp, RtoCx, cscale, cmul, cadd. cbn [re im]. rewrite cos_neg, sin_neg. field.
Qed.
Lemma time_turn u w t : w <> 0 -> phasor_to_time_1phase (turn u) w (t - third / w) = phasor_to_time_1phase u w t.
Proof.
  intros Hw. rewrite !time_sin. replace (w * (t - third / w)) with (w * t - third) by (field; auto). unfold third.
  rewrite sin_minus, cos_minus. replace (cos (2 / 3 * PI)) with (- (1/2)) by (symmetry; apply cos_2_3).
  replace (sin (2 / 3 * PI)) with w3 by (symmetry; apply sin_2_3). unfold turn. rewrite turn_c. destruct u as [a b]. cbn [re im cmul].
  pose proof w3_sq4 as W. set (q := w3) in *. clearbody q. set (x := sin (w * t)). set (z := cos (w * t)). clearbody x z.
  assert (Q : q * q = 3 / 4) by lra. clear W. sq34.
Qed.
Lemma rl_vd_shift p e y : e_wgrid e <> 0 -> vd3 p (relabel_env third e) (relabel_state third y) = vd3 p e y.
Proof.
  intros Hw. unfold vd3, v3_of. rewrite !rl_v, !vd_time. cbn [relabel_env e_t e_wgrid relabel_state next]. rewrite !time_turn by auto.
  replace (cos (y WTE - third - third)) with (cos (y WTE + third)).
  2:{ replace (y WTE - third - third) with (y WTE + third - 2 * PI) by (unfold third; field). rewrite cos_minus, cos_2PI, sin_2PI. ring. }
  replace (y WTE - third + third) with (y WTE) by ring. ring.
Qed.
Lemma rl_vd_pos p e y : no_negative_sequence p e y -> vd3 p (relabel_env 0 e) (relabel_state 0 y) = vd3 p e y.
Proof.
  unfold no_negative_sequence, phasor_to_symmetrical. rewrite cexp_p, cexp_4. intros N. unfold vd3, v3_of. rewrite !rl_v, !vd_time. cbn [relabel_env e_t e_wgrid relabel_state next].
  replace (e_t e - 0 / e_wgrid e) with (e_t e) by (unfold Rdiv; ring). rewrite Rminus_0_r.
  set (va := v_calc p e PA _) in *. set (vb := v_calc p e PB _) in *. set (vc := v_calc p e PC _) in *. clearbody va vb vc.
  rewrite !time_sin. unfold third. rewrite cos_minus, cos_plus. replace (cos (2 / 3 * PI)) with (- (1/2)) by (symmetry; apply cos_2_3).
  replace (sin (2 / 3 * PI)) with w3 by (symmetry; apply sin_2_3). unfold turn. rewrite turn_c.
  destruct va as [a a'], vb as [b b'], vc as [c c']. unfold cscale, cadd, cmul in *. cbn [re im] in *.
  pose proof w3_sq4 as W. set (q := w3) in *. clearbody q.
  pose proof (f_equal re N) as N1. pose proof (f_equal im N) as N2. cbn [re im] in N1, N2. clear N.
  set (x := sin (e_wgrid e * e_t e)). set (z := cos (e_wgrid e * e_t e)). set (cw := cos (y WTE)). set (sw := sin (y WTE)). clearbody x z cw sw. clear p e y.
  assert (A1 : a = (1/2) * b - q * b' + (1/2) * c + q * c') by lra.
  assert (A2 : a' = (1/2) * b' + q * b + (1/2) * c' - q * c) by lra.
  subst a a'. assert (Q : q * q = 3 / 4) by lra. clear N1 N2 W.
  sq34.
Qed.

Lemma aw_off d x r : aw false d x r = r.
Proof. reflexivity. Qed.
(** the equations are carried over *)
Lemma relabel_rhs p k s e y : three_phase k -> modulation_free p y -> vd3 p (relabel_env s e) (relabel_state s y) = vd3 p e y ->
  forall v, rhs p k (relabel_env s e) (relabel_state s y) v = relabel_state 0 (rhs p k e y) v.
Proof.
  intros H HU VD.
  assert (HP : forall ph, has_phase k ph) by (intros; destruct H as [-> | ->]; exact I).
  assert (OM : omega p k (relabel_env s e) (relabel_state s y) = omega p k e y) by (unfold omega; destruct H as [-> | ->]; rewrite VD; reflexivity).
  assert (SA : forall ph, rlt (m_limit p) (cabs (duty p y ph)) = false) by (intros; apply rlt_false; auto).
  assert (SA' : forall ph, rlt (m_limit p) (cabs (duty p (relabel_state s y) ph)) = false) by (intros; rewrite rl_duty, turn_abs; auto).
  assert (AC : forall ph, across p k (relabel_env s e) (relabel_state s y) ph = turn (across p k e y (next ph))).
  { intros ph. unfold across. rewrite rl_vterm, rl_v by auto. unfold turn. ring. }
  intros v. destruct v as [ph c| | | | | | |].
  - destruct (rhs_current p k e y (next ph) (HP _)) as [B1 B2]. destruct (rhs_inner p k e y (next ph) (HP _)) as (B3 & B4 & B5 & B6).
    destruct (rhs_current p k (relabel_env s e) (relabel_state s y) ph (HP _)) as [A1 A2].
    destruct (rhs_inner p k (relabel_env s e) (relabel_state s y) ph (HP _)) as (A3 & A4 & A5 & A6).
    cbv zeta in *. rewrite SA' in *. rewrite SA in *. rewrite aw_off in *. rewrite OM, AC in *. rewrite rl_iref in * by auto.
    destruct c; cbn [relabel_state]; [rewrite A1|rewrite A2|rewrite A3|rewrite A4|rewrite A5|rewrite A6]; unfold i_of, x_of, u_of; rewrite ?B1, ?B2, ?B3, ?B4, ?B5, ?B6;
      cbn [relabel_state]; unfold turn, i_of, x_of, u_of; rewrite turn_c; cbn [re im cmul]; unfold Rminus; ring.
  - destruct H as [-> | ->]; [|reflexivity]. cbn [relabel_state]. rewrite !rhs_dc by exact I. rewrite rl_pin, rl_Sterm by (left; reflexivity). reflexivity.
  - cbn [relabel_state]. destruct H as [-> | ->]; [|reflexivity]. pose proof (rhs_outer_p p ThreePhase e y) as B. pose proof (rhs_outer_p p ThreePhase (relabel_env s e) (relabel_state s y)) as A.
    cbv zeta in *. rewrite rl_p, rl_q in A by (left; reflexivity). cbn [p_state] in *. rewrite A, B. reflexivity.
  - cbn [relabel_state]. destruct H as [-> | ->]; [reflexivity|]. pose proof (rhs_outer_p p ThreeConst e y) as B. pose proof (rhs_outer_p p ThreeConst (relabel_env s e) (relabel_state s y)) as A.
    cbv zeta in *. rewrite rl_p, rl_q in A by (right; reflexivity). cbn [p_state] in *. rewrite A, B. reflexivity.
  - cbn [relabel_state]. destruct (rhs_outer p k e y) as [B _]. destruct (rhs_outer p k (relabel_env s e) (relabel_state s y)) as [A _].
    cbv zeta in *. rewrite rl_p, rl_q in A by auto. rewrite A, B. destruct H as [-> | ->]; reflexivity.
  - cbn [relabel_state]. destruct H as [-> | ->]; cbn [rhs ode3 ode3c]; rewrite VD; reflexivity.
  - cbn [relabel_state]. destruct H as [-> | ->]; cbn [rhs ode3 ode3c]; rewrite VD; unfold Rminus; rewrite Ropp_0, Rplus_0_r; reflexivity.
  - cbn [relabel_state]. destruct H as [-> | ->]; cbn [rhs ode3 ode3c]; [|reflexivity].
    change (Urms_calc (v3_of p (relabel_env s e) (relabel_state s y) PA) (v3_of p (relabel_env s e) (relabel_state s y) PB) (v3_of p (relabel_env s e) (relabel_state s y) PC))
      with (v_rms p (relabel_env s e) (relabel_state s y)). rewrite rl_rms. reflexivity.
Qed.
Lemma relabel_lin s v : exists v1 v2 c1 c2 c3, forall y, relabel_state s y v = c1 * y v1 + c2 * y v2 + c3 /\ relabel_state 0 y v = c1 * y v1 + c2 * y v2.
Proof.
  assert (G : forall w : var, (forall s y, relabel_state s y v = y w) -> exists v1 v2 c1 c2 c3, forall y, relabel_state s y v = c1 * y v1 + c2 * y v2 + c3 /\ relabel_state 0 y v = c1 * y v1 + c2 * y v2).
  { intros w Hw. exists w, w, 1, 0, 0. intros y. rewrite !Hw. split; ring. }
  destruct v as [ph c| | | | | | |]; try (eapply G; intros; reflexivity).
  - destruct c.
    + exists (P (next ph) CiR), (P (next ph) CiI), (- (1/2)), (- w3), 0. intros y. cbn [relabel_state]. unfold turn, i_of. rewrite turn_c. cbn [re im cmul]. split; ring.
    + exists (P (next ph) CiR), (P (next ph) CiI), w3, (- (1/2)), 0. intros y. cbn [relabel_state]. unfold turn, i_of. rewrite turn_c. cbn [re im cmul]. split; ring.
    + exists (P (next ph) CxR), (P (next ph) CxI), (- (1/2)), (- w3), 0. intros y. cbn [relabel_state]. unfold turn, x_of. rewrite turn_c. cbn [re im cmul]. split; ring.
    + exists (P (next ph) CxR), (P (next ph) CxI), w3, (- (1/2)), 0. intros y. cbn [relabel_state]. unfold turn, x_of. rewrite turn_c. cbn [re im cmul]. split; ring.
    + exists (P (next ph) CuR), (P (next ph) CuI), (- (1/2)), (- w3), 0. intros y. cbn [relabel_state]. unfold turn, u_of. rewrite turn_c. cbn [re im cmul]. split; ring.
    + exists (P (next ph) CuR), (P (next ph) CuI), w3, (- (1/2)), 0. intros y. cbn [relabel_state]. unfold turn, u_of. rewrite turn_c. cbn [re im cmul]. split; ring.
  - exists WTE, WTE, 1, 0, (- s). intros y. cbn [relabel_state]. split; ring.
Qed.
Lemma relabel_run p k s a b E Y : three_phase k -> run_between a b (rhs p k) E Y ->
  (forall t, a < t < b -> modulation_free p (Y t)) ->
  (forall t, a < t < b -> vd3 p (relabel_env s (E t)) (relabel_state s (Y t)) = vd3 p (E t) (Y t)) ->
  run_between a b (rhs p k) (fun t => relabel_env s (E t)) (fun t => relabel_state s (Y t)).
Proof.
  intros H [HD HC] HU HV. split; intros t v Ht; destruct (relabel_lin s v) as (v1 & v2 & c1 & c2 & c3 & L).
  - rewrite relabel_rhs by auto. rewrite (proj2 (L _)). apply (is_derive_ext (fun t => c1 * Y t v1 + c2 * Y t v2 + c3)); [intros; symmetry; apply L|].
    pose proof (HD t v1 Ht) as D1. pose proof (HD t v2 Ht) as D2. evar_last.
    + apply (is_derive_plus (V := R_NormedModule)); [|apply (is_derive_const (V := R_NormedModule))].
      apply (is_derive_plus (V := R_NormedModule)); apply is_derive_scal; eassumption.
    + unfold plus, zero. simpl. ring.
  - apply (continuous_ext (fun t => c1 * Y t v1 + c2 * Y t v2 + c3)); [intros; symmetry; apply L|].
    apply (continuous_plus (V := R_NormedModule) (fun t => c1 * Y t v1 + c2 * Y t v2) (fun _ => c3)); [|apply continuous_const].
    apply (continuous_plus (V := R_NormedModule) (fun t => c1 * Y t v1) (fun t => c2 * Y t v2)).
    + apply (continuous_mult (K := R_AbsRing) (fun _ => c1) (fun t => Y t v1)); [apply continuous_const|auto].
    + apply (continuous_mult (K := R_AbsRing) (fun _ => c2) (fun t => Y t v2)); [apply continuous_const|auto].
Qed.

(** * C137 *)
(** Renaming the phases of a run gives a run, with the same clock frequency, on a clock
    and PLL angle moved back by a third of a cycle. *)
Theorem C137_relabelled_run_partial : forall p k a b E Y, three_phase k -> run_between a b (rhs p k) E Y ->
  (forall t, a < t < b -> modulation_free p (Y t)) -> (forall t, a < t < b -> e_wgrid (E t) <> 0) ->
  run_between a b (rhs p k) (fun t => relabel_env third (E t)) (fun t => relabel_state third (Y t)).
Proof. intros p k a b E Y H HR HU HW. apply relabel_run; auto. intros t Ht. apply rl_vd_shift. auto. Qed.
Print Assumptions C137_relabelled_run_partial.

(** With a constant grid frequency this is a run on the ordinary clock: everything
    happens a third of a cycle earlier. *)
Theorem C137_third_of_a_cycle_partial : forall p k a b w E Y, three_phase k -> run_between a b (rhs p k) E Y ->
  (forall t, a < t < b -> modulation_free p (Y t)) -> w <> 0 -> (forall t, e_wgrid (E t) = w) -> (forall t, e_t (E t) = t) ->
  let E' t := relabel_env third (E (t + third / w)) in
  let Y' t := relabel_state third (Y (t + third / w)) in
  run_between (a - third / w) (b - third / w) (rhs p k) E' Y' /\ (forall t, e_t (E' t) = t /\ e_wgrid (E' t) = w).
Proof.
  intros p k a b w E Y H HR HU Hw HE HT. cbv zeta.
  assert (HW : forall t, a < t < b -> e_wgrid (E t) <> 0) by (intros; rewrite HE; auto).
  destruct (C137_relabelled_run_partial p k a b E Y H HR HU HW) as [D C]. set (c := third / w) in *.
  split; [split|].
  - intros t v Ht. assert (Ht' : a < t + c < b) by lra. specialize (D (t + c) v Ht'). cbv beta in D.
    evar_last. apply (is_derive_comp (fun s => relabel_state third (Y s) v) (fun s => s + c)); [exact D|].
    + apply (is_derive_plus (V := R_NormedModule) (fun s => s) (fun _ => c)); [apply is_derive_id|apply (is_derive_const (V := R_NormedModule))].
    + unfold scal, plus, one, zero. simpl. unfold mult. simpl. ring.
  - intros t v Ht. apply (continuous_comp (fun s => s + c) (fun s => relabel_state third (Y s) v)).
    + apply (continuous_plus (V := R_NormedModule) (fun s => s) (fun _ => c)); [apply continuous_id|apply continuous_const].
    + apply C. lra.
  - intros t. cbn [relabel_env e_t e_wgrid]. rewrite HE, HT. split; [unfold c; ring|reflexivity].
Qed.
Print Assumptions C137_third_of_a_cycle_partial.

(** Without negative-sequence voltage at the connection point the clock need not move. *)
Theorem C137_balanced_voltages_partial : forall p k a b E Y, three_phase k -> run_between a b (rhs p k) E Y ->
  (forall t, a < t < b -> modulation_free p (Y t)) -> (forall t, a < t < b -> no_negative_sequence p (E t) (Y t)) ->
  run_between a b (rhs p k) (fun t => relabel_env 0 (E t)) (fun t => relabel_state 0 (Y t)).
Proof. intros p k a b E Y H HR HU HW. apply relabel_run; auto. intros t Ht. apply rl_vd_pos. auto. Qed.
Print Assumptions C137_balanced_voltages_partial.

(** The totals are the same and the magnitudes of each phase are those of the phase it
    was called before. *)
Theorem C137_same_results : forall p k s e y, three_phase k ->
  let e' := relabel_env s e in let y' := relabel_state s y in
  (forall v, v = VDC \/ v = XDC \/ v = XP \/ v = XQ \/ v = XPLL \/ v = VRF -> y' v = y v) /\
  S_pcc p k e' y' = S_pcc p k e y /\ S_term p k e' y' = S_term p k e y /\ p_in p k e' y' = p_in p k e y /\
  v_rms p e' y' = v_rms p e y /\
  (forall ph, cabs (i_of y' ph) = cabs (i_of y (next ph)) /\ cabs (duty p y' ph) = cabs (duty p y (next ph)) /\
     cabs (i_ref p k e' y' ph) = cabs (i_ref p k e y (next ph)) /\
     cabs (v_calc p e' ph (i_of y' ph)) = cabs (v_calc p e (next ph) (i_of y (next ph))) /\
     S_ph (v_calc p e' ph (i_of y' ph)) (i_of y' ph) = S_ph (v_calc p e (next ph) (i_of y (next ph))) (i_of y (next ph))) /\
  (s = third -> e_wgrid e <> 0 -> omega p k e' y' = omega p k e y) /\
  (s = 0 -> no_negative_sequence p e y -> omega p k e' y' = omega p k e y).
Proof.
  intros p k s e y H. cbv zeta.
  assert (OM : vd3 p (relabel_env s e) (relabel_state s y) = vd3 p e y -> omega p k (relabel_env s e) (relabel_state s y) = omega p k e y).
  { intros VD. unfold omega. destruct H as [-> | ->]; rewrite VD; reflexivity. }
  split; [intros v Hv; destruct v; try reflexivity; intuition discriminate|].
  split; [apply rl_Spcc; auto|]. split; [apply rl_Sterm; auto|]. split; [apply rl_pin; auto|]. split; [apply rl_rms|]. split; [|split].
  - intros ph. rewrite !rl_v, !rl_i, rl_duty, rl_iref, !turn_abs, turn_S by auto. repeat split.
  - intros -> Hw. apply OM, rl_vd_shift, Hw.
  - intros -> HN. apply OM, rl_vd_pos, HN.
Qed.
Print Assumptions C137_same_results.

(** Renaming three times changes nothing but the number of turns of the angle. *)
Theorem C137_three_times : forall s y e,
  (forall v, v <> WTE -> relabel_state s (relabel_state s (relabel_state s y)) v = y v) /\
  relabel_state third (relabel_state third (relabel_state third y)) WTE = y WTE - 2 * PI /\
  (let e' := relabel_env s (relabel_env s (relabel_env s e)) in e_va e' = e_va e /\ e_vb e' = e_vb e /\ e_vc e' = e_vc e /\ e_grid e' = e_grid e).
Proof.
  assert (T : forall z, turn (turn (turn z)) = z).
  { intros z. unfold turn. rewrite turn_c. pose proof w3_sq as W. set (w := w3) in *. clearbody w. destruct z as [a b]. apply cx_eq; cbn [re im cmul]; sq34. }
  intros s y e. split; [|split].
  - intros v Hv. destruct v as [ph c| | | | | | |]; try reflexivity; [|congruence].
    destruct c; cbn [relabel_state]; rewrite ?rl_i, ?rl_x, ?rl_u, T; destruct ph; reflexivity.
  - cbn [relabel_state]. unfold third. field.
  - cbv zeta. cbn [relabel_env e_va e_vb e_vc e_grid]. rewrite !T. repeat split. destruct (e_grid e) as [g|]; [|reflexivity].
    cbn [option_map vag vbg vcg Z2 Zload1]. rewrite !T. destruct g; reflexivity.
Qed.
Print Assumptions C137_three_times.

(** Hence, clear of the limits, what the renamed DER does from the renamed start is
    determined: it is the renamed run. *)
Theorem C137_determined_partial : forall p k m B d a b E Y Y', three_phase k -> 0 < d -> Cdc p <> 0 ->
  inputs_within p E a b B m -> (forall t, a < t < b -> e_wgrid (E t) <> 0) ->
  run_between a b (rhs p k) E Y -> (forall t, a < t < b -> clear_of_limits p k (E t) (Y t) d) ->
  (has_dc_link k -> forall t, a <= t <= b -> 0 < Y t VDC) ->
  run_between a b (rhs p k) (fun t => relabel_env third (E t)) Y' -> (forall v, Y' a v = relabel_state third (Y a) v) ->
  forall t v, a <= t <= b -> Y' t v = relabel_state third (Y t) v.
Proof.
  intros p k m B d a b E Y Y' H Hd HC HE HW HR HL HV HR' H0 t v Ht.
  assert (HP : forall ph, has_phase k ph) by (intros; destruct H as [-> | ->]; exact I).
  symmetry. apply (C132_unique_partial p k (fun t => relabel_env third (E t)) m B a b d (fun t => relabel_state third (Y t)) Y'); auto.
  - intros s Hs. destruct (HE s Hs) as (E1 & E2 & E3 & E4). split; [|split; [|split; [|exact E4]]].
    + unfold passive in *. cbn [relabel_env e_grid]. destruct (e_grid (E s)); [exact E1|exact I].
    + unfold source_impedance in *. cbn [relabel_env e_grid]. destruct (e_grid (E s)); exact E2.
    + intros ph. specialize (E3 (next ph)). rewrite <- (turn_abs (v_calc p (E s) (next ph) (Cx 0 0))) in E3. 
      assert (V : v_calc p (relabel_env third (E s)) ph (Cx 0 0) = turn (v_calc p (E s) (next ph) (Cx 0 0))); [|rewrite V; exact E3].
      pose proof (rl_v p third (E s) (fun _ => 0) ph) as V. rewrite rl_i in V.
      assert (Z : i_of (fun _ => 0) (next ph) = Cx 0 0) by reflexivity. rewrite Z, turn_zero in V. exact V.
  - apply C137_relabelled_run_partial; auto. intros s Hs ph. destruct (HL s Hs) as [L _]. specialize (L ph (HP ph)). lra.
  - intros s Hs. destruct (HL s Hs) as [L1 L2]. split.
    + intros ph Hph. rewrite rl_duty, turn_abs. auto.
    + rewrite rl_p, rl_q by auto. destruct H as [-> | ->]; exact L2.
Qed.
Print Assumptions C137_determined_partial.

(** REFUTED at the modulation limit: the anti-windup tests compare signs of real and
    imaginary parts, which depend on the phase the phasors refer to. *)
Theorem C137_which_phase_is_a_refuted : exists p e y,
  e_wgrid e <> 0 /\ forall s, exists v, rhs p ThreePhase (relabel_env s e) (relabel_state s y) v <> relabel_state 0 (rhs p ThreePhase e y) v.
Proof.
  set (p := Prm 1 1 1 0 1 1 1 1 1 1 1 1 1 1 1 1 1 1 1 (Cx 1 2) 72).
  set (e := Env 0 1 (Cx 1 0) (rot PB (Cx 1 0)) (rot PC (Cx 1 0)) None 0 0 (PVM 1 1 1 300) true 0).
  set (X := fun k => rot k (Cx 2 3)). set (U := fun k => rot k (Cx 1 0)).
  set (y := fun v => match v with P k CxR => re (X k) | P k CxI => im (X k) | P k CuR => re (U k) | P k CuI => im (U k) | _ => 0 end : R).
  assert (HX : forall k, x_of y k = X k) by (intros k; unfold x_of; cbn [y]; destruct (X k); reflexivity).
  assert (HU : forall k, u_of y k = U k) by (intros k; unfold u_of; cbn [y]; destruct (U k); reflexivity).
  exists p, e, y. split; [cbn; lra|]. intros s.
  assert (SAT : forall k, m_sat p (U k) (X k) = true).
  { intros k. unfold m_sat. apply rlt_iff. change (m_limit p) with 1.
    replace (m_calc p (U k) (X k)) with (X k).
    - unfold X. rewrite rot_abs. unfold cabs, cnorm2. cbn [re im]. rewrite <- sqrt_1 at 1. apply sqrt_lt_1; lra.
    - unfold m_calc. change (Kp_GCC p) with 0. destruct (X k) as [a b], (U k) as [c d]. apply cx_eq; cbn [re im cadd cscale]; ring. }
  exists (P PA CxR).
  assert (L : rhs p ThreePhase (relabel_env s e) (relabel_state s y) (P PA CxR) = 0).
  { cbn [rhs ode3 d_comp]. rewrite rl_u, rl_x. cbn [next]. rewrite HX, HU.
    assert (TX : turn (X PB) = X PA) by (apply (turn_rot PA)). assert (TU : turn (U PB) = U PA) by (apply (turn_rot PA)). rewrite TX, TU.
    unfold dx_re. rewrite SAT. unfold aw. change (Ki_GCC p) with 1. cbn [X U rot re]. unfold same_sign, np_sign.
    repeat match goal with |- context [rlt ?a ?b] => destruct (rlt a b) eqn:?; rb; try lra end;
    repeat match goal with |- context [req ?a ?b] => destruct (req a b) eqn:?; rb; try lra end. }
  pose proof (sqrt_lt_1 1 3) as S1. rewrite sqrt_1 in S1. assert (H1 : 1 < sqrt 3) by lra.
  assert (XB : X PB = Cx (-1 + 3 * w3) (- 2 * w3 - 3 / 2)) by (unfold X; cbn [rot]; unfold Ub_calc; rewrite cexp_m; apply cx_eq; cbn [re im cmul]; field).
  assert (UB : U PB = Cx (- (1 / 2)) (- w3)) by (unfold U; cbn [rot]; unfold Ub_calc; rewrite cexp_m; apply cx_eq; cbn [re im cmul]; field).
  assert (HW : 1 / 2 < w3) by (unfold w3; lra).
  assert (B1 : rhs p ThreePhase e y (P PB CxR) = - (1 / 2)).
  { cbn [rhs ode3 d_comp]. unfold dx_re. rewrite HX, HU, SAT, XB, UB. unfold aw. change (Ki_GCC p) with 1. cbn [re]. unfold same_sign, np_sign.
    repeat match goal with |- context [rlt ?a ?b] => destruct (rlt a b) eqn:?; rb; try lra end;
    repeat match goal with |- context [req ?a ?b] => destruct (req a b) eqn:?; rb; try lra end. }
  assert (B2 : rhs p ThreePhase e y (P PB CxI) = 0).
  { cbn [rhs ode3 d_comp]. unfold dx_im. rewrite HX, HU, SAT, XB, UB. unfold aw. change (Ki_GCC p) with 1. cbn [im]. unfold same_sign, np_sign.
    repeat match goal with |- context [rlt ?a ?b] => destruct (rlt a b) eqn:?; rb; try lra end;
    repeat match goal with |- context [req ?a ?b] => destruct (req a b) eqn:?; rb; try lra end. }
  rewrite L. cbn [relabel_state next]. unfold x_of. rewrite B1, B2. unfold turn. rewrite turn_c. cbn [re im cmul]. lra.
Qed.
Print Assumptions C137_which_phase_is_a_refuted.

(** REFUTED under unbalanced voltages when the clock is left alone: the PLL sees the
    negative sequence at another angle, so the frequency integrator moves differently. *)
Theorem C137_same_clock_refuted : exists p e y, modulation_free p y /\ e_wgrid e <> 0 /\
  rhs p ThreePhase (relabel_env 0 e) (relabel_state 0 y) XPLL <> rhs p ThreePhase e y XPLL.
Proof.
  exists decay_prm, (Env 0 1 (Cx 0 1) (Cx 0 0) (Cx 0 0) None 0 0 (PVM 1 1 1 300) true 0), (fun _ => 0).
  split; [|split; [cbn; lra|]].
  - intros ph. unfold duty, cabs, cnorm2. cbn [decay_prm Kp_GCC m_limit re im]. rewrite Rmult_0_r, Rplus_0_l, Rmult_0_l, Rplus_0_l, sqrt_0. lra.
  - cbn [rhs ode3]. change (Ki_PLL decay_prm) with 1. unfold vd3, v3_of. rewrite !rl_v, !vd_time. cbn [relabel_env e_t e_wgrid relabel_state next].
    unfold v_calc. cbn [e_grid e_va e_vb e_vc]. rewrite !time_sin. replace (1 * (0 - 0 / 1)) with 0 by field. rewrite Rmult_0_r, sin_0, cos_0. unfold Rminus. rewrite Ropp_0, !Rplus_0_l.
    rewrite cos_neg, cos_0. unfold third. replace (cos (2 / 3 * PI)) with (- (1/2)) by (symmetry; apply cos_2_3).
    unfold turn. rewrite turn_c. cbn [re im cmul]. lra.
Qed.
Print Assumptions C137_same_clock_refuted.

(** Non-vacuity: three different voltages and three different, decaying, currents. *)
Definition amount (ph : phase) : R := match ph with PA => 1 | PB => 2 | PC => 3 end.
Definition uneven_prm : prm := Prm 1 1 1 1 1 2 10 1 1 1 0 1 1 10 0 0 1 1 1000 (Cx 0 0) 1.
Definition uneven_env (m : pvm) (t : R) : env := Env t 1 (Cx 1 0) (Cx 2 0) (Cx 3 0) None 0 0 m false 2.
Definition uneven_run (t : R) : st := fun v => match v with
  | P ph CiR => amount ph * exp (- t) | P ph CuR => - 2 * (amount ph * exp (- t)) | P ph CxR => amount ph + 2 * (amount ph * exp (- t))
  | XPLL => - (2 * PI * 60) | XP => 1 | _ => 0 end.
Lemma uneven_duty t ph : duty uneven_prm (uneven_run t) ph = Cx (amount ph) 0.
Proof. unfold duty. cbn [uneven_run uneven_prm Kp_GCC]. apply cx_eq; cbn [re im]; ring. Qed.
Lemma aw_d0 sat x : aw sat 0 x 0 = 0.
Proof. unfold aw. destruct sat; [destruct (same_sign _ _)|]; reflexivity. Qed.
Lemma uneven_free t : modulation_free uneven_prm (uneven_run t).
Proof.
  intros ph. rewrite uneven_duty. unfold cabs, cnorm2. cbn [re im uneven_prm m_limit]. rewrite Rmult_0_l, Rplus_0_r, sqrt_square; destruct ph; cbn [amount]; lra.
Qed.
Lemma uneven_rhs m t v : rhs uneven_prm ThreeConst (uneven_env m t) (uneven_run t) v =
  match v with P ph CiR => - (amount ph * exp (- t)) | P ph CuR => 2 * (amount ph * exp (- t)) | P ph CxR => - 2 * (amount ph * exp (- t)) | _ => 0 end.
Proof.
  set (e := uneven_env m t). set (y := uneven_run t).
  assert (HP : forall ph, has_phase ThreeConst ph) by (intros; exact I).
  assert (VE : forall ph i, v_calc uneven_prm e ph i = Cx (amount ph) 0) by (intros [| |] i; reflexivity).
  assert (OM : omega uneven_prm ThreeConst e y = 0).
  { unfold omega, we_calc. cbn [uneven_prm Kp_PLL]. unfold y. cbn [uneven_run]. unfold Rdiv. ring. }
  assert (Q : q_error uneven_prm ThreeConst e y = 0).
  { unfold q_error. cbn [S_pcc]. unfold sum3. rewrite !VE. unfold i_of, y, S_ph, cscale, cmul, conj, cadd. cbn [uneven_run re im e e_conn uneven_env]. ring. }
  assert (SA : forall ph, rlt (m_limit uneven_prm) (cabs (duty uneven_prm y ph)) = false) by (intros; apply rlt_false; apply uneven_free).
  assert (AC : forall ph, across uneven_prm ThreeConst e y ph = Cx 0 0).
  { intros ph. unfold across, v_term. rewrite VE. unfold y. rewrite uneven_duty. unfold csub, cadd, cneg, cscale, v_dc, e. cbn [re im e_Vconst uneven_env]. apply cx_eq; cbn [re im]; field. }
  destruct v as [ph c| | | | | | |].
  - destruct (rhs_current uneven_prm ThreeConst e y ph (HP _)) as [B1 B2]. destruct (rhs_inner uneven_prm ThreeConst e y ph (HP _)) as (B3 & B4 & B5 & B6).
    cbv zeta in *. rewrite SA in *. rewrite aw_off in *. rewrite OM, AC in *.
    assert (IR : i_ref uneven_prm ThreeConst e y ph = Cx 0 0) by reflexivity. rewrite IR in *.
    destruct c; [rewrite B1|rewrite B2|rewrite B3|rewrite B4|rewrite B5|rewrite B6]; unfold y; cbn [uneven_run re im uneven_prm Lf Rf Ki_GCC wp]; try field; ring.
  - reflexivity.
  - reflexivity.
  - cbn [rhs ode3c]. change (Ki_P uneven_prm) with 0. rewrite Rmult_0_l. apply aw_d0.
  - destruct (rhs_outer uneven_prm ThreeConst e y) as [B _]. cbv zeta in B. rewrite B, Q, !Rmult_0_r. apply aw_d0.
  - cbn [rhs ode3c]. change (Ki_PLL uneven_prm) with 0. apply Rmult_0_l.
  - cbn [rhs ode3c]. unfold we_calc. cbn [uneven_prm Kp_PLL]. unfold y. cbn [uneven_run]. ring.
  - reflexivity.
Qed.
Lemma uneven_ok m a b : run_between a b (rhs uneven_prm ThreeConst) (uneven_env m) uneven_run.
Proof.
  assert (D : forall t v, is_derive (fun s => uneven_run s v) t (rhs uneven_prm ThreeConst (uneven_env m t) (uneven_run t) v)).
  { intros t v. rewrite uneven_rhs. destruct v as [ph [| | | | |]| | | | | | |]; cbn [uneven_run]; try apply @is_derive_const; (auto_derive; [auto|ring]). }
  split; [intros t v _; apply D|]. intros t v _. apply (ex_derive_continuous (V := R_NormedModule) (fun s => uneven_run s v)). eexists. apply D.
Qed.
Example C137_hypotheses_met : forall m, three_phase ThreeConst /\
  run_between 0 5 (rhs uneven_prm ThreeConst) (uneven_env m) uneven_run /\
  (forall t, modulation_free uneven_prm (uneven_run t) /\ e_wgrid (uneven_env m t) = 1 /\ e_t (uneven_env m t) = t) /\
  (forall t, 0 < t < 5 -> clear_of_limits uneven_prm ThreeConst (uneven_env m t) (uneven_run t) 1) /\
  inputs_within uneven_prm (uneven_env m) 0 5 3 m /\ Cdc uneven_prm <> 0 /\
  cabs (i_of (relabel_state third (uneven_run 0)) PA) = 2 /\ cabs (i_of (relabel_state third (uneven_run 0)) PC) = 1.
Proof.
  assert (A : forall r, cabs (Cx r 0) = Rabs r) by (intros r; unfold cabs, cnorm2; cbn [re im]; rewrite Rmult_0_l, Rplus_0_r; apply sqrt_Rsqr_abs).
  intros m. split; [right; reflexivity|]. split; [apply uneven_ok|]. split; [intros t; split; [apply uneven_free|split; reflexivity]|].
  split; [|split; [|split; [cbn; lra|split]]].
  - intros t Ht. split.
    + intros ph _. rewrite uneven_duty, A, Rabs_right; destruct ph; cbn [amount uneven_prm m_limit]; lra.
    + assert (Q : q_error uneven_prm ThreeConst (uneven_env m t) (uneven_run t) = 0).
      { unfold q_error. cbn [S_pcc]. unfold sum3, v_calc. cbn [e_grid uneven_env e_va e_vb e_vc]. unfold i_of, S_ph, cscale, cmul, conj, cadd. cbn [uneven_run re im e_conn uneven_env]. ring. }
      assert (PE : p_error uneven_prm ThreeConst (uneven_env m t) (uneven_run t) = - 7 * exp (- t)).
      { unfold p_error, p_in. cbn [e_conn uneven_env S_term]. unfold sum3, v_term. rewrite !uneven_duty. cbn [v_dc e_Vconst]. unfold i_of, S_ph, cscale, cmul, conj, cadd. cbn [uneven_run re im amount]. change (e_Vconst (uneven_env m t)) with 2. field. }
      rewrite Q, PE. cbn [p_state p_gain uneven_prm Kp_P Kp_Q iref_limit uneven_run].
      match goal with |- cabs (Cx ?x ?y) + _ <= _ => replace y with 0 by ring end. rewrite A.
      pose proof (exp_pos (- t)) as P1. assert (P2 : exp (- t) <= 1) by (rewrite <- exp_0; left; apply exp_increasing; lra).
      apply Rle_trans with (7 + 1); [|lra]. apply Rplus_le_compat_r. apply Rabs_le. lra.
  - intros t _. split; [exact I|]. cbn [uneven_env e_Qref e_Vdcref e_Vconst e_mod source_impedance e_grid]. rewrite A, Rabs_R0.
    split; [lra|]. split; [intros [| |]; unfold v_calc; cbn [e_grid e_va e_vb e_vc uneven_env]; rewrite A, Rabs_right; lra|]. rewrite Rabs_right by lra. repeat split; lra.
  - rewrite rl_i, turn_abs. cbn [next]. unfold i_of. cbn [uneven_run amount]. rewrite Ropp_0, exp_0, A, Rabs_right; lra.
  - rewrite rl_i, turn_abs. cbn [next]. unfold i_of. cbn [uneven_run amount]. rewrite Ropp_0, exp_0, A, Rabs_right; lra.
Qed.
(** a balanced set of voltages has no negative sequence; a single-phase fault has one *)
Example C137_no_negative_sequence_met : forall y,
  no_negative_sequence decay_prm (Env 0 1 (Cx 1 0) (rot PB (Cx 1 0)) (rot PC (Cx 1 0)) None 0 0 (PVM 1 1 1 300) true 0) y /\
  ~ no_negative_sequence decay_prm (Env 0 1 (Cx 0 0) (rot PB (Cx 1 0)) (rot PC (Cx 1 0)) None 0 0 (PVM 1 1 1 300) true 0) y.
Proof.
  intros y. unfold no_negative_sequence, phasor_to_symmetrical, v_calc. cbn [e_grid e_va e_vb e_vc rot]. unfold Ub_calc, Uc_calc. rewrite cexp_p, cexp_m, cexp_4.
  unfold cscale, cadd, cmul. cbn [re im]. pose proof w3_sq as W. set (w := w3) in *. clearbody w. split.
  - apply cx_eq; cbn [re im]; sq34.
  - intros F. apply (f_equal re) in F. cbn [re] in F. nra.
Qed.
