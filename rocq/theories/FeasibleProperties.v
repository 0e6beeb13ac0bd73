(** C142: which set points have an operating point. *)
From Coquelicot Require Import Coquelicot.
From Verif Require Import RBase CxField PhasorModel PVModel ODEModel Const3Model PhasorProperties PhasorProperties2 CircuitProperties2 CircuitProperties3 PLLProperties FilterProperties EquilibriumProperties BoundProofs BoundProperties SettleProofs SettleProperties SettleProperties2 EnergyProperties SolutionSpec LipschitzProofs RelabelProperties StartTimeProperties DeliveredProperties OperatingPointProperties.
Import RBase.
Open Scope R_scope.

(** * Specification *)
(** DC voltage and power asked for: set point of the DC link (or the constant DC
    voltage), PV power at that voltage, reactive power reference *)
Definition dc_set (k : kind) (e : env) : R := match k with SingleConst | ThreeConst => e_Vconst e | _ => e_Vdcref e end.
Definition asked_power (p : prm) (k : kind) (e : env) : cx := Cx (Ppv_of p e (dc_set k e)) (e_Qref e).
(** the same per phase, as product of voltage and current amplitudes *)
Definition asked_VI (p : prm) (k : kind) (e : env) : cx := cscale (2 / phases k) (asked_power p k e).
(** the network can transfer it: w open-circuit voltage, Z loop impedance, c power:
    2 |Z| |c| <= |w|^2 + 2 Re(conj Z c) *)
Definition feasible (p : prm) (k : kind) (e : env) : Prop :=
  2 * cabs (loop_impedance p e) * cabs (asked_VI p k e) <= cabs (open_circuit p k e) ^ 2 + 2 * re (cmul (conj (loop_impedance p e)) (asked_VI p k e)).

(** * Proofs *)
Lemma abs_re_conj z c : Rabs (re (cmul (conj z) c)) <= cabs z * cabs c.
Proof. eapply Rle_trans; [apply cabs_ge_re|]. rewrite cabs_mul, cabs_conj. lra. Qed.

(** a solution of the power equation exists only if the power is feasible *)
Lemma power_needs w z c i : cadd (cmul w (conj i)) (cscale (cabs i ^ 2) z) = c ->
  2 * cabs z * cabs c <= cabs w ^ 2 + 2 * re (cmul (conj z) c).
Proof.
  intros E. set (s := cabs i ^ 2) in *.
  assert (K : cabs w ^ 2 * s = cabs c ^ 2 - 2 * s * re (cmul (conj z) c) + s ^ 2 * cabs z ^ 2).
  { unfold s at 1. rewrite <- E. clear E. rewrite !sqr_cabs. assert (Es : s = re i * re i + im i * im i) by (unfold s; apply sqr_cabs). clearbody s.
    destruct w as [w1 w2], z as [z1 z2], i as [a b]. unfold cadd, cmul, cscale, conj. cbn [re im] in *. subst s. ring. }
  pose proof (cabs_nonneg z) as Nz. pose proof (cabs_nonneg c) as Nc. pose proof (cabs_nonneg w) as Nw.
  assert (Ns : 0 <= s) by (unfold s; apply pow2_ge_0).
  pose proof (pow2_ge_0 (cabs c - s * cabs z)) as SQ.
  destruct (Rle_lt_or_eq_dec _ _ Ns) as [Ps|Zs].
  - apply Rmult_le_reg_l with s; [exact Ps|]. nra.
  - (* no current: no power *)
    rewrite <- Zs in K. assert (Ec : cabs c = 0) by nra.
    assert (re (cmul (conj z) c) = 0) by (pose proof (abs_re_conj z c) as A; rewrite Ec in A; assert (A2 : Rabs (re (cmul (conj z) c)) <= 0) by lra; apply (proj1 (Rabs_le_between _ _)) in A2; lra).
    rewrite H, Ec. nra.
Qed.
(** and always then *)
Lemma power_solvable w z c : w <> Cx 0 0 -> 2 * cabs z * cabs c <= cabs w ^ 2 + 2 * re (cmul (conj z) c) ->
  exists i, cadd (cmul w (conj i)) (cscale (cabs i ^ 2) z) = c.
Proof.
  intros Hw H. pose proof (cnorm2_pos _ Hw) as Pw.
  assert (Sol : forall s, 0 <= s -> cabs z ^ 2 * s ^ 2 - (cabs w ^ 2 + 2 * re (cmul (conj z) c)) * s + cabs c ^ 2 = 0 -> exists i, cadd (cmul w (conj i)) (cscale (cabs i ^ 2) z) = c).
  { intros s Hs Es. exists (conj (cdiv (csub c (cscale s z)) w)).
    assert (A : cabs (conj (cdiv (csub c (cscale s z)) w)) ^ 2 = s).
    { rewrite cabs_conj. apply Rmult_eq_reg_r with (cnorm2 w); [|lra].
      assert (X : cabs (cdiv (csub c (cscale s z)) w) ^ 2 * cnorm2 w = cabs (csub c (cscale s z)) ^ 2).
      { rewrite !sqr_cabs. unfold cdiv, cmul, cinv. cbn [re im]. unfold cnorm2 in *. field. lra. }
      rewrite X. rewrite !sqr_cabs in *. unfold cnorm2. destruct w as [w1 w2], z as [z1 z2], c as [c1 c2]. unfold csub, cscale, cmul, conj in *. cbn [re im] in *. lra. }
    rewrite A. assert (B : conj (conj (cdiv (csub c (cscale s z)) w)) = cdiv (csub c (cscale s z)) w) by (unfold conj; apply cx_eq; cbn [re im]; ring).
    rewrite B. unfold cdiv. unfold cmul, cinv, cadd, csub, cscale. unfold cnorm2 in *. apply cx_eq; cbn [re im]; field; lra. }
  pose proof (cabs_nonneg z) as Nz. pose proof (cabs_nonneg c) as Nc.
  set (B := cabs w ^ 2 + 2 * re (cmul (conj z) c)) in *. set (N := cabs z ^ 2) in *. set (C := cabs c ^ 2) in *.
  assert (PW : 0 < cabs w ^ 2) by (rewrite sqr_cabs; exact Pw).
  destruct (Req_dec (cabs z) 0) as [Z0|Z0].
  - assert (R0 : re (cmul (conj z) c) = 0) by (pose proof (abs_re_conj z c) as A; rewrite Z0 in A; assert (A2 : Rabs (re (cmul (conj z) c)) <= 0) by lra; apply (proj1 (Rabs_le_between _ _)) in A2; lra).
    apply (Sol (C / cabs w ^ 2)).
    + apply Rmult_le_pos; [apply pow2_ge_0|left; apply Rinv_0_lt_compat; exact PW].
    + unfold N, B. rewrite Z0, R0. unfold C. field. intros K. rewrite K in PW. lra.
  - assert (PN : 0 < N) by (unfold N; assert (0 < cabs z) by lra; nra).
    assert (HB : 0 <= B) by nra.
    assert (D : 0 <= B * B - 4 * N * C) by (unfold N, C; assert (0 <= 2 * cabs z * cabs c) by nra; nra).
    pose proof (sqrt_sqrt _ D) as SS. pose proof (sqrt_pos (B * B - 4 * N * C)) as SP. set (r := sqrt (B * B - 4 * N * C)) in *.
    assert (HC : 0 <= C) by (unfold C; apply pow2_ge_0).
    assert (Hr : r <= B) by (destruct (Rle_lt_dec r B); [auto|exfalso; assert (0 <= N * C) by nra; nra]).
    apply (Sol ((B - r) / (2 * N))).
    + apply Rmult_le_pos; [lra|left; apply Rinv_0_lt_compat; lra].
    + replace (N * ((B - r) / (2 * N)) ^ 2 - B * ((B - r) / (2 * N)) + C) with ((r * r - (B * B - 4 * N * C)) / (4 * N)) by (field; lra). rewrite SS. unfold Rdiv. ring.
Qed.

(** Set points the network cannot transfer have no operating point. *)
Theorem C142_infeasible_has_none : forall p k e y, sane p -> passive p e -> e_conn e = true -> operating_point p k e y -> feasible p k e.
Proof.
  intros p k e y Hs Hp Hc Ho. destruct (rest_facts p k e y Hs Hc Ho) as (Q & PE & T & F).
  pose proof (pcc_power p k e y (main y k) Hp (fun ph H => proj1 (proj2 (F ph H)))) as SP.
  pose proof (term_power p k e y (main y k) _ (fun ph H => proj2 (F ph H))) as TP.
  assert (VD : v_dc k e y = dc_set k e) by (destruct k; cbn [v_dc dc_set]; auto; unfold p_error in PE; rewrite Hc in PE; lra).
  apply (power_needs _ _ _ (main y k)). unfold asked_VI, asked_power.
  unfold q_error in Q. rewrite Hc in Q. unfold p_in in T. rewrite Hc, VD in T. rewrite T, SP in TP. rewrite SP in Q. unfold loop_impedance.
  set (w := open_circuit p k e) in *. set (z := source_impedance p e) in *. set (i := main y k) in *.
  set (a := cabs i ^ 2) in *. assert (N : phases k <> 0) by (destruct k; cbn [phases]; lra). set (n := phases k) in *. clearbody w z n i a. destruct w as [w1 w2], z as [z1 z2], i as [i1 i2].
  unfold cadd, cmul, cscale, conj in *. cbn [re im] in *. apply cx_eq; cbn [re im].
  - rewrite TP. field. auto.
  - replace (e_Qref e) with (n / 2 * (w1 * - i2 + w2 * i1 + a * z2)) by lra. field. auto.
Qed.
Print Assumptions C142_infeasible_has_none.

(** the PLL angle that makes its error vanish *)
Lemma zero_angle A B : exists t, A * cos t + B * sin t = 0.
Proof.
  exists (cphase (Cx A B) + PI / 2). pose proof (polar_rect (Cx A B)) as E. set (r := cabs (Cx A B)) in *. set (f := cphase (Cx A B)) in *.
  unfold crect, cscale, cexp in E. cbn [re im] in E. injection E as E1 E2. rewrite E1 at 1. rewrite E2. rewrite cos_plus, sin_plus, cos_PI2, sin_PI2. ring.
Qed.
Lemma zero_angle1 v w t : exists th, vd_single_phase v w t th = 0.
Proof.
  destruct (zero_angle (re v * sin (w * t) + im v * cos (w * t)) (- re v * cos (w * t) + im v * sin (w * t))) as [th H]. exists th.
  rewrite vd1_form, sin_minus, cos_minus, <- H. ring.
Qed.
Lemma zero_angle3 va vb vc w t : exists th, vd_three_phase va vb vc w t th = 0.
Proof.
  destruct (zero_angle (2 / 3 * ((re va - re vb / 2 - re vc / 2) * sin (w * t) + (im va - im vb / 2 - im vc / 2) * cos (w * t)))
     (2 / 3 * (w3 * (re vb - re vc) * sin (w * t) + w3 * (im vb - im vc) * cos (w * t)))) as [th H]. exists th.
  rewrite vd_form, <- H. ring.
Qed.

(** the state that carries the current ia, turned into the three phases *)
Definition carrying (p : prm) (k : kind) (e : env) (ia : cx) (th : R) : st :=
  let v ph := v_calc p e ph (rot ph ia) in
  let X ph := cscale (2 / dc_set k e) (cadd (v ph) (cmul (Cx (Rf p) (e_wgrid e / wbase * Lf p)) (rot ph ia))) in
  fun s => match s with
  | P ph CiR => re (rot ph ia) | P ph CiI => im (rot ph ia) | P _ CuR | P _ CuI => 0
  | P ph CxR => re (X ph) | P ph CxI => im (X ph)
  | VDC => dc_set k e | XDC | XP => re ia | XQ => im ia | XPLL => e_wgrid e - wbase | WTE => th
  | VRF => Urms_calc (v PA) (v PB) (v PC) end.

Lemma carrying_i p k e ia th ph : i_of (carrying p k e ia th) ph = rot ph ia.
Proof. unfold i_of. cbn [carrying]. destruct (rot ph ia) as [a b]. reflexivity. Qed.

Lemma pll_zero p k e ia : exists th, let y := carrying p k e ia th in
  match k with SinglePhase | SingleConst => vd1 p e y | ThreePhase | ThreeConst => vd3 p e y | Balanced => vdb p e y end = 0.
Proof.
  destruct k; cbv zeta; unfold vd1, vd3, vdb, v3_of, vb_of.
  - destruct (zero_angle1 (v_calc p e PA ia) (e_wgrid e) (e_t e)) as [th H]. exists th. rewrite carrying_i. exact H.
  - destruct (zero_angle3 (v_calc p e PA (rot PA ia)) (v_calc p e PB (rot PB ia)) (v_calc p e PC (rot PC ia)) (e_wgrid e) (e_t e)) as [th H]. exists th. rewrite !carrying_i. exact H.
  - destruct (zero_angle3 (rot PA (v_calc p e PA ia)) (rot PB (v_calc p e PA ia)) (rot PC (v_calc p e PA ia)) (e_wgrid e) (e_t e)) as [th H]. exists th. rewrite !carrying_i. exact H.
  - destruct (zero_angle1 (v_calc p e PA ia) (e_wgrid e) (e_t e)) as [th H]. exists th. rewrite carrying_i. exact H.
  - destruct (zero_angle3 (v_calc p e PA (rot PA ia)) (v_calc p e PB (rot PB ia)) (v_calc p e PC (rot PC ia)) (e_wgrid e) (e_t e)) as [th H]. exists th. rewrite !carrying_i. exact H.
Qed.

(** For set points the network can transfer there is a state at rest that meets them, with
    the PLL running at grid frequency; it is an operating point if its current and
    modulation are within the limits. *)
Theorem C142_feasible_has_one : forall p k e, passive p e -> e_conn e = true -> Lf p <> 0 -> dc_set k e <> 0 ->
  open_circuit p k e <> Cx 0 0 -> feasible p k e ->
  exists y, stationary (rhs p k) e y /\ rhs p k e y WTE = e_wgrid e /\
    S_pcc p k e y = cadd (asked_power p k e) (Cx (- (phases k / 2 * (Rf p * cabs (i_of y PA) ^ 2))) 0) /\
    re (S_term p k e y) = Ppv_of p e (dc_set k e) /\ v_dc k e y = dc_set k e /\
    (forall ph, i_of y ph = rot ph (i_of y PA)) /\
    (cabs (i_of y PA) <= iref_limit p -> (forall ph, has_phase k ph -> cabs (duty p y ph) <= m_limit p) -> operating_point p k e y).
Proof.
  intros p k e Hp Hc HL HV Hw Hf. destruct (power_solvable _ _ _ Hw Hf) as [ia E]. destruct (pll_zero p k e ia) as [th V0]. cbv zeta in V0.
  set (y := carrying p k e ia th) in *. exists y.
  assert (I : forall ph, i_of y ph = rot ph ia) by (intros; apply carrying_i).
  assert (IA : i_of y PA = ia) by (rewrite I; reflexivity).
  assert (VD : v_dc k e y = dc_set k e) by (destruct k; reflexivity).
  assert (WB : 0 < wbase) by (unfold wbase; pose proof PI_RGT_0; lra).
  assert (OM : omega p k e y = e_wgrid e / wbase).
  { unfold omega. rewrite V0. unfold we_calc, y. cbn [carrying]. fold wbase. field. lra. }
  assert (DU : forall ph, v_term p k e y ph = cadd (v_calc p e ph (i_of y ph)) (cmul (Cx (Rf p) (omega p k e y * Lf p)) (i_of y ph))).
  { intros ph. rewrite OM, !I. unfold v_term, duty. rewrite VD. unfold y. cbn [carrying].
    set (Z := cadd _ _). destruct Z as [a b]. unfold cscale. cbn [re im]. apply cx_eq; cbn [re im]; field; exact HV. }
  assert (AC : forall ph, across p k e y ph = cmul (Cx (Rf p) (omega p k e y * Lf p)) (i_of y ph)).
  { intros ph. unfold across. rewrite DU. set (v := v_calc _ _ _ _). set (d := cmul _ _). destruct v as [v1 v2], d as [d1 d2]. unfold csub, cadd, cneg. apply cx_eq; cbn [re im]; ring. }
  pose proof (pcc_power p k e y ia Hp (fun ph _ => I ph)) as SP.
  pose proof (term_power p k e y ia _ (fun ph _ => Logic.conj (I ph) (AC ph))) as TP.
  assert (N : phases k <> 0) by (destruct k; cbn [phases]; lra).
  assert (SV : S_pcc p k e y = cadd (asked_power p k e) (Cx (- (phases k / 2 * (Rf p * cabs ia ^ 2))) 0)).
  { rewrite SP. unfold loop_impedance, asked_VI in E. set (w := open_circuit p k e) in *. set (z := source_impedance p e) in *. set (a := cabs ia ^ 2) in *. set (n := phases k) in *.
    set (q := asked_power p k e) in *. clearbody w z a n q. destruct w as [w1 w2], z as [z1 z2], q as [q1 q2], ia as [i1 i2]. unfold cadd, cmul, cscale, conj in *. cbn [re im] in *. injection E as E1 E2.
    apply cx_eq; cbn [re im].
    - replace q1 with (n / 2 * (2 / n * q1)) by (field; auto). rewrite <- E1. ring.
    - replace q2 with (n / 2 * (2 / n * q2)) by (field; auto). rewrite <- E2. ring. }
  assert (TV : re (S_term p k e y) = Ppv_of p e (dc_set k e)).
  { rewrite TP, SV. unfold asked_power. cbn [cadd re]. ring. }
  assert (PIN : p_in p k e y = Ppv_of p e (dc_set k e)) by (unfold p_in; rewrite Hc, VD; reflexivity).
  assert (Q : q_error p k e y = 0) by (unfold q_error; rewrite Hc, SV; unfold asked_power; cbn [cadd im]; ring).
  assert (PE : p_error p k e y = 0).
  { unfold p_error. rewrite Hc. destruct k; rewrite ?PIN, ?TV; unfold y; cbn [carrying dc_set]; ring. }
  assert (IR : forall ph, i_ref p k e y ph = rot ph ia).
  { intros ph. unfold i_ref. rewrite Hc, Q, PE. f_equal. unfold y. destruct ia as [i1 i2]. destruct k; cbn [carrying p_state re im]; apply cx_eq; cbn [re im]; ring. }
  assert (ST : stationary (rhs p k) e y).
  { intros v Hv.
    assert (PH : forall ph c, has_phase k ph -> rhs p k e y (P ph c) = 0).
    { intros ph c Hph. destruct (rhs_current p k e y ph Hph) as [B1 B2]. destruct (rhs_inner p k e y ph Hph) as (B3 & B4 & B5 & B6). cbv zeta in *.
      assert (U1 : y (P ph CuR) = 0) by reflexivity. assert (U2 : y (P ph CuI) = 0) by reflexivity.
      pose proof (I ph) as K. pose proof (AC ph) as KA. rewrite K in KA. unfold i_of in K. destruct (rot ph ia) as [r1 r2] eqn:RR. assert (K1 : y (P ph CiR) = r1) by exact (f_equal re K). assert (K2 : y (P ph CiI) = r2) by exact (f_equal im K). clear K.
      rewrite IR, RR in B5, B6. rewrite KA in B1, B2. unfold cmul in B1, B2. cbn [re im] in B1, B2, B5, B6.
      destruct c.
      - rewrite B1. clear - K1 K2 HL. rewrite K1, K2. field. auto.
      - rewrite B2. clear - K1 K2 HL. rewrite K1, K2. field. auto.
      - rewrite B3, U1, Rmult_0_r. apply aw_d0.
      - rewrite B4, U2, Rmult_0_r. apply aw_d0.
      - rewrite B5, U1, K1. replace (wp p * (- 0 + r1 - r1)) with 0 by ring. apply aw_d0.
      - rewrite B6, U2, K2. replace (wp p * (- 0 + r2 - r2)) with 0 by ring. apply aw_d0. }
    assert (PS : rhs p k e y (p_state k) = 0).
    { pose proof (rhs_outer_p p k e y) as B. cbv zeta in B. rewrite B, PE, !Rmult_0_r. apply aw_d0. }
    assert (QS : rhs p k e y XQ = 0).
    { destruct (rhs_outer p k e y) as [B _]. cbv zeta in B. rewrite B, Q, !Rmult_0_r. apply aw_d0. }
    assert (DS : has_dc_link k -> rhs p k e y VDC = 0).
    { intros Hk. rewrite (rhs_dc p k e y Hk), PIN, TV. unfold Rdiv. rewrite Rminus_eq_0. ring. }
    assert (PL : rhs p k e y XPLL = 0) by (destruct k; cbn [rhs ode1 ode3 odeb odec ode3c]; rewrite V0; ring).
    destruct v as [ph c| | | | | | |]; try exact QS; try exact PL; try (exfalso; apply Hv; reflexivity).
    - destruct k; try (apply PH; exact Logic.I); (destruct ph; [apply PH; reflexivity|reflexivity|reflexivity]).
    - destruct k; try (apply DS; exact Logic.I); reflexivity.
    - destruct k; try exact PS; reflexivity.
    - destruct k; try exact PS; reflexivity.
    - destruct k; try reflexivity. cbn [rhs ode3]. unfold v3_of. rewrite !I. unfold y at 1. cbn [carrying]. ring. }
  split; [exact ST|]. split.
  { destruct k; cbn [rhs ode1 ode3 odeb odec ode3c]; rewrite V0; unfold we_calc, y; cbn [carrying]; unfold wbase; ring. }
  rewrite IA. split; [exact SV|]. split; [exact TV|]. split; [exact VD|]. split; [exact I|].
  intros L1 L2. split; [exact ST|]. split; [split; [exact L2|]|].
  - unfold asked. rewrite Q, PE. replace (Cx _ _) with ia; [exact L1|]. unfold y. destruct ia as [i1 i2]. destruct k; cbn [carrying p_state re im]; apply cx_eq; cbn [re im]; ring.
  - intros Hk. unfold y. cbn [carrying]. exact HV.
Qed.
Print Assumptions C142_feasible_has_one.

(** A network (1 per unit source behind 1 ohm) that cannot take more than it can transfer:
    with a dark array any reactive power beyond the limit is infeasible, none is feasible. *)
Definition q_env (q : R) : env := Env 0 wbase (Cx 1 0) (Cx 0 0) (Cx 0 0) None q 0 (PVM 1 1 0 300) true 2.
Lemma q_feasible q : feasible idle_prm SingleConst (q_env q) <-> Rabs q <= 1 / 4.
Proof.
  assert (P0 : Ppv_of idle_prm (q_env q) (dc_set SingleConst (q_env q)) = 0).
  { assert (D : p_in idle_prm SingleConst (q_env q) (fun _ => 0) = 0) by (apply C139_dark; cbn; lra). exact D. }
  assert (L : loop_impedance idle_prm (q_env q) = Cx 1 0) by (unfold loop_impedance; cbn; apply cx_eq; cbn; ring).
  assert (O : open_circuit idle_prm SingleConst (q_env q) = Cx 1 0) by reflexivity.
  assert (A : asked_VI idle_prm SingleConst (q_env q) = Cx 0 (2 * q)).
  { unfold asked_VI, asked_power. rewrite P0. cbn [phases q_env e_Qref]. unfold cscale. apply cx_eq; cbn [re im]; field. }
  assert (C1' : cabs (Cx 1 0) = 1) by (unfold cabs, cnorm2; cbn [re im]; replace (1 * 1 + 0 * 0) with 1 by ring; apply sqrt_1).
  assert (CQ : cabs (Cx 0 (2 * q)) = 2 * Rabs q).
  { unfold cabs, cnorm2. cbn [re im]. replace (0 * 0 + 2 * q * (2 * q)) with (Rsqr (2 * q)) by (unfold Rsqr; ring). rewrite sqrt_Rsqr_abs, Rabs_mult, (Rabs_pos_eq 2) by lra. reflexivity. }
  unfold feasible. rewrite L, O, A, C1', CQ. unfold cmul, conj. cbn [re im]. split; intros H; lra.
Qed.
Example C142_hypotheses_met : sane idle_prm /\ passive idle_prm (q_env (1 / 8)) /\ open_circuit idle_prm SingleConst (q_env (1 / 8)) <> Cx 0 0 /\
  feasible idle_prm SingleConst (q_env (1 / 8)) /\ ~ feasible idle_prm SingleConst (q_env (1 / 2)) /\
  (forall y, ~ operating_point idle_prm SingleConst (q_env (1 / 2)) y).
Proof.
  assert (HS : sane idle_prm) by (unfold sane; cbn [idle_prm Lf Cdc Ki_GCC wp Ki_DC Ki_P Ki_Q Ki_PLL Tfilter]; lra).
  assert (NF : ~ feasible idle_prm SingleConst (q_env (1 / 2))) by (rewrite q_feasible, Rabs_pos_eq; lra).
  split; [exact HS|]. split; [exact Logic.I|]. split; [cbn; unfold v_calc; cbn; intros K; injection K as K; lra|].
  split; [apply q_feasible; rewrite Rabs_pos_eq; lra|]. split; [exact NF|].
  intros y Ho. apply NF. apply (C142_infeasible_has_none _ _ _ y); auto; exact Logic.I.
Qed.
