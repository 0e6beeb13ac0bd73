(** C129: the current controller brings the current to its reference, along every
    solution of the differential equations. *)
From Coquelicot Require Import Coquelicot.
From Verif Require Import RBase CxField PhasorModel PVModel ODEModel Const3Model PhasorProperties PhasorProperties2 CircuitProperties2 CircuitProperties3 PLLProperties FilterProperties BoundProofs BoundProperties SettleProofs.
Import RBase.
Open Scope R_scope.

(** * Specification *)
(** impedance behind the connection point: none when the voltage is imposed from
    outside; otherwise the line and grid (seen through the transformer) in parallel
    with the load *)
Definition parallel (z1 z2 : cx) : cx := cdiv (cmul z1 z2) (cadd z1 z2).
Definition grid_side (p : prm) (g : grid) : cx := cadd (Z1 p) (cscale (1 / (a_tr p * a_tr p)) (Z2 g)).
Definition source_impedance (p : prm) (e : env) : cx :=
  match e_grid e with None => Cx 0 0 | Some g => parallel (grid_side p g) (Zload1 g) end.
(** line, grid and load do not generate power *)
Definition passive (p : prm) (e : env) : Prop :=
  match e_grid e with None => True | Some g =>
    a_tr p <> 0 /\ 0 <= re (grid_side p g) /\ 0 <= re (Zload1 g) /\ cadd (grid_side p g) (Zload1 g) <> Cx 0 0 end.
(** the inverter voltage that holds the current i0 at the (per-unit) frequency w: PCC
    voltage while i0 flows, plus the drop over the filter *)
Definition holding (p : prm) (e : env) (ph : phase) (w : R) (i0 : cx) : cx :=
  cadd (v_calc p e ph i0) (cmul (Cx (Rf p) (w * Lf p)) i0).
(** distance of one phase from the state that holds i0 with the voltage h0 *)
Definition off (y : st) (ph : phase) (i0 x0 : cx) : R :=
  cabs (csub (i_of y ph) i0) ^ 2 + cabs (u_of y ph) ^ 2 + cabs (csub (x_of y ph) x0) ^ 2.

(** * Proofs *)
Lemma sqr_cabs z : cabs z ^ 2 = re z * re z + im z * im z.
Proof. unfold cabs. rewrite pow2_sqrt; [reflexivity|]. unfold cnorm2. nra. Qed.

Lemma parallel_passive z1 z2 : 0 <= re z1 -> 0 <= re z2 -> cadd z1 z2 <> Cx 0 0 -> 0 <= re (parallel z1 z2).
Proof.
  intros H1 H2 Hn. pose proof (cnorm2_pos _ Hn) as N. unfold parallel, cdiv, cmul, cinv. cbn [re im].
  set (n := cnorm2 (cadd z1 z2)) in *. destruct z1 as [a b], z2 as [c d]. cbn [re im cadd] in *.
  replace ((a * c - b * d) * ((a + c) / n) - (a * d + b * c) * (- (b + d) / n)) with (((a * a + b * b) * c + (c * c + d * d) * a) / n) by (field; lra).
  apply Rmult_le_pos; [|left; apply Rinv_0_lt_compat; auto]. nra.
Qed.
Lemma passive_re p e : passive p e -> 0 <= re (source_impedance p e).
Proof.
  unfold passive, source_impedance. destruct (e_grid e) as [g|]; [|cbn; lra].
  intros (_ & H1 & H2 & H3). apply parallel_passive; auto.
Qed.
(** the PCC voltage as a function of the current *)
Lemma v_calc_affine p e ph i i0 : passive p e ->
  v_calc p e ph i = cadd (v_calc p e ph i0) (cmul (source_impedance p e) (csub i i0)).
Proof.
  unfold passive, source_impedance, v_calc. destruct (e_grid e) as [g|].
  - intros (Ha & _ & _ & Hn). unfold v_standalone, parallel, grid_side in *.
    set (vg := match ph with PA => vag g | PB => vbg g | PC => vcg g end).
    rewrite !cscale_mul in *. rewrite !RtoCx_inv in * by (auto; apply Rmult_integral_contrapositive; auto).
    rewrite !RtoCx_mul in *. set (A := RtoCx (a_tr p)) in *.
    assert (HA : A <> C0) by (apply RtoCx_neq0; auto).
    assert (HAA : cmul A A <> C0).
    { unfold A. rewrite <- RtoCx_mul. apply RtoCx_neq0. apply Rmult_integral_contrapositive; auto. }
    assert (D : cadd (cmul (cmul A A) (cadd (Z1 p) (Zload1 g))) (Z2 g) <> C0).
    { intros K. apply Hn. transitivity (cmul (cinv (cmul A A)) (cadd (cmul (cmul A A) (cadd (Z1 p) (Zload1 g))) (Z2 g))); [field; auto|].
      rewrite K. change (Cx 0 0) with C0. ring. }
    assert (D2 : cadd (cadd (Z1 p) (cmul (cinv (cmul A A)) (Z2 g))) (Zload1 g) <> C0) by exact Hn.
    field. repeat split; auto.
    intros K. apply D. rewrite <- K. ring.
  - intros _. destruct ph; apply cx_eq; unfold cadd, cmul, csub; cbn [re im]; ring.
Qed.
Lemma cabs_triangle_sub z1 z2 : cabs (csub z1 z2) <= cabs z1 + cabs z2.
Proof.
  unfold cabs, cnorm2, csub. cbn [re im]. destruct z1 as [a b], z2 as [c d]. cbn [re im].
  assert (P1 : 0 <= a * a + b * b) by nra. assert (P2 : 0 <= c * c + d * d) by nra.
  pose proof (sqrt_pos (a * a + b * b)) as Q1. pose proof (sqrt_pos (c * c + d * d)) as Q2.
  rewrite <- (sqrt_square (sqrt (a * a + b * b) + sqrt (c * c + d * d))) by lra. apply sqrt_le_1_alt.
  pose proof (sqrt_sqrt _ P1) as E1. pose proof (sqrt_sqrt _ P2) as E2.
  assert (CS : Rabs (a * c + b * d) <= sqrt (a * a + b * b) * sqrt (c * c + d * d)).
  { rewrite <- sqrt_mult by auto. rewrite <- sqrt_Rsqr_abs. apply sqrt_le_1_alt. unfold Rsqr.
    pose proof (Rle_0_sqr (a * d - b * c)). unfold Rsqr in *. lra. }
  pose proof (Rle_abs (- (a * c + b * d))) as A. rewrite Rabs_Ropp in A. nra.
Qed.
Lemma cabs_scale k z : cabs (cscale k z) = Rabs k * cabs z.
Proof.
  unfold cabs, cnorm2, cscale. cbn [re im]. rewrite <- sqrt_Rsqr_abs, <- sqrt_mult; [f_equal; unfold Rsqr; ring|apply Rle_0_sqr|nra].
Qed.

(** * C129 *)
(** While the duty cycle is not saturated, the current and the controller of every
    phase approach the state that holds the current i0, at an exponential rate that
    depends only on the parameters, up to the square of how much the reference, the
    voltage required and the DC voltage deviate from their nominal values. *)
Theorem C129_current_settles : forall p k Vd G,
  0 < Lf p -> 0 < Rf p -> 0 < Kp_GCC p -> 0 < Ki_GCC p -> 0 < wp p -> Ki_GCC p < Kp_GCC p * wp p -> 0 < Vd -> 0 <= G ->
  exists C l, 0 < C /\ 0 < l /\
  forall ph E Y a b i0 h0 delta rho,
  has_phase k ph -> run_between a b (rhs p k) E Y -> 0 <= delta -> 0 <= rho ->
  (forall t, a < t < b -> let w := omega p k (E t) (Y t) in
     passive p (E t) /\ cabs (source_impedance p (E t)) <= G /\ Rabs w <= G /\
     cabs (duty p (Y t) ph) <= m_limit p /\
     cabs (csub (i_ref p k (E t) (Y t) ph) i0) <= rho /\
     cabs (csub (holding p (E t) ph w i0) h0) + Rabs (v_dc k (E t) (Y t) - Vd) / 2 * m_limit p <= delta) ->
  let x0 := cscale (2 / Vd) h0 in
  forall t, a <= t <= b -> off (Y t) ph i0 x0 <= C * (exp (- l * (t - a)) * off (Y a) ph i0 x0 + (delta ^ 2 + rho ^ 2)).
Proof.
  intros p k Vd G HL HR HKp HKi Hw Hg HV HG.
  destruct (settle (Lf p) (Rf p) (Kp_GCC p) (Ki_GCC p) (wp p) (Vd / 2) (G * (1 + Lf p)) HL HR HKp HKi Hw ltac:(lra) ltac:(nra) Hg) as (C & l & HC & Hl & S).
  exists C, l. split; [exact HC|]. split; [exact Hl|].
  intros ph E Y a b i0 h0 delta rho Hph (HD & HCo) Hd Hr Hall x0 t Ht.
  unfold off. rewrite !sqr_cabs. 
  set (z := fun t => re (source_impedance p (E t))).
  set (y := fun t => omega p k (E t) (Y t) * Lf p + im (source_impedance p (E t))).
  set (d := fun t => csub (csub (holding p (E t) ph (omega p k (E t) (Y t)) i0) h0) (cscale ((v_dc k (E t) (Y t) - Vd) / 2) (duty p (Y t) ph))).
  set (r := fun t => csub (i_ref p k (E t) (Y t) ph) i0).
  refine (S (fun s => Y s (P ph CiR) - re i0) (fun s => Y s (P ph CiI) - im i0) (fun s => Y s (P ph CuR)) (fun s => Y s (P ph CuI))
            (fun s => Y s (P ph CxR) - re x0) (fun s => Y s (P ph CxI) - im x0) z y (fun s => re (d s)) (fun s => im (d s)) (fun s => re (r s)) (fun s => im (r s))
            a b (delta ^ 2 + rho ^ 2) _ _ _ _ t Ht).
  - intros s Hs. destruct (Hall s Hs) as (H1 & H2 & H3 & H4 & H5 & H6). cbv zeta in *.
    pose proof (cabs_ge_re (source_impedance p (E s))) as B1. pose proof (cabs_ge_im (source_impedance p (E s))) as B2.
    pose proof (passive_re _ _ H1) as B0. pose proof (Rle_abs (re (source_impedance p (E s)))) as B3.
    split; [unfold z; split; [auto|nra]|]. split.
    + unfold y. eapply Rle_trans; [apply Rabs_triang|]. rewrite Rabs_mult, (Rabs_pos_eq (Lf p)) by lra. nra.
    + assert (D1 : cabs (d s) <= delta).
      { unfold d. eapply Rle_trans; [apply cabs_triangle_sub|]. eapply Rle_trans; [|exact H6]. apply Rplus_le_compat_l.
        rewrite cabs_scale. unfold Rdiv. rewrite Rabs_mult, (Rabs_pos_eq (/ 2)) by lra. apply Rmult_le_compat_l; [|auto].
        apply Rmult_le_pos; [apply Rabs_pos|lra]. }
      assert (D2 : cabs (d s) ^ 2 <= delta ^ 2) by (apply pow_incr; split; [apply cabs_nonneg|auto]).
      assert (D3 : cabs (r s) ^ 2 <= rho ^ 2) by (apply pow_incr; split; [apply cabs_nonneg|auto]).
      rewrite sqr_cabs in D2, D3. lra.
  - intros s Hs. destruct (Hall s Hs) as (H1 & _ & _ & H4 & _ & _).
    destruct (rhs_current p k (E s) (Y s) ph Hph) as [I1 I2].
    destruct (rhs_inner p k (E s) (Y s) ph Hph) as (X1 & X2 & U1 & U2).
    cbv zeta in X1, X2, U1, U2, I1, I2.
    assert (NS : rlt (m_limit p) (cabs (duty p (Y s) ph)) = false) by (apply rlt_false; auto).
    rewrite NS in X1, X2, U1, U2. cbn [aw] in X1, X2, U1, U2.
    assert (Sh : forall (f : R -> R) (c df df' : R), is_derive f s df -> df = df' -> is_derive (fun q => f q - c) s df').
    { intros f c df df' Df <-. pose proof (is_derive_minus (V := R_NormedModule) f (fun _ => c) s df 0 Df (is_derive_const _ _)) as K.
      evar_last; [exact K|]. unfold minus, plus, opp; simpl. ring. }
    assert (Eq : forall (f : R -> R) (df df' : R), is_derive f s df -> df = df' -> is_derive f s df') by (intros f df df' Df <-; exact Df).
    assert (Va : v_calc p (E s) ph (i_of (Y s) ph) = cadd (v_calc p (E s) ph i0) (cmul (source_impedance p (E s)) (csub (i_of (Y s) ph) i0))) by (apply v_calc_affine; auto).
    split; [|split; [|split; [|split; [|split]]]].
    + eapply Sh; [apply HD; auto|]. rewrite I1. unfold across, v_term. rewrite Va. unfold d, z, y, holding, x0.
      destruct (source_impedance p (E s)) as [s1 s2]. destruct (v_calc p (E s) ph i0) as [v1 v2]. destruct i0 as [j1 j2]. destruct h0 as [h1 h2].
      unfold csub, cadd, cmul, cscale, duty, i_of. cbn [re im]. field. split; lra.
    + eapply Sh; [apply HD; auto|]. rewrite I2. unfold across, v_term. rewrite Va. unfold d, z, y, holding, x0.
      destruct (source_impedance p (E s)) as [s1 s2]. destruct (v_calc p (E s) ph i0) as [v1 v2]. destruct i0 as [j1 j2]. destruct h0 as [h1 h2].
      unfold csub, cadd, cmul, cscale, duty, i_of. cbn [re im]. field. split; lra.
    + eapply Eq; [apply HD; auto|]. rewrite U1. unfold r, csub. cbn [re im]. ring.
    + eapply Eq; [apply HD; auto|]. rewrite U2. unfold r, csub. cbn [re im]. ring.
    + eapply Sh; [apply HD; auto|]. exact X1.
    + eapply Sh; [apply HD; auto|]. exact X2.
  - intros s Hs. assert (Cm : forall v c, continuous (fun q => Y q v - c) s).
    { intros v c. apply (continuous_minus (V := R_NormedModule) (fun q => Y q v) (fun _ => c)); [apply HCo; auto|apply continuous_const]. }
    repeat split; try apply Cm; apply HCo; auto.
  - pose proof (pow2_ge_0 delta). pose proof (pow2_ge_0 rho). lra.
Qed.
Print Assumptions C129_current_settles.

(** With nothing but the current to settle (constant reference, constant required
    voltage, constant DC voltage) the current tends to its reference. *)
Theorem C129_reaches_reference : forall p k Vd G ph E Y T0 i0 h0,
  0 < Lf p -> 0 < Rf p -> 0 < Kp_GCC p -> 0 < Ki_GCC p -> 0 < wp p -> Ki_GCC p < Kp_GCC p * wp p -> 0 < Vd -> 0 <= G ->
  has_phase k ph ->
  (forall t v, T0 < t -> is_derive (fun s => Y s v) t (rhs p k (E t) (Y t) v)) ->
  (forall t, T0 < t -> let w := omega p k (E t) (Y t) in
     passive p (E t) /\ cabs (source_impedance p (E t)) <= G /\ Rabs w <= G /\
     cabs (duty p (Y t) ph) <= m_limit p /\ i_ref p k (E t) (Y t) ph = i0 /\
     holding p (E t) ph w i0 = h0 /\ v_dc k (E t) (Y t) = Vd) ->
  tends (fun t => cabs (csub (i_of (Y t) ph) i0)) 0 /\
  tends (fun t => cabs (csub (cscale (Vd / 2) (duty p (Y t) ph)) h0)) 0.
Proof.
  intros p k Vd G ph E Y T0 i0 h0 HL HR HKp HKi Hw Hg HV HG Hph HD Hall.
  destruct (C129_current_settles p k Vd G HL HR HKp HKi Hw Hg HV HG) as (C & l & HC & Hl & S).
  set (x0 := cscale (2 / Vd) h0). set (a := T0 + 1).
  assert (C0' : cabs (Cx 0 0) = 0) by (unfold cabs, cnorm2; cbn [re im]; replace (0 * 0 + 0 * 0) with 0 by ring; apply sqrt_0).
  assert (F : forall t, a <= t -> off (Y t) ph i0 x0 <= C * off (Y a) ph i0 x0 * exp (- l * (t - a))).
  { intros t Ht. eapply Rle_trans.
    - apply (S ph E Y a (t + 1) i0 h0 0 0 Hph); try lra.
      + split; [intros s v Hs; apply HD; unfold a in *; lra|]. intros s v Hs. apply (ex_derive_continuous (V := R_NormedModule) (fun q => Y q v)). eexists. apply HD. unfold a in *; lra.
      + intros s Hs. destruct (Hall s ltac:(unfold a in *; lra)) as (H1 & H2 & H3 & H4 & H5 & H6 & H7). cbv zeta in *.
        rewrite H5, H6, H7. replace (csub i0 i0) with (Cx 0 0) by (unfold csub; apply cx_eq; cbn [re im]; ring).
        replace (csub h0 h0) with (Cx 0 0) by (unfold csub; apply cx_eq; cbn [re im]; ring). rewrite C0', Rminus_eq_0, Rabs_R0.
        repeat split; auto; lra.
    - fold x0. right. ring. }
  assert (Poff : forall y, 0 <= off y ph i0 x0).
  { intros y. unfold off. pose proof (pow2_ge_0 (cabs (csub (i_of y ph) i0))). pose proof (pow2_ge_0 (cabs (u_of y ph))). pose proof (pow2_ge_0 (cabs (csub (x_of y ph) x0))). lra. }
  set (M := C * off (Y a) ph i0 x0 + 1).
  assert (HM : 0 < M) by (unfold M; pose proof (Rmult_le_pos C (off (Y a) ph i0 x0) ltac:(lra) (Poff _)); lra).
  (* off tends to 0 *)
  assert (T : forall eps, 0 < eps -> exists T, a <= T /\ forall t, T < t -> off (Y t) ph i0 x0 < eps).
  { intros eps He. exists (Rmax a (a + (- ln (eps / M)) / l)). split; [apply Rmax_l|]. intros t Ht.
    assert (Ha : a < t) by (eapply Rle_lt_trans; [apply Rmax_l|exact Ht]).
    assert (Hb : a + (- ln (eps / M)) / l < t) by (eapply Rle_lt_trans; [apply Rmax_r|exact Ht]).
    eapply Rle_lt_trans; [apply F; lra|].
    assert (El : exp (- l * (t - a)) < eps / M).
    { rewrite <- (exp_ln (eps / M)) by (apply Rdiv_lt_0_compat; lra). apply exp_increasing.
      apply (Rmult_lt_compat_l l) in Hb; [|lra]. replace (l * (a + - ln (eps / M) / l)) with (l * a - ln (eps / M)) in Hb by (field; lra). lra. }
    apply Rle_lt_trans with (M * exp (- l * (t - a))).
    - apply Rmult_le_compat_r; [left; apply exp_pos|unfold M; lra].
    - apply (Rmult_lt_compat_l M) in El; auto. replace (M * (eps / M)) with eps in El by (field; lra). exact El. }
  assert (Sq : forall (f : R -> R) K, 0 < K -> (forall t, 0 <= f t) -> (forall t, f t ^ 2 <= K * off (Y t) ph i0 x0) -> tends f 0).
  { intros f K HK Pf Hf eps He. destruct (T (eps ^ 2 / K)) as (T1 & _ & H1). { apply Rdiv_lt_0_compat; auto. apply pow_lt; auto. }
    exists T1. intros t Ht. rewrite Rminus_0_r, Rabs_pos_eq by auto. specialize (H1 t Ht). specialize (Hf t).
    apply (Rmult_lt_compat_l K) in H1; auto. replace (K * (eps ^ 2 / K)) with (eps ^ 2) in H1 by (field; lra).
    apply Rnot_le_lt. intros Q. pose proof (pow_incr eps (f t) 2 ltac:(split; lra)). lra. }
  split.
  - apply (Sq _ 1); [lra|intros; apply cabs_nonneg|]. intros t. unfold off.
    pose proof (pow2_ge_0 (cabs (u_of (Y t) ph))). pose proof (pow2_ge_0 (cabs (csub (x_of (Y t) ph) x0))). lra.
  - apply (Sq _ (Vd / 2 * (Vd / 2) * (2 * (Kp_GCC p * Kp_GCC p) + 2))).
    + assert (0 < Kp_GCC p * Kp_GCC p) by (apply Rmult_lt_0_compat; auto). repeat apply Rmult_lt_0_compat; lra.
    + intros; apply cabs_nonneg.
    + intros t. unfold off. rewrite !sqr_cabs. unfold x0, csub, cscale, duty, x_of, u_of, i_of. cbn [re im].
      set (K := Kp_GCC p). set (u1 := Y t (P ph CuR)). set (u2 := Y t (P ph CuI)). set (x1 := Y t (P ph CxR)). set (x2 := Y t (P ph CxI)).
      set (j1 := Y t (P ph CiR) - re i0). set (j2 := Y t (P ph CiI) - im i0).
      set (q1 := x1 - 2 / Vd * re h0). set (q2 := x2 - 2 / Vd * im h0).
      replace (Vd / 2 * (K * u1 + x1) - re h0) with (Vd / 2 * (K * u1 + q1)) by (unfold q1; field; lra).
      replace (Vd / 2 * (K * u2 + x2) - im h0) with (Vd / 2 * (K * u2 + q2)) by (unfold q2; field; lra).
      replace (Vd / 2 * (K * u1 + q1) * (Vd / 2 * (K * u1 + q1)) + Vd / 2 * (K * u2 + q2) * (Vd / 2 * (K * u2 + q2)))
        with (Vd / 2 * (Vd / 2) * ((K * u1 + q1) * (K * u1 + q1) + (K * u2 + q2) * (K * u2 + q2))) by ring.
      rewrite (Rmult_assoc (Vd / 2 * (Vd / 2))). apply Rmult_le_compat_l; [nra|].
      pose proof (Rle_0_sqr (K * u1 - q1)). pose proof (Rle_0_sqr (K * u2 - q2)). unfold Rsqr in *.
      assert (PK : 0 <= K * K) by nra.
      assert (0 <= (2 * (K * K) + 2) * (j1 * j1 + j2 * j2)) by (apply Rmult_le_pos; nra).
      assert (0 <= u1 * u1 + u2 * u2) by nra. assert (0 <= K * K * (q1 * q1 + q2 * q2)) by (apply Rmult_le_pos; nra). nra.
Qed.
Print Assumptions C129_reaches_reference.

(** Non-vacuity: the disconnected DER whose current decays (decay_run of C123). *)
Example C129_hypotheses_met : forall m,
  let p := decay_prm in let E := fault_env m false 0 in let Y := decay_run in
  0 < Lf p /\ 0 < Rf p /\ 0 < Kp_GCC p /\ 0 < Ki_GCC p /\ 0 < wp p /\ Ki_GCC p < Kp_GCC p * wp p /\ has_phase SinglePhase PA /\
  run_between 0 5 (rhs p SinglePhase) E Y /\
  (forall t, 0 < t < 5 -> passive p (E t) /\ cabs (source_impedance p (E t)) <= 1 /\ Rabs (omega p SinglePhase (E t) (Y t)) <= 1 /\
     cabs (duty p (Y t) PA) <= m_limit p /\ i_ref p SinglePhase (E t) (Y t) PA = Cx 0 0 /\
     holding p (E t) PA (omega p SinglePhase (E t) (Y t)) (Cx 0 0) = Cx 0 0 /\ v_dc SinglePhase (E t) (Y t) = 2) /\
  off (Y 0) PA (Cx 0 0) (Cx 0 0) = 9.
Proof.
  intros m p E Y. split; [cbn; lra|]. split; [cbn; lra|]. split; [cbn; lra|]. split; [cbn; lra|]. split; [cbn; lra|]. split; [cbn; lra|].
  split; [reflexivity|]. split; [apply decay_run_ok; lra|].
  assert (Z : cabs (Cx 0 0) = 0) by (unfold cabs, cnorm2; cbn [re im]; replace (0 * 0 + 0 * 0) with 0 by ring; apply sqrt_0).
  split.
  - intros t Ht. split; [exact I|]. split; [cbn [source_impedance E fault_env e_grid]; rewrite Z; lra|]. split.
    + unfold omega, vd1, v_calc, E, fault_env. cbn [e_grid e_va e_wgrid e_t].
      destruct (C47_pll_error 0 0 0 t (Y t WTE)) as [_ H]. replace (crect 0 0) with (Cx 0 0) in H by (unfold crect, cscale; apply cx_eq; cbn [re im]; ring).
      rewrite H. unfold we_calc, Y, decay_run. cbn [fault_state]. unfold Rdiv.
      match goal with |- Rabs ?q <= 1 => replace q with 0 by ring end. rewrite Rabs_R0. lra.
    + split. { unfold duty, Y, decay_run. cbn [fault_state p decay_prm Kp_GCC m_limit]. replace (Cx (1 * (-2 * exp (- t)) + 2 * exp (- t)) (1 * 0 + 0)) with (Cx 0 0) by (apply cx_eq; cbn [re im]; ring). rewrite Z. lra. }
      split; [reflexivity|]. split; [|reflexivity]. unfold holding, v_calc, E, fault_env. cbn [e_grid e_va]. unfold cadd, cmul. apply cx_eq; cbn [re im]; ring.
  - unfold off. rewrite !sqr_cabs. unfold csub, i_of, u_of, x_of, Y, decay_run. cbn [re im fault_state]. rewrite Ropp_0, exp_0. ring.
Qed.
(** The controller gains shipped in config_der.json and templates.py (three-phase and
    single-phase) satisfy the condition on the gains. *)
Example C129_shipped_gains : 2000 < 6000 * 200000 /\ 4000 < 12000 * 200000.
Proof. lra. Qed.
