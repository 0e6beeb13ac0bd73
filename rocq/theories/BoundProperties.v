(** C53 (bounds along every run), C123-C125: filter current, current-controller
    filter and DC link along the solutions of the differential equations. *)
From Coquelicot Require Import Coquelicot.
From Verif Require Import RBase CxField PhasorModel PVModel ODEModel Const3Model PhasorProperties PhasorProperties2 CircuitProperties2 CircuitProperties3 PLLProperties FilterProperties BoundProofs.
Import RBase.
Open Scope R_scope.

(** * Specification *)
(** the five systems of equations *)
Inductive kind := SinglePhase | ThreePhase | Balanced | SingleConst | ThreeConst.
Definition rhs (p : prm) (k : kind) : env -> st -> var -> R :=
  match k with SinglePhase => ode1 p | ThreePhase => ode3 p | Balanced => odeb p | SingleConst => odec p | ThreeConst => ode3c p end.
(** the phases with states of their own *)
Definition has_phase (k : kind) (ph : phase) : Prop :=
  match k with ThreePhase | ThreeConst => True | _ => ph = PA end.
Definition has_dc_link (k : kind) : Prop := match k with SingleConst | ThreeConst => False | _ => True end.
(** current, controller states, DC voltage, duty cycle and terminal voltage of a phase *)
Definition v_dc (k : kind) (e : env) (y : st) : R := match k with SingleConst | ThreeConst => e_Vconst e | _ => y VDC end.
Definition duty (p : prm) (y : st) (ph : phase) : cx :=
  Cx (Kp_GCC p * y (P ph CuR) + y (P ph CxR)) (Kp_GCC p * y (P ph CuI) + y (P ph CxI)).
Definition v_term (p : prm) (k : kind) (e : env) (y : st) (ph : phase) : cx := cscale (v_dc k e y / 2) (duty p y ph).
(** voltage across the filter: inverter terminal minus PCC *)
Definition across (p : prm) (k : kind) (e : env) (y : st) (ph : phase) : cx :=
  csub (v_term p k e y ph) (v_calc p e ph (i_of y ph)).
(** active power leaving the DC side, active and reactive power at the PCC *)
Definition S_term (p : prm) (k : kind) (e : env) (y : st) : cx :=
  match k with
  | SinglePhase | SingleConst => S_ph (v_term p k e y PA) (i_of y PA)
  | ThreePhase | ThreeConst => sum3 (fun ph => S_ph (v_term p k e y ph) (i_of y ph))
  | Balanced => sum3 (fun ph => S_ph (rot ph (v_term p k e y PA)) (rot ph (i_of y PA))) end.
Definition S_pcc (p : prm) (k : kind) (e : env) (y : st) : cx :=
  match k with
  | SinglePhase | SingleConst => S_ph (v_calc p e PA (i_of y PA)) (i_of y PA)
  | ThreePhase | ThreeConst => sum3 (fun ph => S_ph (v_calc p e ph (i_of y ph)) (i_of y ph))
  | Balanced => sum3 (fun ph => S_ph (rot ph (v_calc p e PA (i_of y PA))) (rot ph (i_of y PA))) end.
(** PV power fed in (none while disconnected) and the errors of the outer loops *)
Definition p_in (p : prm) (k : kind) (e : env) (y : st) : R := if e_conn e then Ppv_of p e (v_dc k e y) else 0.
Definition q_error (p : prm) (k : kind) (e : env) (y : st) : R := (if e_conn e then e_Qref e else 0) - im (S_pcc p k e y).
Definition p_error (p : prm) (k : kind) (e : env) (y : st) : R :=
  if match k with SingleConst | ThreeConst => true | _ => false end
  then p_in p k e y - re (S_term p k e y)
  else (if e_conn e then e_Vdcref e else y VDC) - y VDC.
(** the integrator and the gain that go with it *)
Definition p_state (k : kind) : var := match k with SingleConst | ThreeConst => XP | _ => XDC end.
Definition p_gain (p : prm) (k : kind) : R := match k with SingleConst | ThreeConst => Kp_P p | _ => Kp_DC p end.
(** the current reference in force on a phase *)
Definition i_ref (p : prm) (k : kind) (e : env) (y : st) (ph : phase) : cx :=
  if e_conn e then
    rot ph (Cx (y (p_state k) + p_gain p k * p_error p k e y) (y XQ - Kp_Q p * q_error p k e y))
  else Cx 0 0.

(** * The model in these terms *)
Definition omega (p : prm) (k : kind) (e : env) (y : st) : R :=
  we_calc (Kp_PLL p) (match k with SinglePhase | SingleConst => vd1 p e y | ThreePhase | ThreeConst => vd3 p e y | Balanced => vdb p e y end) (y XPLL) / wbase.
Lemma rhs_current p k e y ph : has_phase k ph -> let w := omega p k e y in
  rhs p k e y (P ph CiR) = 1 / Lf p * (- Rf p * y (P ph CiR) + re (across p k e y ph)) + w * y (P ph CiI) /\
  rhs p k e y (P ph CiI) = 1 / Lf p * (- Rf p * y (P ph CiI) + im (across p k e y ph)) - w * y (P ph CiR).
Proof.
  intros H. cbv zeta.
  destruct k; cbn [has_phase] in H; try subst ph; cbn [rhs ode1 ode3 odeb odec ode3c d_comp];
    unfold omega, di_re, di_im, across, v_term, v_dc, duty, csub, cadd, cneg, vt3_of, vt3c_of, v3_of, vt_calc, m_calc, i_of, u_of, x_of, cscale, cadd;
    cbn [re im]; split; unfold Rminus; ring.
Qed.
Lemma rhs_inner p k e y ph : has_phase k ph ->
  let sat := rlt (m_limit p) (cabs (duty p y ph)) in
  rhs p k e y (P ph CxR) = aw sat (Ki_GCC p * y (P ph CuR)) (y (P ph CxR)) (Ki_GCC p * y (P ph CuR)) /\
  rhs p k e y (P ph CxI) = aw sat (Ki_GCC p * y (P ph CuI)) (y (P ph CxI)) (Ki_GCC p * y (P ph CuI)) /\
  (let d := wp p * (- y (P ph CuR) + re (i_ref p k e y ph) - y (P ph CiR)) in
   rhs p k e y (P ph CuR) = aw sat d (y (P ph CuR)) d) /\
  (let d := wp p * (- y (P ph CuI) + im (i_ref p k e y ph) - y (P ph CiI)) in
   rhs p k e y (P ph CuI) = aw sat d (y (P ph CuI)) d).
Proof.
  intros H. cbv zeta.
  assert (Ri : match k with
    | SinglePhase => eff_iref e (iref1 p e y) | ThreePhase => eff_iref e (rot ph (iref3a p e y))
    | Balanced => eff_iref e (irefb p e y) | SingleConst => eff_iref e (irefc p e y)
    | ThreeConst => eff_iref e (rot ph (iref3c p e y)) end = i_ref p k e y ph).
  { unfold i_ref, eff_iref. destruct k; cbn [has_phase] in H; try subst ph; destruct (e_conn e) eqn:C; try reflexivity;
      unfold iref1, iref3a, irefb, irefc, iref3c, ia_ref_calc, ia_ref_activepower, p_error, p_in, q_error; rewrite C;
      cbn [p_state p_gain rot]; try reflexivity;
      unfold S_term, v_term, duty, Sc_inv, S3c_inv, vt3c_of, vt_calc, m_calc, u_of, x_of, cscale, cadd; cbn [re im v_dc sum3]; reflexivity. }
  destruct k; cbn [has_phase] in H; try subst ph; cbn [rhs ode1 ode3 odeb odec ode3c d_comp]; rewrite Ri; repeat split.
Qed.
Lemma rhs_outer p k e y :
  let sat := rlt (iref_limit p) (cabs (Cx (y (p_state k) + p_gain p k * p_error p k e y) (y XQ - Kp_Q p * q_error p k e y))) in
  (let d := - Ki_Q p * q_error p k e y in rhs p k e y XQ = aw sat d (y XQ) d) /\
  exists K, let d := K * p_error p k e y in rhs p k e y (p_state k) = aw sat d (y (p_state k)) d.
Proof.
  cbv zeta. split; [|exists (match k with SingleConst | ThreeConst => Ki_P p | _ => Ki_DC p end)];
  destruct k; cbn [rhs ode1 ode3 odeb odec ode3c p_state p_gain]; unfold dxQ, dxDC, iref1_test, iref3_test, irefb_test, irefc_test, iref3c_test, i_sat, ia_ref_calc, ia_ref_activepower,
    p_error, q_error, p_in, eff_Qref, eff_Vref, eff_Ppv, S_term, v_term, duty, Sc_inv, S3c_inv, vt3c_of, vt_calc, m_calc, u_of, x_of, cscale, cadd; cbn [re im v_dc sum3]; try reflexivity.
Qed.
Lemma rhs_dc p k e y : has_dc_link k -> rhs p k e y VDC = (p_in p k e y - re (S_term p k e y)) / (y VDC * Cdc p).
Proof.
  intros H. destruct k; try (exfalso; exact H); cbn [rhs ode1 ode3 odeb]; unfold dVdc, eff_Ppv, p_in; cbn [v_dc]; f_equal; f_equal.
  unfold Sb_inv, S_term. cbn [v_dc]. unfold v_term, duty. cbn [v_dc].
  assert (E : forall ph, vt_calc p (y VDC) (rot ph (u_of y PA)) (rot ph (x_of y PA)) =
    rot ph (cscale (y VDC / 2) (Cx (Kp_GCC p * y (P PA CuR) + y (P PA CxR)) (Kp_GCC p * y (P PA CuI) + y (P PA CxI))))).
  { intros ph. destruct (rot_form ph (Cx 0 0)) as (c & _ & Hc & _). rewrite !Hc.
    unfold vt_calc, m_calc, u_of, x_of, cscale, cadd, cmul. destruct c as [c1 c2]. cbn [re im]. apply cx_eq; cbn [re im]; ring. }
  unfold sum3. rewrite !E. reflexivity.
Qed.

Lemma aw_toward sat d x : d * x <= 0 -> aw sat d x d * x <= 0.
Proof. intros H. unfold aw. destruct sat; [destruct (same_sign d x)|]; lra. Qed.
Lemma cabs_ge_re z : Rabs (re z) <= cabs z.
Proof. unfold cabs, cnorm2. rewrite <- (sqrt_Rsqr_abs (re z)). apply sqrt_le_1_alt. unfold Rsqr. nra. Qed.
Lemma cabs_ge_im z : Rabs (im z) <= cabs z.
Proof. unfold cabs, cnorm2. rewrite <- (sqrt_Rsqr_abs (im z)). apply sqrt_le_1_alt. unfold Rsqr. nra. Qed.
Lemma aw_sat d x : aw true d x d * x <= 0.
Proof. apply aw_dir. Qed.

(** * C123: the filter current *)
(** Along every run the current of each phase is bounded by the voltage across the
    filter over its resistance, and whatever is above that decays with the time
    constant L/R of the filter; the frequency plays no role. *)
Theorem C123_filter_current : forall p k ph E Y a b D,
  has_phase k ph -> 0 < Lf p -> 0 < Rf p -> 0 <= D -> run_between a b (rhs p k) E Y ->
  (forall t, a < t < b -> cabs (across p k (E t) (Y t) ph) <= D) ->
  forall t, a <= t <= b ->
  cabs (i_of (Y t) ph) <= D / Rf p + (cabs (i_of (Y a) ph) - D / Rf p) * exp (- (Rf p / Lf p * (t - a))).
Proof.
  intros p k ph E Y a b D Hp HL HR HD [HDer HC] HX t Ht.
  unfold cabs, cnorm2, i_of. cbn [re im].
  apply (damped_pair (Lf p) (Rf p) D (fun s => Y s (P ph CiR)) (fun s => Y s (P ph CiI))
           (fun s => re (across p k (E s) (Y s) ph)) (fun s => im (across p k (E s) (Y s) ph)) (fun s => omega p k (E s) (Y s)) a b); auto.
  - intros s Hs. rewrite <- (proj1 (rhs_current p k (E s) (Y s) ph Hp)). apply HDer; auto.
  - intros s Hs. rewrite <- (proj2 (rhs_current p k (E s) (Y s) ph Hp)). apply HDer; auto.
  - intros s Hs. pose proof (HX s Hs) as Q. change (cnorm2 (across p k (E s) (Y s) ph) <= D * D). rewrite <- cabs_sq.
    apply Rmult_le_compat; auto; apply cabs_nonneg.
Qed.
Print Assumptions C123_filter_current.

(** With no voltage across the filter the current decays exactly exponentially. *)
Theorem C123_free_decay : forall p k ph E Y a b,
  has_phase k ph -> 0 < Lf p -> run_between a b (rhs p k) E Y ->
  (forall t, a < t < b -> across p k (E t) (Y t) ph = Cx 0 0) ->
  forall t, a <= t <= b ->
  cabs (i_of (Y t) ph) = cabs (i_of (Y a) ph) * exp (- (Rf p / Lf p * (t - a))).
Proof.
  intros p k ph E Y a b Hp HL [HDer HC] HX t Ht.
  destruct (Req_dec a t) as [<-|Hne].
  { rewrite Rminus_eq_0, Rmult_0_r, Ropp_0, exp_0. lra. }
  assert (Hat : a < t) by lra.
  set (kk := Rf p / Lf p). set (r := fun s => Y s (P ph CiR)). set (q := fun s => Y s (P ph CiI)).
  set (h := fun s => (r s * r s + q s * q s) * exp (2 * kk * s)).
  assert (Dh : forall s, a < s < t -> is_derive h s 0).
  { intros s Hs. assert (Hs' : a < s < b) by lra.
    pose proof (HDer s (P ph CiR) Hs') as D1. pose proof (HDer s (P ph CiI) Hs') as D2.
    rewrite (proj1 (rhs_current p k (E s) (Y s) ph Hp)), HX in D1 by auto.
    rewrite (proj2 (rhs_current p k (E s) (Y s) ph Hp)), HX in D2 by auto. cbn [re im] in D1, D2. fold r in D1. fold q in D2.
    assert (De : is_derive (fun s => exp (2 * kk * s)) s (2 * kk * exp (2 * kk * s))) by (auto_derive; auto; ring).
    unfold h. evar_last.
    - apply (is_derive_mult (fun s => r s * r s + q s * q s) (fun s => exp (2 * kk * s))); [|exact De|intros; apply Rmult_comm].
      apply (is_derive_plus (V := R_NormedModule) (fun s => r s * r s) (fun s => q s * q s)).
      + apply (is_derive_mult r r); [exact D1|exact D1|intros; apply Rmult_comm].
      + apply (is_derive_mult q q); [exact D2|exact D2|intros; apply Rmult_comm].
    - unfold plus, mult. simpl. unfold kk, r, q. field. lra. }
  assert (Ch : forall s, a <= s <= t -> continuous h s).
  { intros s Hs. unfold h. apply (continuous_mult (fun s => r s * r s + q s * q s) (fun s => exp (2 * kk * s))).
    - apply (continuous_plus (V := R_NormedModule) (fun s => r s * r s) (fun s => q s * q s)).
      + apply (continuous_mult r r); apply HC; lra.
      + apply (continuous_mult q q); apply HC; lra.
    - apply (ex_derive_continuous (V := R_NormedModule) (fun s => exp (2 * kk * s))). auto_derive. auto. }
  destruct (mean_value h (fun _ => 0) a t Hat Dh Ch) as (s & _ & Eq). rewrite Rmult_0_l in Eq.
  assert (N : r t * r t + q t * q t = (r a * r a + q a * q a) * (exp (- (kk * (t - a))) * exp (- (kk * (t - a))))).
  { unfold h in Eq. pose proof (exp_pos (2 * kk * t)) as Pt. apply (Rmult_eq_reg_r (exp (2 * kk * t))); [|lra].
    cbv beta in Eq. apply Rminus_diag_uniq in Eq. rewrite Eq.
    replace (2 * kk * a) with (- (kk * (t - a)) + - (kk * (t - a)) + 2 * kk * t) by ring. rewrite !exp_plus. ring. }
  unfold cabs, cnorm2, i_of. cbn [re im]. fold (r t) (q t) (r a) (q a). rewrite N.
  pose proof (exp_pos (- (kk * (t - a)))) as Pe.
  rewrite sqrt_mult; [|nra|nra]. rewrite sqrt_square; [reflexivity|lra].
Qed.
Print Assumptions C123_free_decay.

(** * C124: the filtered tracking error of the current controller *)
(** Along every run neither axis of the controller's error signal exceeds the largest
    tracking error of that axis (or its own starting value), saturated or not. *)
Theorem C124_error_signal : forall p k ph E Y a b B,
  has_phase k ph -> 0 <= wp p -> run_between a b (rhs p k) E Y ->
  ((forall t, a < t < b -> Rabs (re (i_ref p k (E t) (Y t) ph) - re (i_of (Y t) ph)) <= B) ->
   Rabs (re (u_of (Y a) ph)) <= B -> forall t, a <= t <= b -> Rabs (re (u_of (Y t) ph)) <= B) /\
  ((forall t, a < t < b -> Rabs (im (i_ref p k (E t) (Y t) ph) - im (i_of (Y t) ph)) <= B) ->
   Rabs (im (u_of (Y a) ph)) <= B -> forall t, a <= t <= b -> Rabs (im (u_of (Y t) ph)) <= B).
Proof.
  assert (Key : forall B wp0 u r i : R, 0 <= wp0 -> Rabs (r - i) <= B -> B < Rabs u -> wp0 * (- u + r - i) * u <= 0).
  { intros B wp0 u r i Hw He Hu. unfold Rabs in He, Hu. destruct (Rcase_abs (r - i)), (Rcase_abs u); 
    rewrite Rmult_assoc; apply Rmult_le_0_l; auto; nra. }
  intros p k ph E Y a b B Hp Hw [HDer HC]. unfold i_of, u_of. cbn [re im]. split; intros HB H0.
  - apply (barrier_abs (fun s => Y s (P ph CuR)) (fun s => rhs p k (E s) (Y s) (P ph CuR))); auto.
    intros t Ht Hbig. destruct (rhs_inner p k (E t) (Y t) ph Hp) as (_ & _ & R & _). cbv zeta in R. rewrite R.
    apply aw_toward. apply (Key B); auto.
  - apply (barrier_abs (fun s => Y s (P ph CuI)) (fun s => rhs p k (E s) (Y s) (P ph CuI))); auto.
    intros t Ht Hbig. destruct (rhs_inner p k (E t) (Y t) ph Hp) as (_ & _ & _ & R). cbv zeta in R. rewrite R.
    apply aw_toward. apply (Key B); auto.
Qed.
Print Assumptions C124_error_signal.

(** * C53 along runs: wind-up is impossible *)
(** The integrators of the current controller never exceed the modulation limit plus
    the largest proportional part (or their starting value). *)
Theorem C53_inner_integrators_bounded_partial : forall p k ph E Y a b U X,
  has_phase k ph -> run_between a b (rhs p k) E Y -> m_limit p + Rabs (Kp_GCC p) * U <= X ->
  ((forall t, a < t < b -> Rabs (re (u_of (Y t) ph)) <= U) -> Rabs (re (x_of (Y a) ph)) <= X ->
   forall t, a <= t <= b -> Rabs (re (x_of (Y t) ph)) <= X) /\
  ((forall t, a < t < b -> Rabs (im (u_of (Y t) ph)) <= U) -> Rabs (im (x_of (Y a) ph)) <= X ->
   forall t, a <= t <= b -> Rabs (im (x_of (Y t) ph)) <= X).
Proof.
  intros p k ph E Y a b U X Hp [HDer HC] HX. unfold u_of, x_of. cbn [re im].
  assert (Sat : forall u x, Rabs u <= U -> X < Rabs x -> m_limit p < Rabs (Kp_GCC p * u + x)).
  { intros u x Hu Hx. assert (H : Rabs (Kp_GCC p * u) <= Rabs (Kp_GCC p) * U) by (rewrite Rabs_mult; apply Rmult_le_compat_l; auto; apply Rabs_pos).
    pose proof (Rabs_triang (Kp_GCC p * u + x) (- (Kp_GCC p * u))) as T. rewrite Rabs_Ropp in T.
    replace (Kp_GCC p * u + x + - (Kp_GCC p * u)) with x in T by ring. lra. }
  split; intros HU H0.
  - apply (barrier_abs (fun s => Y s (P ph CxR)) (fun s => rhs p k (E s) (Y s) (P ph CxR))); auto.
    intros t Ht Hbig. destruct (rhs_inner p k (E t) (Y t) ph Hp) as (R & _). cbv zeta in R. rewrite R.
    replace (rlt (m_limit p) (cabs (duty p (Y t) ph))) with true; [apply aw_sat|].
    symmetry. apply rlt_iff. eapply Rlt_le_trans; [apply (Sat (Y t (P ph CuR)) (Y t (P ph CxR))); auto|].
    apply (cabs_ge_re (duty p (Y t) ph)).
  - apply (barrier_abs (fun s => Y s (P ph CxI)) (fun s => rhs p k (E s) (Y s) (P ph CxI))); auto.
    intros t Ht Hbig. destruct (rhs_inner p k (E t) (Y t) ph Hp) as (_ & R & _). cbv zeta in R. rewrite R.
    replace (rlt (m_limit p) (cabs (duty p (Y t) ph))) with true; [apply aw_sat|].
    symmetry. apply rlt_iff. eapply Rlt_le_trans; [apply (Sat (Y t (P ph CuI)) (Y t (P ph CxI))); auto|].
    apply (cabs_ge_im (duty p (Y t) ph)).
Qed.
Print Assumptions C53_inner_integrators_bounded_partial.

(** Hence the duty cycle of each axis never exceeds its limit by more than twice the
    proportional part of the largest tracking error. *)
Theorem C53_modulation_bounded_partial : forall p k ph E Y a b B,
  has_phase k ph -> 0 <= wp p -> run_between a b (rhs p k) E Y ->
  (forall t, a < t < b -> Rabs (re (i_ref p k (E t) (Y t) ph) - re (i_of (Y t) ph)) <= B /\
                          Rabs (im (i_ref p k (E t) (Y t) ph) - im (i_of (Y t) ph)) <= B) ->
  Rabs (re (u_of (Y a) ph)) <= B -> Rabs (im (u_of (Y a) ph)) <= B ->
  Rabs (re (x_of (Y a) ph)) <= m_limit p + Rabs (Kp_GCC p) * B ->
  Rabs (im (x_of (Y a) ph)) <= m_limit p + Rabs (Kp_GCC p) * B ->
  forall t, a <= t <= b ->
  Rabs (re (duty p (Y t) ph)) <= m_limit p + 2 * Rabs (Kp_GCC p) * B /\
  Rabs (im (duty p (Y t) ph)) <= m_limit p + 2 * Rabs (Kp_GCC p) * B.
Proof.
  intros p k ph E Y a b B Hp Hw HR HB Hu1 Hu2 Hx1 Hx2 t Ht.
  destruct (C124_error_signal p k ph E Y a b B Hp Hw HR) as [A1 A2].
  assert (U1 : forall s, a <= s <= b -> Rabs (re (u_of (Y s) ph)) <= B) by (apply A1; auto; intros s Hs; apply HB; auto).
  assert (U2 : forall s, a <= s <= b -> Rabs (im (u_of (Y s) ph)) <= B) by (apply A2; auto; intros s Hs; apply HB; auto).
  destruct (C53_inner_integrators_bounded_partial p k ph E Y a b B (m_limit p + Rabs (Kp_GCC p) * B) Hp HR) as [X1 X2]; [lra|].
  assert (V1 : Rabs (re (x_of (Y t) ph)) <= m_limit p + Rabs (Kp_GCC p) * B) by (apply X1; auto; intros s Hs; apply U1; lra).
  assert (V2 : Rabs (im (x_of (Y t) ph)) <= m_limit p + Rabs (Kp_GCC p) * B) by (apply X2; auto; intros s Hs; apply U2; lra).
  specialize (U1 t Ht). specialize (U2 t Ht). unfold duty, u_of, x_of in *. cbn [re im] in *.
  assert (Z : forall u x, Rabs u <= B -> Rabs x <= m_limit p + Rabs (Kp_GCC p) * B -> Rabs (Kp_GCC p * u + x) <= m_limit p + 2 * Rabs (Kp_GCC p) * B).
  { intros u x H1 H2. eapply Rle_trans; [apply Rabs_triang|]. rewrite Rabs_mult. pose proof (Rabs_pos (Kp_GCC p)). nra. }
  split; apply Z; auto.
Qed.
Print Assumptions C53_modulation_bounded_partial.

(** The outer-loop integrators never exceed the current limit plus the largest
    proportional part of their own loop (or their starting value). *)
Theorem C53_outer_integrators_bounded_partial : forall p k E Y a b X,
  run_between a b (rhs p k) E Y ->
  ((forall t, a < t < b -> iref_limit p + Rabs (Kp_Q p * q_error p k (E t) (Y t)) <= X) -> Rabs (Y a XQ) <= X ->
   forall t, a <= t <= b -> Rabs (Y t XQ) <= X) /\
  ((forall t, a < t < b -> iref_limit p + Rabs (p_gain p k * p_error p k (E t) (Y t)) <= X) -> Rabs (Y a (p_state k)) <= X ->
   forall t, a <= t <= b -> Rabs (Y t (p_state k)) <= X).
Proof.
  assert (Tri : forall L X x w : R, L + Rabs w <= X -> X < Rabs x -> L < Rabs (x + w) /\ L < Rabs (x - w)).
  { intros L X x w H1 H2. split.
    - pose proof (Rabs_triang (x + w) (- w)) as T. rewrite Rabs_Ropp in T. replace (x + w + - w) with x in T by ring. lra.
    - pose proof (Rabs_triang (x - w) w) as T. replace (x - w + w) with x in T by ring. lra. }
  intros p k E Y a b X [HDer HC]. split; intros HB H0.
  - apply (barrier_abs (fun s => Y s XQ) (fun s => rhs p k (E s) (Y s) XQ)); auto.
    intros t Ht Hbig. destruct (rhs_outer p k (E t) (Y t)) as (R & _). cbv zeta in R. rewrite R.
    match goal with |- aw ?s _ _ _ * _ <= 0 => replace s with true; [apply aw_sat|] end.
    symmetry. apply rlt_iff. eapply Rlt_le_trans; [|apply cabs_ge_im]. cbn [im]. apply (Tri _ X); auto.
  - apply (barrier_abs (fun s => Y s (p_state k)) (fun s => rhs p k (E s) (Y s) (p_state k))); auto.
    intros t Ht Hbig. destruct (rhs_outer p k (E t) (Y t)) as (_ & K & R). cbv zeta in R. rewrite R.
    match goal with |- aw ?s _ _ _ * _ <= 0 => replace s with true; [apply aw_sat|] end.
    symmetry. apply rlt_iff. eapply Rlt_le_trans; [|apply cabs_ge_re]. cbn [re]. apply (Tri _ X); auto.
Qed.
Print Assumptions C53_outer_integrators_bounded_partial.

(** * C125: the DC link *)
(** The energy stored in the DC link changes by at most (least) the largest (smallest)
    surplus of power fed in over power converted, times the elapsed time. *)
Theorem C125_energy_partial : forall p k E Y a b lo hi,
  has_dc_link k -> 0 < Cdc p -> run_between a b (rhs p k) E Y -> (forall t, a <= t <= b -> Y t VDC <> 0) ->
  (forall t, a < t < b -> lo <= p_in p k (E t) (Y t) - re (S_term p k (E t) (Y t)) <= hi) ->
  forall t, a <= t <= b ->
  lo * (t - a) <= Cdc p / 2 * (Y t VDC) ^ 2 - Cdc p / 2 * (Y a VDC) ^ 2 <= hi * (t - a).
Proof.
  intros p k E Y a b lo hi Hk HC [HDer HCt] HV HP t Ht.
  destruct (Req_dec a t) as [<-|Hne]; [lra|]. assert (Hat : a < t) by lra.
  set (h := fun s => Cdc p / 2 * (Y s VDC * Y s VDC)).
  destruct (mean_value h (fun s => p_in p k (E s) (Y s) - re (S_term p k (E s) (Y s))) a t Hat) as (s & Hs & Eq).
  - intros s Hs. assert (Hs' : a < s < b) by lra. pose proof (HDer s VDC Hs') as D. rewrite rhs_dc in D by auto.
    assert (Hs2 : a <= s <= b) by lra. pose proof (HV s Hs2) as Hv. unfold h. evar_last.
    + apply is_derive_scal. apply (is_derive_mult (fun s => Y s VDC) (fun s => Y s VDC)); [exact D|exact D|intros; apply Rmult_comm].
    + unfold plus, mult. simpl. field. split; [lra|exact Hv].
  - intros s Hs. unfold h. apply (continuous_mult (fun _ => Cdc p / 2) (fun s => Y s VDC * Y s VDC)); [apply continuous_const|].
    apply (continuous_mult (fun s => Y s VDC) (fun s => Y s VDC)); apply HCt; lra.
  - assert (Hs' : a < s < b) by lra. specialize (HP s Hs'). unfold h in Eq. cbv beta in Eq. nra.
Qed.
Print Assumptions C125_energy_partial.

(** the array delivers no current at V volts or above: V is at least its open-circuit voltage *)
Definition at_least_open_circuit (m : pvm) (V : R) : Prop := forall V', V <= V' -> Ipv_val m V' <= 0.
(** While the inverter does not draw power from the grid the DC-link voltage does not
    rise above the open-circuit voltage of the array, provided the DC-voltage clamp
    Vdcmpp_max is not below the open-circuit voltage. *)
Theorem C125_ceiling_partial : forall p k E Y a b M,
  has_dc_link k -> 0 < Cdc p -> 0 < M -> 0 < Vdcbase p -> run_between a b (rhs p k) E Y ->
  (forall t, a < t < b -> at_least_open_circuit (e_mod (E t)) (M * Vdcbase p)) -> M * Vdcbase p <= Vdcmpp_max p ->
  (forall t, a < t < b -> 0 <= re (S_term p k (E t) (Y t))) -> Y a VDC <= M ->
  forall t, a <= t <= b -> Y t VDC <= M.
Proof.
  intros p k E Y a b M Hk HC HM HB [HDer HCt] HO Hclamp HS H0.
  apply (barrier (fun s => Y s VDC) (fun s => rhs p k (E s) (Y s) VDC)); auto.
  intros t Ht Hbig. rewrite rhs_dc by auto.
  assert (P0 : p_in p k (E t) (Y t) = 0).
  { unfold p_in. destruct (e_conn (E t)); [|reflexivity]. unfold Ppv_of, Ppv_val. rewrite Rmax_left; [unfold Sbase; lra|].
    assert (Vd : v_dc k (E t) (Y t) = Y t VDC) by (destruct k; try reflexivity; exfalso; exact Hk). rewrite Vd.
    assert (Vlow : M * Vdcbase p <= Vdc_actual (Vdcmpp_max p) (Vdcbase p) (Y t VDC)).
    { unfold Vdc_actual. apply Rmin_glb; auto. apply Rmult_le_compat_r; lra. }
    pose proof (HO t Ht _ Vlow). assert (0 < M * Vdcbase p) by (apply Rmult_lt_0_compat; auto). nra. }
  rewrite P0. specialize (HS t Ht). unfold Rdiv. rewrite Rmult_comm.
  assert (0 < / (Y t VDC * Cdc p)) by (apply Rinv_0_lt_compat; apply Rmult_lt_0_compat; lra). nra.
Qed.
Print Assumptions C125_ceiling_partial.

(** the voltage at which the current vanishes meets this definition *)
Lemma open_circuit_met m V : 0 < Np m -> 0 < Ns m -> 0 < Tactual m -> Ipv_val m V = 0 -> at_least_open_circuit m V.
Proof.
  intros H1 H2 H3 H0 V' HV. rewrite <- H0. unfold Ipv_val.
  assert (X : exp (q_charge * V / (k_boltz * Tactual m * A_ideal * Ns m)) <= exp (q_charge * V' / (k_boltz * Tactual m * A_ideal * Ns m))).
  { assert (K : 0 < k_boltz * Tactual m * A_ideal * Ns m).
    { apply Rmult_lt_0_compat; auto. apply Rmult_lt_0_compat; [|unfold A_ideal; lra]. apply Rmult_lt_0_compat; auto. unfold k_boltz. lra. }
    assert (Le : q_charge * V / (k_boltz * Tactual m * A_ideal * Ns m) <= q_charge * V' / (k_boltz * Tactual m * A_ideal * Ns m)).
    { unfold Rdiv. apply Rmult_le_compat_r; [left; apply Rinv_0_lt_compat; auto|]. apply Rmult_le_compat_l; auto. unfold q_charge. lra. }
    destruct Le as [Lt|Le]; [left; apply exp_increasing; auto|rewrite Le; lra]. }
  assert (0 < Np m * Irs) by (apply Rmult_lt_0_compat; auto; unfold Irs; lra). nra.
Qed.

(** * Runs on a bolted fault: no voltage at the PCC *)
Definition fault_env (m : pvm) (conn : bool) (Vr : R) (t : R) : env :=
  Env t 0 (Cx 0 0) (Cx 0 0) (Cx 0 0) None 0 Vr m conn 0.
Definition fault_state (i u x V : R) : st := fun v => match v with
  | P PA CiR => i | P PA CuR => u | P PA CxR => x | VDC => V | XPLL => - (2 * PI * 60) | _ => 0 end.
Lemma fault_rhs p m conn Vr t i u x V v :
  Kp_GCC p * u + x = 0 -> 0 <= m_limit p -> (conn = true -> Vr = V) ->
  ode1 p (fault_env m conn Vr t) (fault_state i u x V) v =
  match v with P PA CiR => - (Rf p * i) / Lf p | P PA CxR => Ki_GCC p * u | P PA CuR => wp p * (- u - i)
             | VDC => (if conn then Ppv_val m (Vdc_actual (Vdcmpp_max p) (Vdcbase p) V) else 0) / (V * Cdc p) | _ => 0 end.
Proof.
  intros Hm HL HV. set (e := fault_env m conn Vr t). set (y := fault_state i u x V).
  assert (Vd : vd1 p e y = 0).
  { unfold vd1, v_calc, e, fault_env. cbn [e_grid e_va e_wgrid e_t].
    destruct (C47_pll_error 0 0 0 t (y WTE)) as [_ H]. replace (crect 0 0) with (Cx 0 0) in H; [rewrite H; ring|].
    unfold crect, cscale. apply cx_eq; cbn [re im]; ring. }
  assert (MC : m_calc p (u_of y PA) (x_of y PA) = Cx 0 0).
  { unfold m_calc, u_of, x_of, cadd, cscale, y. cbn [re im fault_state]. apply cx_eq; cbn [re im]; lra. }
  assert (MS : m_sat p (u_of y PA) (x_of y PA) = false).
  { unfold m_sat. rewrite MC. apply rlt_false. unfold cabs, cnorm2. cbn [re im]. rewrite Rmult_0_l, Rplus_0_l, sqrt_0. auto. }
  assert (VT : vt_calc p (y VDC) (u_of y PA) (x_of y PA) = Cx 0 0).
  { unfold vt_calc. rewrite MC. unfold cscale. cbn [re im]. apply cx_eq; cbn [re im]; ring. }
  assert (SI : S1_inv p y = Cx 0 0).
  { unfold S1_inv. rewrite VT. unfold S_ph, cscale, cmul, conj. destruct (i_of y PA) as [ir ii]. cbn [re im]. apply cx_eq; cbn [re im]; ring. }
  assert (SP : S1_pcc p e y = Cx 0 0).
  { unfold S1_pcc, v_calc, e, fault_env. cbn [e_grid e_va]. unfold S_ph, cscale, cmul, conj. destruct (i_of y PA) as [ir ii]. cbn [re im]. apply cx_eq; cbn [re im]; ring. }
  assert (VE : conn = true -> e_Vdcref e = y VDC) by (intros C; unfold e, y, fault_env; cbn [e_Vdcref fault_state]; auto).
  assert (IR : eff_iref e (iref1 p e y) = Cx 0 0).
  { unfold eff_iref, e, fault_env. cbn [e_conn]. destruct conn; [|reflexivity]. fold (fault_env m true Vr t). unfold e in *.
    unfold iref1. rewrite SP. unfold ia_ref_calc. rewrite (VE eq_refl). unfold y. cbn [re im fault_state e_Qref fault_env]. apply cx_eq; cbn [re im]; ring. }
  assert (EV : eff_Vref e (y VDC) - y VDC = 0).
  { unfold eff_Vref, e, fault_env. cbn [e_conn]. destruct conn; [|ring]. unfold e in VE. rewrite <- (VE eq_refl). cbn [e_Vdcref fault_env]. ring. }
  assert (EQ : eff_Qref e = 0) by (unfold eff_Qref, e, fault_env; cbn [e_conn e_Qref]; destruct conn; reflexivity).
  assert (WE : we_calc (Kp_PLL p) (vd1 p e y) (y XPLL) = 0) by (rewrite Vd; unfold we_calc, y; cbn [fault_state]; ring).
  assert (VC : v_calc p e PA (i_of y PA) = Cx 0 0) by reflexivity.
  unfold ode1. rewrite WE. cbv zeta.
  destruct v as [k c| | | | | | |]; try reflexivity.
  - destruct k; try reflexivity.
    destruct c; cbn [d_comp]; unfold di_re, di_im, dx_re, dx_im, du_re, du_im, aw, u_err; rewrite ?MS, ?VT, ?IR, ?VC;
      unfold i_of, x_of, u_of; cbn [re im]; unfold y; cbn [fault_state]; unfold Rdiv; ring.
  - rewrite SI. unfold dVdc, eff_Ppv. cbn [re]. unfold Ppv_of, e, fault_env, y. cbn [e_conn e_mod fault_state]. rewrite Rminus_0_r. reflexivity.
  - unfold dxDC. rewrite EV, Rmult_0_r. apply aw_zero0.
  - rewrite SP. unfold dxQ. rewrite EQ. cbn [im]. rewrite Rminus_eq_0, Rmult_0_r. apply aw_zero0.
  - rewrite Vd. lra.
Qed.

(** Non-vacuity of C123, C124 and the bounds of C53: the fault current of a
    disconnected DER decays; its duty cycle is zero throughout. *)
Definition decay_prm : prm :=
  Prm 1 1 1 1 1 2 1 1 1 1 1 1 1 1 1 1 1 1 1000 (Cx 0 0) 1.
Definition decay_run (t : R) : st := fault_state (exp (- t)) (-2 * exp (- t)) (2 * exp (- t)) 2.
Lemma decay_run_ok m b : 0 < b ->
  run_between 0 b (rhs decay_prm SinglePhase) (fault_env m false 0) decay_run.
Proof.
  intros Hb.
  assert (D : forall t v, is_derive (fun s => decay_run s v) t (rhs decay_prm SinglePhase (fault_env m false 0 t) (decay_run t) v)).
  { intros t v. cbn [rhs]. unfold decay_run at 2. rewrite fault_rhs; [|cbn; ring|cbn; lra|discriminate].
    destruct v as [[| |] [| | | | |]| | | | | | |]; unfold decay_run; cbn [fault_state decay_prm Rf Lf Ki_GCC wp Cdc]; unfold Rdiv; rewrite ?Rmult_0_l;
      try apply @is_derive_const; (auto_derive; [auto|lra]). }
  split; [intros t v _; apply D|]. intros t v _. apply (ex_derive_continuous (V := R_NormedModule) (fun s => decay_run s v)). eexists. apply D.
Qed.
Example C123_hypotheses_met : forall m,
  run_between 0 5 (rhs decay_prm SinglePhase) (fault_env m false 0) decay_run /\ has_phase SinglePhase PA /\ 0 < Lf decay_prm /\ 0 < Rf decay_prm /\
  (forall t, across decay_prm SinglePhase (fault_env m false 0 t) (decay_run t) PA = Cx 0 0) /\
  cabs (i_of (decay_run 0) PA) = 1.
Proof.
  intros m. split; [apply decay_run_ok; lra|]. split; [reflexivity|]. split; [cbn; lra|]. split; [cbn; lra|]. split.
  - intros t. unfold across, v_term, duty, v_dc, csub, cadd, cneg, cscale, v_calc, decay_run. cbn. apply cx_eq; cbn; field.
  - unfold cabs, cnorm2, i_of, decay_run. cbn. rewrite Ropp_0, exp_0. replace (1 * 1 + 0 * 0) with 1 by ring. apply sqrt_1.
Qed.
Example C124_hypotheses_met : forall m,
  run_between 0 5 (rhs decay_prm SinglePhase) (fault_env m false 0) decay_run /\ 0 <= wp decay_prm /\
  (forall t, 0 < t < 5 -> Rabs (re (i_ref decay_prm SinglePhase (fault_env m false 0 t) (decay_run t) PA) - re (i_of (decay_run t) PA)) <= 2 /\ Rabs (im (i_ref decay_prm SinglePhase (fault_env m false 0 t) (decay_run t) PA) - im (i_of (decay_run t) PA)) <= 2) /\
  Rabs (re (u_of (decay_run 0) PA)) = 2 /\ Rabs (im (u_of (decay_run 0) PA)) <= 2 /\
  Rabs (re (x_of (decay_run 0) PA)) <= m_limit decay_prm + Rabs (Kp_GCC decay_prm) * 2 /\
  Rabs (im (x_of (decay_run 0) PA)) <= m_limit decay_prm + Rabs (Kp_GCC decay_prm) * 2.
Proof.
  intros m. split; [apply decay_run_ok; lra|]. split; [cbn; lra|].
  assert (X : forall t, 0 < t -> exp (- t) <= 1) by (intros t Ht; rewrite <- exp_0; left; apply exp_increasing; lra).
  split.
  - intros t Ht. unfold i_ref, i_of, decay_run. cbn. pose proof (exp_pos (- t)). specialize (X t (proj1 Ht)).
    split; [rewrite Rabs_left; lra|rewrite Rminus_eq_0, Rabs_R0; lra].
  - unfold u_of, x_of, decay_run. cbn. rewrite Ropp_0, exp_0, Rmult_1_r, Rabs_R0, Rabs_R1, Rabs_left by lra.
    rewrite (Rabs_right (2 * 1)) by lra. repeat split; lra.
Qed.
Example C53_bounds_hypotheses_met : forall m,
  run_between 0 5 (rhs decay_prm SinglePhase) (fault_env m false 0) decay_run /\
  (forall t, 0 < t < 5 -> iref_limit decay_prm + Rabs (Kp_Q decay_prm * q_error decay_prm SinglePhase (fault_env m false 0 t) (decay_run t)) <= 1) /\
  (forall t, 0 < t < 5 -> iref_limit decay_prm + Rabs (p_gain decay_prm SinglePhase * p_error decay_prm SinglePhase (fault_env m false 0 t) (decay_run t)) <= 1).
Proof.
  intros m. split; [apply decay_run_ok; lra|]. split; intros t _.
  - unfold q_error, S_pcc, S_ph, v_calc, cscale, cmul, conj. cbn.
    match goal with |- 1 + Rabs ?x <= 1 => replace x with 0 by ring end. rewrite Rabs_R0. lra.
  - unfold p_error. cbn. match goal with |- 1 + Rabs ?x <= 1 => replace x with 0 by ring end. rewrite Rabs_R0. lra.
Qed.

(** ** Without the proviso on the clamp the ceiling fails *)
(** Above the clamp the PV power no longer depends on the DC voltage. *)
Lemma C125_clamped_power p e V : Vdcmpp_max p <= V * Vdcbase p -> Ppv_of p e V = Ppv_val (e_mod e) (Vdcmpp_max p).
Proof. intros H. unfold Ppv_of, Vdc_actual. rewrite Rmin_left; auto. Qed.
(** the array of the shipped 10 kVA single-phase inverter (templates.py:20) at 25 degrees and
    full insolation, and its clamp Vdcmpp_max = 800 V *)
Definition array_10 : pvm := PVM 2 1000 100 (29815/100).
Lemma exp_163 : exp (163/10) <= 62000000.
Proof.
  pose proof exp_le_3 as X. pose proof (exp_pos 1) as Y.
  assert (E16 : exp 16 <= 43046721).
  { replace 16 with (1+1+1+1+1+1+1+1+(1+1+1+1+1+1+1+1)) by ring. rewrite !exp_plus. set (e := exp 1) in *. clearbody e.
    assert (e * e <= 9) by nra. assert (0 <= e * e) by nra.
    assert (e * e * (e * e) <= 81) by nra. assert (0 <= e * e * (e * e)) by nra.
    assert (Q : e*e*(e*e)*(e*e*(e*e)) <= 6561) by nra.
    assert (Q0 : 0 <= e*e*(e*e)*(e*e*(e*e))) by nra.
    replace (e * e * e * e * e * e * e * e * (e * e * e * e * e * e * e * e)) with ((e*e*(e*e)*(e*e*(e*e)))*(e*e*(e*e)*(e*e*(e*e)))) by ring. nra. }
  assert (E3 : exp (3/10) <= 10/7).
  { pose proof (exp_ineq1_le (-(3/10))) as L. rewrite exp_Ropp in L. pose proof (exp_pos (3/10)) as P.
    apply (Rmult_le_compat_r (exp (3/10))) in L; [|lra]. rewrite Rinv_l in L by lra. lra. }
  replace (163/10) with (16 + 3/10) by lra. rewrite exp_plus. pose proof (exp_pos (3/10)). pose proof (exp_pos 16). nra.
Qed.
Lemma array_current_at_clamp : 0 < Ipv_val array_10 800.
Proof.
  unfold Ipv_val, Iph_calc, array_10, Iscr, Kv, T0, Irs, q_charge, k_boltz, A_ideal. cbn [Np Ns Sinsol Tactual].
  match goal with |- context [exp ?z] => assert (H : exp z <= exp (163/10)) by (left; apply exp_increasing; lra) end.
  pose proof exp_163. lra.
Qed.
(** its open-circuit voltage is below 2000 V *)
Lemma array_open_circuit : at_least_open_circuit array_10 2000.
Proof.
  assert (Q : Ipv_val array_10 2000 <= 0).
  { unfold Ipv_val, Iph_calc, array_10, Iscr, Kv, T0, Irs, q_charge, k_boltz, A_ideal. cbn [Np Ns Sinsol Tactual].
    match goal with |- context [exp ?z] => assert (H : exp 40 <= exp z) by (left; apply exp_increasing; lra) end.
    assert (H2 : 100000000 <= exp 40).
    { pose proof (exp_ineq1_le 1) as L1. pose proof (exp_pos 1).
      assert (L : 16 <= exp 4) by (replace 4 with (1+1+1+1) by ring; rewrite !exp_plus; set (e := exp 1) in *; clearbody e;
        assert (4 <= e * e) by nra; replace (e*e*e*e) with ((e*e)*(e*e)) by ring; nra).
      replace 40 with (4+4+4+4+4+(4+4+4+4+4)) by ring. rewrite !exp_plus. set (e := exp 4) in *. clearbody e.
      assert (256 <= e * e) by nra. assert (65536 <= (e*e)*(e*e)) by nra. assert (Q5 : 1048576 <= e*e*e*e*e) by nra.
      nra. }
    lra. }
  intros V' HV. eapply Rle_trans; [|exact Q].
  unfold Ipv_val. cbn [array_10 Np Ns Sinsol Tactual].
  match goal with |- _ - _ * (exp ?x - 1) <= _ - _ * (exp ?y - 1) => assert (L : exp y <= exp x) end.
  { assert (Le : q_charge * 2000 / (k_boltz * (29815 / 100) * A_ideal * 1000) <= q_charge * V' / (k_boltz * (29815 / 100) * A_ideal * 1000)).
    { unfold q_charge, k_boltz, A_ideal. lra. }
    destruct Le as [Lt|Le]; [left; apply exp_increasing; auto|rewrite Le; lra]. }
  unfold Irs. lra.
Qed.
Definition clamp_prm : prm :=
  Prm 1 1 1 1 1 2 1 1 1 1 1 1 1 1 1 1 1 500 800 (Cx 0 0) 1.
Definition clamp_V (t : R) : R := sqrt (256/100 + 2 * Ppv_val array_10 800 * t).
Definition clamp_run (t : R) : st := fault_state 0 0 0 (clamp_V t).
Lemma clamp_power_pos : 0 < Ppv_val array_10 800.
Proof.
  unfold Ppv_val, Sbase. pose proof array_current_at_clamp. rewrite Rmax_right by lra. apply Rdiv_lt_0_compat; lra.
Qed.
Lemma clamp_V_ge t : 0 <= t -> 16/10 <= clamp_V t.
Proof.
  intros Ht. unfold clamp_V. replace (16/10) with (sqrt (16/10 * (16/10))) at 1 by (apply sqrt_square; lra). apply sqrt_le_1_alt. pose proof clamp_power_pos. nra.
Qed.
(** While the inverter is connected and converts nothing, the DC-link voltage of the
    shipped array rises from 800 V, where the array still delivers current (below its
    open-circuit voltage), past every value. *)
Theorem C125_ceiling_refuted : forall M, exists E Y b,
  0 < b /\ run_between 0 b (rhs clamp_prm SinglePhase) E Y /\
  (forall t, e_conn (E t) = true /\ e_mod (E t) = array_10 /\ at_least_open_circuit (e_mod (E t)) 2000) /\
  (forall t, re (S_term clamp_prm SinglePhase (E t) (Y t)) = 0) /\ Y 0 VDC * Vdcbase clamp_prm = 800 /\ 0 < Ipv_val array_10 800 /\ M < Y b VDC * Vdcbase clamp_prm.
Proof.
  intros M. pose proof clamp_power_pos as HP. set (c := Ppv_val array_10 800) in *.
  set (b := (Rabs M + 1) ^ 2 / c + 1).
  assert (Hb : 0 < b) by (unfold b; pose proof (Rabs_pos M); assert (0 <= (Rabs M + 1) ^ 2 / c) by (apply Rmult_le_pos; [nra|left; apply Rinv_0_lt_compat; auto]); lra).
  exists (fun t => fault_env array_10 true (clamp_V t) t), clamp_run, b. split; [auto|]. split.
  { assert (D : forall t v, - (128/100 / c) < t -> 800 <= clamp_V t * 500 -> is_derive (fun s => clamp_run s v) t
       (rhs clamp_prm SinglePhase (fault_env array_10 true (clamp_V t) t) (clamp_run t) v)).
    { intros t v Ht HV. cbn [rhs]. unfold clamp_run at 2. rewrite fault_rhs; [|cbn; ring|cbn; lra|reflexivity].
      assert (Hpos : 0 < 256/100 + 2 * c * t).
      { apply (Rmult_lt_compat_l (2 * c)) in Ht; [|lra]. replace (2 * c * - (128/100 / c)) with (-(256/100)) in Ht by (field; lra). lra. }
      destruct v as [[| |] [| | | | |]| | | | | | |]; unfold clamp_run; cbn [fault_state clamp_prm Rf Lf Ki_GCC wp Cdc Vdcmpp_max Vdcbase];
        try (evar_last; [apply @is_derive_const|unfold zero; simpl; field]); try apply @is_derive_const.
      unfold Vdc_actual. rewrite Rmin_left by auto. fold c. unfold clamp_V. fold c.
      evar_last.
      - apply (is_derive_sqrt (fun s => 256/100 + 2 * c * s)); [|exact Hpos]. auto_derive; auto.
      - cbv beta. pose proof (sqrt_lt_R0 _ Hpos). field. lra. }
    assert (Hneg : - (128/100 / c) < 0) by (assert (0 < 128/100 / c) by (apply Rdiv_lt_0_compat; lra); lra).
    assert (D' : forall t v, 0 <= t -> is_derive (fun s => clamp_run s v) t
       (rhs clamp_prm SinglePhase (fault_env array_10 true (clamp_V t) t) (clamp_run t) v)).
    { intros t v Ht. apply D; [lra|]. pose proof (clamp_V_ge t Ht). lra. }
    split; [intros t v Ht; apply D'; lra|]. intros t v Ht. apply (ex_derive_continuous (V := R_NormedModule) (fun s => clamp_run s v)). eexists. apply D'; lra. }
  split; [intros t; repeat split; apply array_open_circuit|].
  split; [intros t; unfold S_term, v_term, duty, S_ph, cscale, cmul, conj, clamp_run, i_of; cbn; ring|].
  split; [unfold clamp_run, clamp_V; cbn; rewrite Rmult_0_r, Rplus_0_r; replace (256/100) with (16/10 * (16/10)) by field; rewrite sqrt_square; lra|].
  split; [apply array_current_at_clamp|].
  unfold clamp_run. cbn [fault_state clamp_prm Vdcbase]. unfold clamp_V. fold c.
  assert (Hs : Rabs M + 1 <= sqrt (256/100 + 2 * c * b)).
  { pose proof (Rabs_pos M). rewrite <- (sqrt_square (Rabs M + 1)) at 1 by lra. apply sqrt_le_1_alt. unfold b.
    replace (256/100 + 2 * c * ((Rabs M + 1) ^ 2 / c + 1)) with (256/100 + 2 * (Rabs M + 1) ^ 2 + 2 * c) by (field; lra). nra. }
  pose proof (Rle_abs M). pose proof (Rabs_pos M). lra.
Qed.
Print Assumptions C125_ceiling_refuted.

(** hypotheses of the positive part: the same run with a clamp of 2000 V has a ceiling *)
Example C125_hypotheses_met :
  has_dc_link SinglePhase /\ run_between 0 5 (rhs decay_prm SinglePhase) (fault_env array_10 false 0) decay_run /\
  (forall t, 0 < t < 5 -> at_least_open_circuit (e_mod (fault_env array_10 false 0 t)) 2000) /\
  (forall t, 0 < t < 5 -> 0 <= p_in decay_prm SinglePhase (fault_env array_10 false 0 t) (decay_run t) - re (S_term decay_prm SinglePhase (fault_env array_10 false 0 t) (decay_run t)) <= 0) /\
  (forall t, decay_run t VDC = 2).
Proof.
  split; [exact I|]. split; [apply decay_run_ok; lra|]. split; [intros; apply array_open_circuit|]. split; [|reflexivity].
  intros t _. unfold p_in, S_term, v_term, duty, S_ph, cscale, cmul, conj, i_of, decay_run. cbn.
  match goal with |- 0 <= ?x <= 0 => replace x with 0 by field end. lra.
Qed.
