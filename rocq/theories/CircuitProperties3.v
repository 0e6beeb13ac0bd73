(** C51 example trajectory, C60 base values, C71 balanced model, C72 per-unit time
    scaling. *)
From Coquelicot Require Import Coquelicot.
From Verif Require Import RBase CxField PhasorModel PVModel ODEModel PhasorProperties PhasorProperties2 PVProperties CircuitProperties2.
Import RBase.
Open Scope R_scope.

(** ** A concrete trajectory (steady export of 1/2 per unit): the hypotheses of
    C51_energy_balance_single_phase are met by a non-trivial execution. *)
Section Example_trajectory.
Let zx := q_charge * 2 / (k_boltz * 300 * A_ideal * 1000).
Let cur1 := (803/100 + 17/10000 * (300 - (27315/100+25))) - 12/100000000 * (exp zx - 1).
Let p := Prm 1 1 1 1 1 1 10 1 1 1 1 1 1 10 1 1 1 1 10 (Cx 1 2) 72.
Let e (t : R) := Env t (2 * PI * 60) (crect 1 0) (Cx 0 0) (Cx 0 0) None 0 2 (PVM (50000 / (2 * cur1)) 1000 100 300) true 0.
Let Y (t : R) : st := fun v => match v with
  P PA CiR => 1 | P PA CxR => 2 | P PA CxI => 1 | VDC => 2 | XDC => 1 | WTE => 2 * PI * 60 * t | _ => 0 end.
Lemma cur1_pos : 1 < cur1.
Proof.
  unfold cur1. assert (zx <= 1) by (unfold zx, q_charge, k_boltz, A_ideal; lra).
  pose proof (PVProperties.exp_le _ _ H). pose proof exp_le_3. lra.
Qed.
Lemma example_rhs t v : ode1 p (e t) (Y t) v = match v with WTE => 2 * PI * 60 | _ => 0 end.
Proof.
  pose proof cur1_pos as CP. pose proof PI_RGT_0 as PP.
  assert (VD : vd1 p (e t) (Y t) = 0).
  { unfold vd1, v_calc, e. cbn [e_grid e_va e_wgrid e_t Y]. rewrite (proj2 (C47_pll_error 1 0 (2 * PI * 60) t (2 * PI * 60 * t))).
    replace (2 * PI * 60 * t + 0 - 2 * PI * 60 * t) with 0 by ring. rewrite sin_0. ring. }
  assert (VA : crect 1 0 = Cx 1 0).
  { unfold crect, cscale, cexp. cbn [re im]. rewrite cos_0, sin_0. apply cx_eq; cbn; ring. }
  assert (SP : S1_pcc p (e t) (Y t) = Cx (1/2) 0).
  { unfold S1_pcc, v_calc, e, i_of. cbn [e_grid e_va Y]. rewrite VA. unfold S_ph, cscale, cmul, conj. cbn [re im]. apply cx_eq; cbn [re im]; ring. }
  assert (MS : m_sat p (u_of (Y t) PA) (x_of (Y t) PA) = false).
  { unfold m_sat. apply rlt_false. unfold cabs. change (m_limit p) with 10. rewrite <- (sqrt_square 10) by lra. apply sqrt_le_1_alt.
    unfold cnorm2, m_calc, cadd, cscale, u_of, x_of. cbn. lra. }
  assert (IR : iref1 p (e t) (Y t) = Cx 1 0).
  { unfold iref1. rewrite SP. unfold ia_ref_calc. cbn. apply cx_eq; cbn; ring. }
  assert (IT : iref1_test p (e t) (Y t) = Cx 1 0) by (rewrite <- IR; reflexivity).
  assert (IS : i_sat p (Cx 1 0) = false).
  { unfold i_sat. apply rlt_false. unfold cabs. change (iref_limit p) with 10. rewrite <- (sqrt_square 10) by lra. apply sqrt_le_1_alt.
    unfold cnorm2. cbn. lra. }
  assert (WI : we_calc (Kp_PLL p) (vd1 p (e t) (Y t)) (Y t XPLL) = 2 * PI * 60) by (rewrite VD; unfold we_calc; cbn; ring).
  unfold ode1. rewrite WI. cbv zeta.
  assert (WW : 2 * PI * 60 / wbase = 1) by (unfold wbase; field; lra).
  destruct v as [k c| | | | | | |]; try reflexivity.
  - destruct k; try reflexivity.
    destruct c; cbn [d_comp]; unfold di_re, di_im, dx_re, dx_im, du_re, du_im, aw, u_err; rewrite ?MS, ?WW;
      unfold eff_iref; change (e_conn (e t)) with true; cbv iota; rewrite ?IR;
      unfold v_calc, e; cbn [e_grid e_va]; rewrite ?VA; unfold vt_calc, m_calc, cscale, cadd, i_of, x_of, u_of; cbn; field.
  - unfold dVdc, S1_inv, eff_Ppv. change (e_conn (e t)) with true. cbv iota.
    assert (PPV : Ppv_of p (e t) (Y t VDC) = 1).
    { unfold Ppv_of, Ppv_val, Vdc_actual. cbn [Y Vdcmpp_max Vdcbase p e e_mod].
      rewrite Rmin_right by lra. replace (2 * 1) with 2 by ring.
      assert (I : Ipv_val (PVM (50000 / (2 * cur1)) 1000 100 300) 2 = 25000).
      { unfold Ipv_val, Iph_calc. cbn [Np Ns Sinsol Tactual]. fold zx. unfold Iscr, Kv, T0, Irs.
        assert (EC : cur1 = (803 / 100 + 17 / 10000 * (300 - (27315 / 100 + 25))) * (100 / 100) - 12 / 100000000 * (exp zx - 1)) by (unfold cur1; field).
        set (N := 50000 / (2 * cur1)). transitivity (N * cur1); [rewrite EC; clearbody N; ring|]. unfold N. field. lra. }
      rewrite I. rewrite Rmax_right by lra. unfold Sbase. field. }
    rewrite PPV. unfold S_ph, vt_calc, m_calc, cscale, cadd, cmul, conj, i_of, x_of, u_of. cbn. field.
  - unfold dxDC. change (ia_ref_calc _ _ _ _ _ _ _) with (iref1_test p (e t) (Y t)). rewrite IT, IS. unfold aw, eff_Vref. cbn. ring.
  - unfold dxQ. rewrite IT, IS. unfold aw, eff_Qref. rewrite SP. cbn. ring.
  - rewrite VD. cbn. ring.
Qed.
Lemma example_trajectory : trajectory (ode1 p) e Y /\ Lf p <> 0 /\ Cdc p <> 0 /\ (forall t, Y t VDC <> 0).
Proof.
  split; [|cbn; repeat split; intros; lra]. intros t v. rewrite example_rhs.
  destruct v as [k c| | | | | | |]; try (destruct k; destruct c); cbn [Y]; try apply @is_derive_const.
  evar_last; [apply (is_derive_scal (fun s => s) t (2 * PI * 60)); apply is_derive_id|]. apply Rmult_1_r.
Qed.
End Example_trajectory.
Example C51_hypotheses_met :
  exists p E Y, trajectory (ode1 p) E Y /\ Lf p <> 0 /\ Cdc p <> 0 /\ (forall t, Y t VDC <> 0) /\
    re (S1_pcc p (E 0) (Y 0)) = 1/2.
Proof.
  do 3 eexists. pose proof example_trajectory as (A & B & C & D). split; [exact A|]. split; [exact B|]. split; [exact C|]. split; [exact D|].
  unfold S1_pcc, v_calc, i_of, S_ph, crect, cscale, cmul, conj, cexp. cbn. rewrite cos_0, sin_0. field.
Qed.

(** * C60: base values (grid_components.py:10-21) *)
Definition Vbase_ : R := 500.
Definition Ibase_ : R := Sbase / Vbase_.
Definition Zbase_ : R := Vbase_ ^ 2 / Sbase.
Definition Lbase_ : R := Zbase_ / wbase.
Definition Cbase_ : R := 1 / (Zbase_ * wbase).
Theorem C60_base_values_consistent :
  Vbase_ * Ibase_ = Sbase /\ Vbase_ = Zbase_ * Ibase_ /\ wbase * Lbase_ = Zbase_ /\ wbase * Cbase_ * Zbase_ = 1 /\
  0 < Ibase_ /\ 0 < Zbase_ /\ 0 < Lbase_ /\ 0 < Cbase_ /\
  (* Ohm's law, complex power and reactances agree in per unit and in physical units *)
  (forall z i, cscale Vbase_ (cmul z i) = cmul (cscale Zbase_ z) (cscale Ibase_ i)) /\
  (forall v i, cscale Sbase (S_ph v i) = S_ph (cscale Vbase_ v) (cscale Ibase_ i)) /\
  (forall l_actual, l_actual * wbase / Zbase_ = l_actual / Lbase_).
Proof.
  pose proof PI_RGT_0 as HP. unfold Ibase_, Lbase_, Cbase_, Zbase_, Vbase_, Sbase, wbase.
  assert (W : 0 < 2 * PI * 60) by lra. set (w := 2 * PI * 60) in *. clearbody w.
  assert (Z : 0 < 500 ^ 2 / 50000) by lra.
  split; [field|]. split; [field|]. split; [field; lra|]. split; [field; lra|].
  split; [lra|]. split; [lra|]. split; [apply Rdiv_lt_0_compat; lra|].
  split; [apply Rdiv_lt_0_compat; [lra|apply Rmult_lt_0_compat; lra]|].
  split; [intros [z1 z2] [i1 i2]; apply cx_eq; unfold cscale, cmul; cbn [re im]; field|].
  split; [intros [v1 v2] [i1 i2]; apply cx_eq; unfold S_ph, cscale, cmul, conj; cbn [re im]; field|].
  intros; field; lra.
Qed.
Print Assumptions C60_base_values_consistent.

(** * C72: per-unit dynamics against the physical circuit.
    Physical equations in volts, amperes, seconds: L di/dt = vt - v - R i - j w L i and
    C Vdc dVdc/dt = P, with every quantity the per-unit one times its base. *)
Definition physical_filter (R_ L_ w : R) (i_ v_ vt_ di_ : cx) : Prop :=
  cscale L_ di_ = csub (csub (csub vt_ v_) (cscale R_ i_)) (cmul (Cx 0 (w * L_)) i_).
Definition physical_dclink (C_ V_ dV_ P_ : R) : Prop := C_ * V_ * dV_ = P_.

(** The claim "the derivative returned by ODE_model, read in amperes per second, is
    the physical one" is false. *)
Theorem C72_per_unit_dynamics_refuted :
  (exists p w i v vt, 0 < Lf p /\ 
   ~ physical_filter (Rf p * Zbase_) (Lf p * Lbase_) w (cscale Ibase_ i) (cscale Vbase_ v) (cscale Vbase_ vt)
       (cscale Ibase_ (Cx (di_re p w i v vt) (di_im p w i v vt)))) /\
  (exists p pp Sre Vdc, 0 < Cdc p /\ 0 < Vdc /\
   ~ physical_dclink (Cdc p * Cbase_) (Vdc * Vbase_) (dVdc p pp Sre Vdc * Vbase_) ((pp - Sre) * Sbase)).
Proof.
  pose proof PI_RGT_0 as HP. pose proof PI_4 as HP4. pose proof PI2_3_2 as H32. unfold PI2 in H32. assert (P3 : 3 < PI).
  { unfold PI in *. lra. }
  set (p := Prm 1 1 1 1 1 1 1 1 1 1 1 1 1 1 1 1 1 1 1 (Cx 1 2) 72).
  split.
  - exists p, 0, (Cx 0 0), (Cx 0 0), (Cx 1 0). split; [cbn; lra|]. intros E. apply (f_equal re) in E.
    unfold cscale, csub, cmul, di_re, di_im, Lbase_, Ibase_, Zbase_, Vbase_, Sbase in E. cbn [re im Lf Rf p] in E.
    assert (W : 300 < wbase) by (unfold wbase; lra). set (w := wbase) in *. clearbody w.
    assert (E2 : 500 / w = 500) by (etransitivity; [|etransitivity; [exact E|]]; field; lra).
    apply (f_equal (fun r => r * w)) in E2. field_simplify in E2; lra.
  - exists p, 1, 0, 1. split; [cbn; lra|]. split; [lra|]. unfold physical_dclink, dVdc, Cbase_, Zbase_, Vbase_, Sbase. cbn [Cdc p].
    assert (W : 300 < wbase) by (unfold wbase; lra). set (w := wbase) in *. clearbody w.
    intros E. assert (E2 : 50000 / w = 50000) by (etransitivity; [|etransitivity; [exact E|]]; field; lra).
    apply (f_equal (fun r => r * w)) in E2. field_simplify in E2; lra.
Qed.
Print Assumptions C72_per_unit_dynamics_refuted.

(** What holds: the right-hand sides are the physical ones divided by wbase (time
    measured in radians), so the physical derivative is wbase times the returned one;
    in particular the equilibria are exactly the physical equilibria. *)
Theorem C72_per_unit_dynamics_partial :
  (forall p w i v vt, Lf p <> 0 ->
   physical_filter (Rf p * Zbase_) (Lf p * Lbase_) w (cscale Ibase_ i) (cscale Vbase_ v) (cscale Vbase_ vt)
       (cscale Ibase_ (cscale wbase (Cx (di_re p w i v vt) (di_im p w i v vt))))) /\
  (forall p pp Sre Vdc, Cdc p <> 0 -> Vdc <> 0 ->
   physical_dclink (Cdc p * Cbase_) (Vdc * Vbase_) (wbase * dVdc p pp Sre Vdc * Vbase_) ((pp - Sre) * Sbase)).
Proof.
  pose proof PI_RGT_0 as HP. split.
  - intros p w [i1 i2] [v1 v2] [t1 t2] H. unfold physical_filter, cscale, csub, cmul, di_re, di_im, Lbase_, Ibase_, Zbase_, Vbase_, Sbase.
    assert (W : 0 < wbase) by (unfold wbase; lra). set (wb := wbase) in *. clearbody wb. cbn [re im].
    apply cx_eq; cbn [re im]; field; lra.
  - intros p pp Sre Vdc HC HV. unfold physical_dclink, dVdc, Cbase_, Zbase_, Vbase_, Sbase.
    assert (W : 0 < wbase) by (unfold wbase; lra). set (wb := wbase) in *. clearbody wb. field. repeat split; lra.
Qed.
Print Assumptions C72_per_unit_dynamics_partial.

(** * C71: on balanced states the full three-phase model and the balanced model
    agree, and balance is preserved. *)
Definition balanced_state (y : st) : Prop :=
  forall k, i_of y k = rot k (i_of y PA) /\ x_of y k = rot k (x_of y PA) /\ u_of y k = rot k (u_of y PA).
Definition balanced_env (e : env) : Prop :=
  match e_grid e with
  | None => e_vb e = rot PB (e_va e) /\ e_vc e = rot PC (e_va e)
  | Some g => vbg g = rot PB (vag g) /\ vcg g = rot PC (vag g)
  end.
Definition d_of (d : var -> R) k (c1 c2 : ODEModel.comp) : cx := Cx (d (P k c1)) (d (P k c2)).

Lemma rot_form k z : exists c, cabs c = 1 /\ (forall w, rot k w = cmul w c) /\ rot k z = cmul z c.
Proof.
  destruct k.
  - exists (Cx 1 0). split; [|split; intros; cbn [rot]; apply cx_eq; unfold cmul; cbn [re im]; ring]. unfold cabs, cnorm2. cbn [re im]. replace (1*1+0*0) with 1 by ring. apply sqrt_1.
  - exists (cexp (- (2/3) * PI)). split; [apply cabs_cexp|]. split; intros; reflexivity.
  - exists (cexp ((2/3) * PI)). split; [apply cabs_cexp|]. split; intros; reflexivity.
Qed.
Lemma rot_abs k z : cabs (rot k z) = cabs z.
Proof. destruct (rot_form k z) as (c & H1 & _ & H2). rewrite H2, cabs_mul, H1. ring. Qed.
Lemma v_rot p e y k : balanced_env e -> balanced_state y -> v3_of p e y k = rot k (v_calc p e PA (i_of y PA)).
Proof.
  intros He Hy. unfold v3_of, v_calc, balanced_env in *. destruct (Hy k) as (Hi & _ & _). destruct (e_grid e) as [g|].
  - destruct He as [Hb Hc]. rewrite Hi. set (i := i_of y PA).
    assert (L : forall c vg, v_standalone p g (cmul vg c) (cmul i c) = cmul (v_standalone p g vg i) c).
    { intros c vg. unfold v_standalone. cbv zeta. rewrite !cscale_mul. set (dd := cdiv _ _). clearbody dd. ring. }
    destruct k; cbn [rot]; [reflexivity| |].
    + rewrite Hb. apply L.
    + rewrite Hc. apply L.
  - destruct He as [Hb Hc]. destruct k; auto.
Qed.

Theorem C71_balanced_model_consistent_partial :
  forall p e y, balanced_env e -> balanced_state y ->
  (forall v, v <> VRF -> (forall k c, v = P k c -> k = PA) -> ode3 p e y v = odeb p e y v) /\
  (cabs (m_calc p (u_of y PA) (x_of y PA)) <= m_limit p ->
   forall k, d_of (ode3 p e y) k CiR CiI = rot k (d_of (ode3 p e y) PA CiR CiI) /\
             d_of (ode3 p e y) k CxR CxI = rot k (d_of (ode3 p e y) PA CxR CxI) /\
             d_of (ode3 p e y) k CuR CuI = rot k (d_of (ode3 p e y) PA CuR CuI)).
Proof.
  intros p e y He Hy.
  assert (V : forall k, v3_of p e y k = rot k (v_calc p e PA (i_of y PA))) by (intros; apply v_rot; auto).
  assert (SP : S3_pcc p e y = Sb_pcc p e y).
  { unfold S3_pcc, Sb_pcc, sum3, vb_of. rewrite !V. destruct (Hy PB) as (-> & _). destruct (Hy PC) as (-> & _). reflexivity. }
  assert (SI : S3_inv p y = Sb_inv p y).
  { unfold S3_inv, Sb_inv, sum3, vt3_of. destruct (Hy PB) as (-> & -> & ->). destruct (Hy PC) as (-> & -> & ->). reflexivity. }
  assert (VD : vd3 p e y = vdb p e y) by (unfold vd3, vdb, vb_of; rewrite !V; reflexivity).
  assert (IR : iref3a p e y = irefb p e y) by (unfold iref3a, irefb; rewrite SP; reflexivity).
  assert (IT : iref3_test p e y = irefb_test p e y) by (unfold iref3_test, irefb_test; rewrite SP; reflexivity).
  assert (VA : v3_of p e y PA = v_calc p e PA (i_of y PA)) by reflexivity.
  split.
  - intros v HV HP. destruct v as [k c| | | | | | |]; cbn [ode3 odeb]; try reflexivity.
    + assert (k = PA) by eauto. subst. rewrite VD, IR. reflexivity.
    + rewrite SI. reflexivity.
    + unfold dxDC. rewrite SP. reflexivity.
    + rewrite IT, SP. reflexivity.
    + rewrite VD. reflexivity.
    + rewrite VD. reflexivity.
    + congruence.
  - intros Hm. assert (MK : forall k, m_sat p (u_of y k) (x_of y k) = false).
    { intros k. unfold m_sat. apply rlt_false. destruct (Hy k) as (_ & -> & ->). destruct (rot_form k (x_of y PA)) as (c & H1 & H2 & _).
      rewrite !H2. unfold m_calc. replace (cadd _ _) with (cmul (m_calc p (u_of y PA) (x_of y PA)) c).
      - rewrite cabs_mul, H1. lra.
      - unfold m_calc. rewrite !cscale_mul. ring. }
    intros k. set (w := we_calc (Kp_PLL p) (vd3 p e y) (y XPLL)).
    unfold d_of. cbn [ode3 d_comp]. fold w. unfold dx_re, dx_im, du_re, du_im, aw, u_err. rewrite !MK.
    assert (KEY : forall z1 z2 z3 z4 z5 : cx, True) by auto. clear KEY.
    unfold vt3_of. rewrite VA, V. set (v := v_calc p e PA (i_of y PA)). set (iref := iref3a p e y).
    destruct (Hy k) as (-> & -> & ->).
    destruct (rot_form k v) as (c & _ & H & _). unfold eff_iref. rewrite !H. cbn [rot].
    assert (RI : (if e_conn e then cmul iref c else Cx 0 0) = cmul (if e_conn e then iref else Cx 0 0) c).
    { destruct (e_conn e); auto. apply cx_eq; cbn [re im cmul]; ring. }
    rewrite RI. set (ir := if e_conn e then iref else Cx 0 0). clearbody ir v w.
    set (i := i_of y PA). set (u := u_of y PA). set (x := x_of y PA). clearbody i u x. clear.
    destruct i as [i1 i2], u as [u1 u2], x as [x1 x2], ir as [r1 r2], v as [v1 v2], c as [c1 c2].
    unfold di_re, di_im, vt_calc, m_calc, cscale, cadd, cmul. cbn [re im]. set (ww := w / wbase). set (l := 1 / Lf p).
    repeat split; apply cx_eq; cbn [re im]; ring.
Qed.
Print Assumptions C71_balanced_model_consistent_partial.

(** REFUTED without the modulation-limit hypothesis: the anti-windup test compares
    signs of real and imaginary parts, which is not invariant under the 120-degree
    rotations, so a balanced saturated state leaves balance. *)
Theorem C71_balanced_model_consistent_refuted :
  exists p e y, balanced_env e /\ balanced_state y /\
  d_of (ode3 p e y) PB CxR CxI <> rot PB (d_of (ode3 p e y) PA CxR CxI).
Proof.
  set (p := Prm 1 1 1 0 1 1 1 1 1 1 1 1 1 1 1 1 1 1 1 (Cx 1 2) 72).
  set (e := Env 0 0 (Cx 1 0) (rot PB (Cx 1 0)) (rot PC (Cx 1 0)) None 0 0 (PVM 1 1 1 300) true 0).
  set (X := fun k => rot k (Cx 2 3)). set (U := fun k => rot k (Cx 1 0)).
  set (y := fun v => match v with P k CxR => re (X k) | P k CxI => im (X k) | P k CuR => re (U k) | P k CuI => im (U k) | _ => 0 end : R).
  exists p, e, y. split; [split; reflexivity|].
  assert (HX : forall k, x_of y k = X k) by (intros k; unfold x_of; cbn [y]; destruct (X k); reflexivity).
  assert (HU : forall k, u_of y k = U k) by (intros k; unfold u_of; cbn [y]; destruct (U k); reflexivity).
  split.
  - intros k. rewrite !HX, !HU. split; [|split; destruct k; reflexivity]. 
    assert (Z : forall k, i_of y k = Cx 0 0) by reflexivity. rewrite !Z. destruct (rot_form k (Cx 0 0)) as (c & _ & _ & ->). apply cx_eq; cbn [re im cmul]; ring.
  - assert (SAT : forall k, m_sat p (U k) (X k) = true).
    { intros k. unfold m_sat. apply rlt_iff. change (m_limit p) with 1.
      replace (m_calc p (U k) (X k)) with (X k).
      - unfold X. rewrite rot_abs. unfold cabs, cnorm2. cbn [re im]. rewrite <- sqrt_1 at 1. apply sqrt_lt_1; lra.
      - unfold m_calc. change (Kp_GCC p) with 0. destruct (X k) as [a b], (U k) as [c d]. apply cx_eq; cbn [re im cadd cscale]; ring. }
    unfold d_of. cbn [ode3 d_comp]. unfold dx_re, dx_im. rewrite !HX, !HU, !SAT. unfold aw. change (Ki_GCC p) with 1.
    cbn [rot]. unfold Ub_calc at 1. unfold X, U. cbn [rot]. unfold Ub_calc. rewrite cexp_m. cbn [re im cmul].
    pose proof (sqrt_lt_1 1 3) as S1. rewrite sqrt_1 in S1. assert (1 < sqrt 3) by lra. unfold w3.
    set (s := sqrt 3) in *. assert (s * s = 3) by (unfold s; apply sqrt_sqrt; lra). clearbody s.
    intros E. apply (f_equal re) in E. revert E. cbn [re im cmul].
    unfold same_sign, np_sign.
    repeat match goal with |- context [rlt ?a ?b] => destruct (rlt a b) eqn:?; rb; try nra end;
    repeat match goal with |- context [req ?a ?b] => destruct (req a b) eqn:?; rb; try nra end.
Qed.
Print Assumptions C71_balanced_model_consistent_refuted.

Example C71_hypotheses_met :
  exists p e y, balanced_env e /\ balanced_state y /\ cabs (m_calc p (u_of y PA) (x_of y PA)) <= m_limit p /\
    y (P PB CiR) <> 0 /\ y (P PB CxI) <> 0.
Proof.
  set (p := Prm 1 1 1 0 1 1 10 1 1 1 1 1 1 1 1 1 1 1 1 (Cx 1 2) 72).
  set (e := Env 0 0 (Cx 1 0) (rot PB (Cx 1 0)) (rot PC (Cx 1 0)) None 0 0 (PVM 1 1 1 300) true 0).
  set (X := fun k => rot k (Cx 2 3)).
  set (y := fun v => match v with P k CxR => re (X k) | P k CxI => im (X k) | P k CiR => re (X k) | P k CiI => im (X k) 
     | P k CuR => re (X k) | P k CuI => im (X k) | _ => 0 end : R).
  exists p, e, y. split; [split; reflexivity|].
  assert (HX : forall k, x_of y k = X k /\ i_of y k = X k /\ u_of y k = X k) by (intros k; unfold x_of, i_of, u_of; cbn [y]; destruct (X k); auto).
  pose proof (sqrt_lt_1 1 3) as S1. rewrite sqrt_1 in S1. assert (1 < sqrt 3) by lra.
  split; [|split].
  - intros k. destruct (HX k) as (-> & -> & ->). destruct (HX PA) as (-> & -> & ->). destruct k; auto.
  - destruct (HX PA) as (-> & _ & ->). change (m_limit p) with 10. rewrite <- (sqrt_square 10) by lra. apply sqrt_le_1_alt.
    unfold cnorm2, m_calc. cbn. lra.
  - cbn [y X rot]. unfold Ub_calc. rewrite cexp_m. cbn [re im cmul]. unfold w3. split; lra.
Qed.
