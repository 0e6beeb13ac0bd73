(** C101: the three-phase DER with constant DC voltage. *)
From Coquelicot Require Import Coquelicot.
From Verif Require Import RBase CxField PhasorModel PVModel ODEModel PhasorProperties PhasorProperties2 CircuitProperties2 CircuitProperties3 PLLProperties FilterProperties EquilibriumProperties Const3Model.
Import RBase.
Open Scope R_scope.

(** A connected DER within its limits is at rest exactly when PV power and reactive
    power are at their set points, the currents are the balanced set asked for, the
    filter equations hold and the PLL is in step. *)
Theorem C101_equilibria_meet_set_points :
  forall p e y, sane p -> e_conn e = true -> (forall k, mod_ok p y k) ->
  cur_ok p (Cx (y XP + Kp_P p * (Ppv_of p e (e_Vconst e) - re (S3c_inv p e y))) (y XQ - Kp_Q p * (e_Qref e - im (S3_pcc p e y)))) ->
  let v k := v_calc p e k (i_of y k) in
  stationary (ode3c p) e y <->
  (im (cadd (cadd (S_ph (v PA) (i_of y PA)) (S_ph (v PB) (i_of y PB))) (S_ph (v PC) (i_of y PC))) = e_Qref e /\
   re (S3c_inv p e y) = Ppv_of p e (e_Vconst e) /\
   (i_of y PA = Cx (y XP) (y XQ) /\ i_of y PB = Ub_calc (Cx (y XP) (y XQ)) /\ i_of y PC = Uc_calc (Cx (y XP) (y XQ))) /\
   (forall k, u_of y k = Cx 0 0) /\
   (forall k, vt_calc p (e_Vconst e) (u_of y k) (x_of y k) = filter_drop p (wbase + y XPLL) (v k) (i_of y k)) /\
   vd_three_phase (v PA) (v PB) (v PC) (e_wgrid e) (e_t e) (y WTE) = 0).
Proof.
  intros p e y Hs Hc Hm Hi v. pose proof Hs as (HL & HC & HG & HW & HD & HP & HQ & HPL & HT).
  apply cur_sat in Hi. unfold stationary. rewrite var_cases.
  assert (EQ : eff_Qref e = e_Qref e) by (unfold eff_Qref; now rewrite Hc).
  assert (EP : forall z, eff_Ppv e z = z) by (intros; unfold eff_Ppv; now rewrite Hc).
  assert (EI : forall z, eff_iref e z = z) by (intros; unfold eff_iref; now rewrite Hc).
  cbn [ode3c]. rewrite EQ, EP, !EI. unfold dxQ, iref3c_test. rewrite EQ, EP.
  unfold ia_ref_activepower. rewrite Hi, !aw_off. rewrite !phase_zero by auto.
  set (q := im (cadd (cadd (S_ph (v PA) (i_of y PA)) (S_ph (v PB) (i_of y PB))) (S_ph (v PC) (i_of y PC)))).
  unfold iref3c, ia_ref_activepower, vd3. change (im (S3_pcc p e y)) with q.
  change (v3_of p e y PA) with (v PA). change (v3_of p e y PB) with (v PB). change (v3_of p e y PC) with (v PC).
  unfold vt3c_of.
  set (vd := vd_three_phase (v PA) (v PB) (v PC) (e_wgrid e) (e_t e) (y WTE)). unfold we_calc. cbn [rot].
  set (pp := Ppv_of p e (e_Vconst e)). set (ps := re (S3c_inv p e y)).
  assert (W : 2 * PI * 60 = wbase) by reflexivity.
  split.
  - intros ((A1 & B1 & C1) & (A2 & B2 & C2) & (A3 & B3 & C3) & _ & _ & E & F & G & _).
    apply mul0 in E; auto. apply mul0 in G; auto. apply mul0 in F; [|lra].
    assert (E' : ps = pp) by lra. assert (F' : q = e_Qref e) by lra.
    rewrite G in C1, C2, C3.
    rewrite E', F', !Rminus_eq_0, !Rmult_0_r, Rplus_0_r, Rminus_0_r in B1, B2, B3.
    repeat split; auto; try lra.
    + intros k; destruct k; auto.
    + intros k. destruct k; [rewrite C1|rewrite C2|rewrite C3]; f_equal; lra.
  - intros (B & A & (D1 & D2 & D3) & E & F & G).
    rewrite G, B, A, !Rminus_eq_0, !Rmult_0_r, Rplus_0_r, Rminus_0_r.
    repeat split; auto; rewrite F; f_equal; unfold wbase; lra.
Qed.
Print Assumptions C101_equilibria_meet_set_points.

Theorem C101_delivered_power :
  forall p e y, sane p -> e_conn e = true -> (forall k, mod_ok p y k) ->
  cur_ok p (Cx (y XP + Kp_P p * (Ppv_of p e (e_Vconst e) - re (S3c_inv p e y))) (y XQ - Kp_Q p * (e_Qref e - im (S3_pcc p e y)))) ->
  stationary (ode3c p) e y ->
  re (S3_pcc p e y) = Ppv_of p e (e_Vconst e) - 3 * (Rf p * ((y XP) ^ 2 + (y XQ) ^ 2) / 2).
Proof.
  intros p e y Hs Hc Hm Hi H. apply C101_equilibria_meet_set_points in H; auto.
  destruct H as (_ & C & (D1 & D2 & D3) & _ & F & _).
  rewrite <- C. unfold S3_pcc, S3c_inv, sum3, v3_of, vt3c_of, cadd. cbn [re im].
  rewrite (drop_power _ _ _ _ _ (F PA)), (drop_power _ _ _ _ _ (F PB)), (drop_power _ _ _ _ _ (F PC)).
  assert (N : forall k, cnorm2 (i_of y k) = cnorm2 (Cx (y XP) (y XQ))).
  { intros k. rewrite <- !cabs_sq. f_equal; destruct k; [now rewrite D1| | |now rewrite D1| |].
    all: try (rewrite D2; change Ub_calc with (rot PB); apply rot_abs). all: rewrite D3; change Uc_calc with (rot PC); apply rot_abs. }
  rewrite !N. unfold cnorm2. cbn [re im]. lra.
Qed.
Print Assumptions C101_delivered_power.

(** While disconnected: no influence of set points or weather; the current
    controllers drive every phase towards zero; the equilibria are exactly the
    states with zero current, terminals at grid voltage and PLL in step. *)
Theorem C101_disconnected_is_inert :
  forall p e y, e_conn e = false ->
  (forall q v m w, ode3c p (with_refs e q v m) y w = ode3c p e y w) /\
  (forall k, mod_ok p y k ->
     ode3c p e y (P k CuR) = - (wp p * (y (P k CuR) + y (P k CiR))) /\
     ode3c p e y (P k CuI) = - (wp p * (y (P k CuI) + y (P k CiI)))) /\
  (sane p -> (forall k, mod_ok p y k) ->
   let v k := v_calc p e k (Cx 0 0) in
   (stationary (ode3c p) e y <->
    (forall k, i_of y k = Cx 0 0 /\ u_of y k = Cx 0 0 /\ vt_calc p (e_Vconst e) (u_of y k) (x_of y k) = v k) /\
    vd_three_phase (v PA) (v PB) (v PC) (e_wgrid e) (e_t e) (y WTE) = 0) /\
   (stationary (ode3c p) e y -> S3_pcc p e y = Cx 0 0 /\ S3c_inv p e y = Cx 0 0)).
Proof.
  intros p e y Hc.
  assert (EQ : eff_Qref e = 0) by (unfold eff_Qref; now rewrite Hc).
  assert (EP : forall z, eff_Ppv e z = 0) by (intros; unfold eff_Ppv; now rewrite Hc).
  assert (EI : forall z, eff_iref e z = Cx 0 0) by (intros; unfold eff_iref; now rewrite Hc).
  split; [|split].
  - intros q v m w. destruct e as [t wg va vb vc g Qr Vr md cn Vc]. cbn [e_conn] in Hc. subst cn.
    destruct w as [[| |] [| | | | |]| | | | | | |]; reflexivity.
  - intros k H. cbn [ode3c d_comp]. rewrite EI.
    split; unfold du_re, du_im, u_err; rewrite (mod_sat p y _ H), aw_off; unfold u_of, i_of; cbn [re im]; lra.
  - intros Hs Hm v. pose proof Hs as (HL & HC & HG & HW & HD & HP & HQ & HPL & HT).
    assert (S0 : forall v, S_ph v (Cx 0 0) = Cx 0 0).
    { intros z. unfold S_ph, cscale, cmul, conj. cbn [re im]. apply cx_eq2; cbn [re im]; lra. }
    assert (Q : forall z x, dxQ p z 0 x 0 = 0).
    { intros. unfold dxQ. rewrite Rminus_eq_0, Rmult_0_r. apply aw_zero0. }
    assert (FD : forall w v, filter_drop p w v (Cx 0 0) = v).
    { intros w z. unfold filter_drop, cadd, cmul. cbn [re im]. apply cx_eq2; cbn [re im]; lra. }
    assert (K : stationary (ode3c p) e y <->
      (forall k, i_of y k = Cx 0 0 /\ u_of y k = Cx 0 0 /\ vt_calc p (e_Vconst e) (u_of y k) (x_of y k) = v k) /\
      vd_three_phase (v PA) (v PB) (v PC) (e_wgrid e) (e_t e) (y WTE) = 0).
    { unfold stationary. rewrite var_cases. cbn [ode3c]. rewrite EQ, EP, !EI. rewrite !phase_zero by auto.
      unfold vt3c_of, v3_of. split.
      - intros ((A1 & B1 & C1) & (A2 & B2 & C2) & (A3 & B3 & C3) & _ & _ & _ & _ & G & _).
        rewrite B1 in C1. rewrite B2 in C2. rewrite B3 in C3. rewrite FD in C1, C2, C3. apply mul0 in G; auto.
        unfold vd3, v3_of in G. rewrite B1, B2, B3 in G.
        split; [intros k; destruct k; auto|exact G].
      - intros (A & D). unfold vd3, S3_pcc, S3c_inv, sum3, v3_of, vt3c_of.
        pose proof (A PA) as (A1 & A2 & A3). pose proof (A PB) as (B1 & B2 & B3). pose proof (A PC) as (C1 & C2 & C3).
        rewrite A1, B1, C1, !S0. unfold cadd. cbn [im re]. rewrite !Rplus_0_r, Q, !FD.
        change (vd_three_phase _ _ _ _ _ _) with (vd_three_phase (v PA) (v PB) (v PC) (e_wgrid e) (e_t e) (y WTE)). rewrite D.
        rewrite Rminus_eq_0, !Rmult_0_r, aw_zero0. repeat split; auto. }
    split; [exact K|]. intros Hst. apply K in Hst. destruct Hst as (A & _).
    pose proof (A PA) as (A1 & _). pose proof (A PB) as (B1 & _). pose proof (A PC) as (C1 & _).
    unfold S3_pcc, S3c_inv, sum3. rewrite A1, B1, C1, !S0. unfold cadd. cbn [re im]. rewrite !Rplus_0_r. auto.
Qed.
Print Assumptions C101_disconnected_is_inert.

(** On a balanced grid and state, one three-phase DER is three single-phase DERs
    with constant DC voltage: each with a third of the panels and of the reactive
    set point and with outer-loop gains three times as large. *)
Definition third_prm (p : prm) : prm :=
  Prm (Lf p) (Rf p) (Cdc p) (Kp_GCC p) (Ki_GCC p) (wp p) (m_limit p) (Kp_DC p) (Ki_DC p)
      (3 * Kp_P p) (3 * Ki_P p) (3 * Kp_Q p) (3 * Ki_Q p) (iref_limit p)
      (Kp_PLL p) (Ki_PLL p) (Tfilter p) (Vdcbase p) (Vdcmpp_max p) (Z1 p) (a_tr p).
Definition third_env (e : env) : env :=
  Env (e_t e) (e_wgrid e) (e_va e) (e_vb e) (e_vc e) (e_grid e) (e_Qref e / 3) (e_Vdcref e)
      (PVM (Np (e_mod e) / 3) (Ns (e_mod e)) (Sinsol (e_mod e)) (Tactual (e_mod e))) (e_conn e) (e_Vconst e).

Lemma third_Ppv p e : Ppv_of (third_prm p) (third_env e) (e_Vconst e) = Ppv_of p e (e_Vconst e) / 3.
Proof.
  unfold Ppv_of, Ppv_val, Ipv_val, Iph_calc. cbn [third_prm third_env e_mod Np Ns Sinsol Tactual Vdcbase Vdcmpp_max].
  set (V := Vdc_actual _ _ _). set (E := exp _ - 1).
  set (I := (Iscr + _) * _). set (n := Np (e_mod e)).
  replace ((n / 3 * I - n / 3 * Irs * E) * V) with ((n * I - n * Irs * E) * V / 3) by field.
  set (z := (n * I - n * Irs * E) * V). clearbody z.
  replace (Rmax 0 (z / 3)) with (Rmax 0 z / 3); [field; unfold Sbase; lra|].
  unfold Rmax. repeat destruct (Rle_dec _ _); lra.
Qed.
Lemma S_rot k v i : S_ph (rot k v) (rot k i) = S_ph v i.
Proof.
  destruct (rot_form k v) as (c & H1 & H2 & _). rewrite !H2.
  assert (N : re c * re c + im c * im c = 1).
  { change (cnorm2 c = 1). rewrite <- cabs_sq, H1. lra. }
  destruct v as [v1 v2], i as [i1 i2], c as [c1 c2]. unfold S_ph, cscale, cmul, conj. cbn [re im] in *.
  apply cx_eq2; cbn [re im].
  - replace (v1 * i1 - v2 * - i2) with ((v1 * i1 - v2 * - i2) * (c1 * c1 + c2 * c2)) by (rewrite N; lra). ring.
  - replace (v1 * - i2 + v2 * i1) with ((v1 * - i2 + v2 * i1) * (c1 * c1 + c2 * c2)) by (rewrite N; lra). ring.
Qed.
Lemma vt_rot p V y k : balanced_state y -> vt_calc p V (u_of y k) (x_of y k) = rot k (vt_calc p V (u_of y PA) (x_of y PA)).
Proof.
  intros Hy. destruct (Hy k) as (_ & -> & ->). destruct (rot_form k (x_of y PA)) as (c & _ & H & _). rewrite !H.
  unfold vt_calc, m_calc. rewrite !cscale_mul. ring.
Qed.
Lemma vd_rot v w t th : vd_three_phase v (Ub_calc v) (Uc_calc v) w t th = vd_single_phase v w t th.
Proof.
  rewrite (polar_rect v). destruct (C47_pll_error (cabs v) (cphase v) w t th) as [-> ->]. reflexivity.
Qed.

Theorem C101_is_three_single_phase :
  forall p e y, balanced_env e -> balanced_state y ->
  forall v, (forall k c, v = P k c -> k = PA) ->
  ode3c p e y v = odec (third_prm p) (third_env e) y v.
Proof.
  intros p e y He Hy v Hv.
  assert (V : forall k, v3_of p e y k = rot k (v_calc p e PA (i_of y PA))) by (intros; apply v_rot; auto).
  assert (VC : forall k i, v_calc (third_prm p) (third_env e) k i = v_calc p e k i) by reflexivity.
  assert (SP : S3_pcc p e y = cscale 3 (S1_pcc p e y)).
  { unfold S3_pcc, sum3. rewrite !V. destruct (Hy PB) as (-> & _). destruct (Hy PC) as (-> & _).
    rewrite !S_rot. cbn [rot]. fold (S1_pcc p e y). unfold cadd, cscale. apply cx_eq2; cbn [re im]; lra. }
  assert (SI : S3c_inv p e y = cscale 3 (Sc_inv p e y)).
  { unfold S3c_inv, sum3, vt3c_of. rewrite (vt_rot p _ y PB Hy), (vt_rot p _ y PC Hy).
    destruct (Hy PB) as (-> & _). destruct (Hy PC) as (-> & _).
    rewrite !S_rot. cbn [rot]. fold (Sc_inv p e y). unfold cadd, cscale. apply cx_eq2; cbn [re im]; lra. }
  assert (VD : vd3 p e y = vd1 (third_prm p) (third_env e) y).
  { unfold vd3, vd1. rewrite !V. apply vd_rot. }
  assert (S1e : S1_pcc (third_prm p) (third_env e) y = S1_pcc p e y) by reflexivity.
  assert (Sce : Sc_inv (third_prm p) (third_env e) y = Sc_inv p e y) by reflexivity.
  assert (EQ : eff_Qref (third_env e) = eff_Qref e / 3).
  { unfold eff_Qref. cbn [third_env e_conn e_Qref]. destruct (e_conn e); lra. }
  assert (EP : forall z, eff_Ppv (third_env e) (z / 3) = eff_Ppv e z / 3).
  { intros z. unfold eff_Ppv. cbn [third_env e_conn]. destruct (e_conn e); lra. }
  assert (IR : iref3c p e y = irefc (third_prm p) (third_env e) y).
  { unfold iref3c, irefc, ia_ref_activepower. rewrite SP, SI, S1e, Sce.
    cbn [third_env e_Vconst]. fold (third_env e). rewrite third_Ppv. cbn [third_env third_prm e_Qref Kp_P Kp_Q cscale re im].
    f_equal; field. }
  assert (IT : iref3c_test p e y = irefc_test (third_prm p) (third_env e) y).
  { unfold iref3c_test, irefc_test, ia_ref_activepower. rewrite SP, SI, S1e, Sce, EQ.
    cbn [third_env e_Vconst]. fold (third_env e). rewrite third_Ppv, EP. cbn [third_prm Kp_P Kp_Q cscale re im].
    f_equal; field. }
  destruct v as [k c| | | | | | |]; try reflexivity.
  - assert (k = PA) by eauto. subst k. cbn [ode3c odec]. rewrite VD, IR. reflexivity.
  - cbn [ode3c odec]. rewrite IT, SI, Sce.
    cbn [third_env e_Vconst]. fold (third_env e). rewrite third_Ppv, EP. cbn [third_prm Ki_P cscale re im]. fold (third_prm p).
    assert (X : 3 * Ki_P p * (eff_Ppv e (Ppv_of p e (e_Vconst e)) / 3 - re (Sc_inv p e y))
              = Ki_P p * (eff_Ppv e (Ppv_of p e (e_Vconst e)) - 3 * re (Sc_inv p e y))) by field.
    rewrite X. reflexivity.
  - cbn [ode3c odec]. unfold dxQ. rewrite IT, SP, S1e, EQ. cbn [third_prm Ki_Q cscale re im]. fold (third_prm p).
    assert (X : - (3 * Ki_Q p) * (eff_Qref e / 3 - im (S1_pcc p e y)) = - Ki_Q p * (eff_Qref e - 3 * im (S1_pcc p e y))) by field.
    rewrite X. reflexivity.
  - cbn [ode3c odec]. rewrite VD. reflexivity.
  - cbn [ode3c odec]. rewrite VD. reflexivity.
Qed.
Print Assumptions C101_is_three_single_phase.

(** Every PV module has such an operating point: one unit of current into a grid of
    suitable voltage. *)
Example C101_hypotheses_met : forall m : pvm,
  exists p e y, e_mod e = m /\ sane p /\ e_conn e = true /\ balanced_env e /\ balanced_state y /\ (forall k, mod_ok p y k) /\
  cur_ok p (Cx (y XP + Kp_P p * (Ppv_of p e (e_Vconst e) - re (S3c_inv p e y))) (y XQ - Kp_Q p * (e_Qref e - im (S3_pcc p e y)))) /\
  stationary (ode3c p) e y /\ i_of y PA = Cx 1 0.
Proof.
  intros m. set (PP := Ppv_val m (Vdc_actual 1000 1000 2)). set (V := 2 * PP / 3 - 1).
  set (X := fun k => rot k (Cx (V + 1) 1)). set (I := fun k => rot k (Cx 1 0)).
  set (p := Prm 1 1 1 0 1 1 (cabs (Cx (V + 1) 1)) 1 1 1 1 1 1 1 1 1 1 1000 1000 (Cx 1 2) 72).
  set (e := Env 0 0 (Cx V 0) (rot PB (Cx V 0)) (rot PC (Cx V 0)) None 0 0 m true 2).
  set (y := fun v => match v with P k CxR => re (X k) | P k CxI => im (X k) | P k CiR => re (I k) | P k CiI => im (I k)
     | XP => 1 | _ => 0 end : R).
  assert (HX : forall k, x_of y k = X k) by (intros k; unfold x_of; cbn [y]; destruct (X k); reflexivity).
  assert (HI : forall k, i_of y k = I k) by (intros k; unfold i_of; cbn [y]; destruct (I k); reflexivity).
  assert (HU : forall k, u_of y k = Cx 0 0) by reflexivity.
  assert (R0 : forall k, rot k (Cx 0 0) = Cx 0 0).
  { intros k. destruct (rot_form k (Cx 0 0)) as (c & _ & _ & ->). unfold cmul. cbn [re im]. apply cx_eq2; cbn [re im]; lra. }
  assert (HP : Ppv_of p e (e_Vconst e) = PP) by reflexivity.
  assert (BE : balanced_env e) by (split; reflexivity).
  assert (BS : balanced_state y).
  { intros k. rewrite !HX, !HI, !HU, R0. repeat split; destruct k; reflexivity. }
  assert (HM : forall k, cadd (cscale (Kp_GCC p) (u_of y k)) (x_of y k) = X k).
  { intros k. rewrite HX, HU. destruct (X k) as [a b]. unfold cadd, cscale. cbn [re im]. apply cx_eq2; cbn [re im]; lra. }
  assert (HV : forall k, v_calc p e k (i_of y k) = rot k (Cx V 0)) by (intros k; destruct k; reflexivity).
  assert (HT : forall k, vt_calc p (e_Vconst e) (u_of y k) (x_of y k) = X k).
  { intros k. unfold vt_calc, m_calc. rewrite HM. destruct (X k) as [a b]. unfold cscale. cbn [re im e e_Vconst]. apply cx_eq2; cbn [re im]; lra. }
  assert (SP : S3_pcc p e y = Cx (3 * V / 2) 0).
  { unfold S3_pcc, sum3, v3_of. rewrite !HV, !HI. unfold I. rewrite !S_rot. unfold S_ph, cmul, conj, cscale, cadd. cbn [re im].
    apply cx_eq2; cbn [re im]; lra. }
  assert (SI : re (S3c_inv p e y) = PP).
  { unfold S3c_inv, sum3, vt3c_of. rewrite !HT, !HI. unfold I, X. rewrite !S_rot. unfold S_ph, cmul, conj, cscale, cadd. cbn [re im].
    unfold V. lra. }
  assert (MO : forall k, mod_ok p y k).
  { intros k. unfold mod_ok. rewrite HM. unfold X. rewrite rot_abs. apply Rle_refl. }
  assert (SA : sane p) by (unfold sane; cbn; lra).
  assert (CU : cur_ok p (Cx (y XP + Kp_P p * (Ppv_of p e (e_Vconst e) - re (S3c_inv p e y))) (y XQ - Kp_Q p * (e_Qref e - im (S3_pcc p e y))))).
  { rewrite HP, SI, SP. unfold cur_ok, cabs. cbn [p iref_limit Kp_P Kp_Q e e_Qref y re im]. replace (cnorm2 _) with 1 by (unfold cnorm2; cbn [re im]; lra). rewrite sqrt_1. lra. }
  exists p, e, y. repeat (split; [solve [auto|reflexivity]|]). split; [|now rewrite HI].
  apply C101_equilibria_meet_set_points; auto.
  change (cadd _ _) with (S3_pcc p e y). rewrite SP, SI, HP.
  split; [reflexivity|]. split; [reflexivity|]. split; [rewrite !HI; repeat split; reflexivity|]. split; [reflexivity|]. split.
  - intros k. rewrite HT, HV, HI. unfold X, I. destruct (rot_form k (Cx 1 0)) as (c & _ & H & _). rewrite !H.
    unfold filter_drop. cbn [p Rf Lf y].
    replace ((wbase + 0) / wbase * 1) with 1 by (unfold wbase; field; apply PI_neq0).
    destruct c as [a b]. unfold cmul, cadd. cbn [re im]. apply cx_eq2; cbn [re im]; lra.
  - rewrite !HV. cbn [rot]. rewrite vd_rot. cbn [e e_wgrid e_t y].
    assert (E : Cx V 0 = crect V 0) by (unfold crect, cscale, cexp; cbn [re im]; rewrite cos_0, sin_0; apply cx_eq2; cbn [re im]; lra).
    rewrite E. destruct (C47_pll_error V 0 0 0 0) as [_ ->].
    replace (0 * 0 + 0 - 0) with 0 by lra. rewrite sin_0. lra.
Qed.
