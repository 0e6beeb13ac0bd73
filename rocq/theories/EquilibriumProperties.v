(** C95: a disconnected DER; C96: equilibria are exactly the states that meet the set
    points. *)
From Coquelicot Require Import Coquelicot.
From Verif Require Import RBase CxField PhasorModel PVModel ODEModel PhasorProperties PhasorProperties2 CircuitProperties2 CircuitProperties3 PLLProperties FilterProperties.
Import RBase.
Open Scope R_scope.

(** * Specification vocabulary *)
(** nothing changes except the PLL angle, which runs with the grid *)
Definition stationary (ode : env -> st -> var -> R) (e : env) (y : st) : Prop :=
  forall v, v <> WTE -> ode e y v = 0.
(** gains and component values are not zero *)
Definition sane (p : prm) : Prop :=
  Lf p <> 0 /\ Cdc p <> 0 /\ Ki_GCC p <> 0 /\ wp p <> 0 /\ Ki_DC p <> 0 /\ Ki_P p <> 0 /\ Ki_Q p <> 0 /\ Ki_PLL p <> 0 /\ 0 < Tfilter p.
(** modulation of a phase, and the current the outer loops ask for, within limits *)
Definition mod_ok (p : prm) (y : st) (k : phase) : Prop :=
  cabs (cadd (cscale (Kp_GCC p) (u_of y k)) (x_of y k)) <= m_limit p.
Definition cur_ok (p : prm) (z : cx) : Prop := cabs z <= iref_limit p.
(** steady-state voltage drop over the filter at frequency w (rad/s): v + (Rf + j (w/wbase) Lf) i *)
Definition filter_drop (p : prm) (w : R) (v i : cx) : cx :=
  cadd v (cmul (Cx (Rf p) (w / wbase * Lf p)) i).
(** the same environment with other set points and other weather *)
Definition with_refs (e : env) (q v : R) (m : pvm) : env :=
  Env (e_t e) (e_wgrid e) (e_va e) (e_vb e) (e_vc e) (e_grid e) q v m (e_conn e) (e_Vconst e).

(** * Lemmas *)
Lemma aw_off d x v : aw false d x v = v. Proof. reflexivity. Qed.
Lemma mod_sat p y k : mod_ok p y k -> m_sat p (u_of y k) (x_of y k) = false.
Proof. intros H. unfold m_sat. apply rlt_false. exact H. Qed.
Lemma cur_sat p z : cur_ok p z -> i_sat p z = false.
Proof. intros H. unfold i_sat. apply rlt_false. exact H. Qed.
Lemma mul0 a b : a <> 0 -> a * b = 0 -> b = 0.
Proof. intros H E. apply Rmult_integral in E. tauto. Qed.
Lemma cx_eq2 a b : re a = re b -> im a = im b -> a = b.
Proof. destruct a as [a1 a2], b as [b1 b2]. cbn [re im]. intros -> ->. reflexivity. Qed.
Lemma di_zero p w i v vt : Lf p <> 0 ->
  (di_re p w i v vt = 0 /\ di_im p w i v vt = 0) <-> vt = filter_drop p w v i.
Proof.
  intros H. unfold di_re, di_im, filter_drop. destruct i as [i1 i2], v as [v1 v2], vt as [t1 t2].
  unfold cadd, cmul. cbn [re im]. set (q := w / wbase). split.
  - intros [A B]. apply cx_eq2; cbn [re im].
    + assert (Lf p * (1 / Lf p * (- Rf p * i1 - v1 + t1) + q * i2) = 0) by (rewrite A; lra).
      replace (Lf p * (1 / Lf p * (- Rf p * i1 - v1 + t1) + q * i2)) with ((- Rf p * i1 - v1 + t1) + Lf p * q * i2) in H0 by (field; auto). lra.
    + assert (Lf p * (1 / Lf p * (- Rf p * i2 - v2 + t2) - q * i1) = 0) by (rewrite B; lra).
      replace (Lf p * (1 / Lf p * (- Rf p * i2 - v2 + t2) - q * i1)) with ((- Rf p * i2 - v2 + t2) - Lf p * q * i1) in H0 by (field; auto). lra.
  - intros E. assert (E1 : t1 = v1 + (Rf p * i1 - q * Lf p * i2)) by congruence.
    assert (E2 : t2 = v2 + (Rf p * i2 + q * Lf p * i1)) by congruence. subst t1 t2. split; field; auto.
Qed.
(** one phase, unsaturated *)
Lemma phase_zero p w y k v vt iref : sane p -> mod_ok p y k ->
  (forall c, d_comp p w (i_of y k) v vt (u_of y k) (x_of y k) iref c = 0) <->
  (u_of y k = Cx 0 0 /\ i_of y k = iref /\ vt = filter_drop p w v (i_of y k)).
Proof.
  intros (HL & _ & HK & HW & _) Hm. apply mod_sat in Hm. split.
  - intros H. pose proof (H CxR) as A. pose proof (H CxI) as B. pose proof (H CuR) as C. pose proof (H CuI) as D.
    cbn [d_comp] in A, B, C, D. unfold dx_re, dx_im, du_re, du_im in A, B, C, D. rewrite Hm, aw_off in A, B, C, D.
    apply mul0 in A; auto. apply mul0 in B; auto. unfold u_err in C, D. apply mul0 in C; auto. apply mul0 in D; auto.
    rewrite A in C. rewrite B in D. repeat split.
    + apply cx_eq2; auto.
    + apply cx_eq2; lra.
    + apply di_zero; auto. split; [exact (H CiR)|exact (H CiI)].
  - intros (A & B & C) c. apply di_zero in C; auto. destruct C as [C1 C2].
    destruct c; cbn [d_comp]; auto; unfold dx_re, dx_im, du_re, du_im, u_err; rewrite ?Hm, ?aw_off, A, <- ?B; cbn [re im]; lra.
Qed.
Lemma dVdc_zero p pp s V : Cdc p <> 0 -> V <> 0 -> dVdc p pp s V = 0 <-> s = pp.
Proof.
  intros H1 H2. unfold dVdc. split; intros E.
  - assert ((pp - s) / (V * Cdc p) * (V * Cdc p) = 0) by (rewrite E; lra).
    replace ((pp - s) / (V * Cdc p) * (V * Cdc p)) with (pp - s) in H by (field; auto). lra.
  - subst. unfold Rdiv. lra.
Qed.
Lemma var_cases (Q : var -> Prop) :
  (forall v, v <> WTE -> Q v) <->
  ((forall c, Q (P PA c)) /\ (forall c, Q (P PB c)) /\ (forall c, Q (P PC c)) /\ Q VDC /\ Q XDC /\ Q XP /\ Q XQ /\ Q XPLL /\ Q VRF).
Proof.
  split. { intros H. repeat split; intros; apply H; discriminate. }
  intros (A & B & C & D & E & F & G & H & I) v Hv. destruct v as [[| |] c| | | | | | |]; auto. congruence.
Qed.

(** * C96: connected *)
(** Single phase.  [w] is the frequency of the PLL at that state. *)
Theorem C96_single_phase :
  forall p e y, sane p -> y VDC <> 0 -> e_conn e = true -> mod_ok p y PA ->
  cur_ok p (Cx (y XDC + Kp_DC p * (e_Vdcref e - y VDC)) (y XQ - Kp_Q p * (e_Qref e - im (S1_pcc p e y)))) ->
  let v := v_calc p e PA (i_of y PA) in
  stationary (ode1 p) e y <->
  (y VDC = e_Vdcref e /\                                   (* DC link at its set point *)
   im (S_ph v (i_of y PA)) = e_Qref e /\                   (* reactive power at its set point *)
   re (S1_inv p y) = Ppv_of p e (y VDC) /\                 (* all the PV power is converted *)
   i_of y PA = Cx (y XDC) (y XQ) /\ u_of y PA = Cx 0 0 /\  (* current at its reference *)
   vt_calc p (y VDC) (u_of y PA) (x_of y PA) = filter_drop p (wbase + y XPLL) v (i_of y PA) /\
   vd_single_phase v (e_wgrid e) (e_t e) (y WTE) = 0).     (* PLL error zero *)
Proof.
  intros p e y Hs HV Hc Hm Hi v. pose proof Hs as (HL & HC & HG & HW & HD & HP & HQ & HPL & HT).
  apply cur_sat in Hi. unfold stationary. rewrite var_cases.
  assert (EQ : eff_Qref e = e_Qref e) by (unfold eff_Qref; now rewrite Hc).
  assert (EV : eff_Vref e (y VDC) = e_Vdcref e) by (unfold eff_Vref; now rewrite Hc).
  assert (EP : forall z, eff_Ppv e z = z) by (intros; unfold eff_Ppv; now rewrite Hc).
  assert (EI : forall z, eff_iref e z = z) by (intros; unfold eff_iref; now rewrite Hc).
  cbn [ode1]. rewrite EQ, EV, EP, EI. unfold dxDC, dxQ, iref1_test. rewrite EQ, EV.
  unfold ia_ref_calc. rewrite Hi, !aw_off. rewrite phase_zero by auto.
  rewrite dVdc_zero by auto. fold v. change (im (S1_pcc p e y)) with (im (S_ph v (i_of y PA))).
  unfold iref1, ia_ref_calc, vd1. fold v. change (im (S1_pcc p e y)) with (im (S_ph v (i_of y PA))).
  set (vd := vd_single_phase v (e_wgrid e) (e_t e) (y WTE)). set (q := im (S_ph v (i_of y PA))). unfold we_calc.
  split.
  - intros ((A & B & C) & _ & _ & D & E & _ & F & G & _).
    apply mul0 in E; auto. apply mul0 in G; auto. apply mul0 in F; [|lra].
    assert (E' : y VDC = e_Vdcref e) by lra. assert (F' : q = e_Qref e) by lra.
    rewrite G in C. repeat split; auto.
    + rewrite B. rewrite <- E', F', !Rminus_eq_0, !Rmult_0_r, Rplus_0_r, Rminus_0_r. reflexivity.
    + rewrite C. f_equal. unfold wbase. lra.
  - intros (A & B & C & D & E & F & G). rewrite G, B, <- A, !Rminus_eq_0, !Rmult_0_r, Rplus_0_r, Rminus_0_r.
    repeat split; auto. rewrite F. f_equal. unfold wbase. lra.
Qed.
Print Assumptions C96_single_phase.

(** Three phase: the currents are a balanced set whatever the grid voltages. *)
Theorem C96_three_phase :
  forall p e y, sane p -> y VDC <> 0 -> e_conn e = true -> (forall k, mod_ok p y k) ->
  cur_ok p (Cx (y XDC + Kp_DC p * (e_Vdcref e - y VDC)) (y XQ - Kp_Q p * (e_Qref e - im (S3_pcc p e y)))) ->
  let v k := v_calc p e k (i_of y k) in
  stationary (ode3 p) e y <->
  (y VDC = e_Vdcref e /\
   im (cadd (cadd (S_ph (v PA) (i_of y PA)) (S_ph (v PB) (i_of y PB))) (S_ph (v PC) (i_of y PC))) = e_Qref e /\
   re (S3_inv p y) = Ppv_of p e (y VDC) /\
   (i_of y PA = Cx (y XDC) (y XQ) /\ i_of y PB = Ub_calc (Cx (y XDC) (y XQ)) /\ i_of y PC = Uc_calc (Cx (y XDC) (y XQ))) /\
   (forall k, u_of y k = Cx 0 0) /\
   (forall k, vt_calc p (y VDC) (u_of y k) (x_of y k) = filter_drop p (wbase + y XPLL) (v k) (i_of y k)) /\
   vd_three_phase (v PA) (v PB) (v PC) (e_wgrid e) (e_t e) (y WTE) = 0 /\
   v_filtered y = v_rms p e y).
Proof.
  intros p e y Hs HV Hc Hm Hi v. pose proof Hs as (HL & HC & HG & HW & HD & HP & HQ & HPL & HT).
  apply cur_sat in Hi. unfold stationary. rewrite var_cases.
  assert (EQ : eff_Qref e = e_Qref e) by (unfold eff_Qref; now rewrite Hc).
  assert (EV : eff_Vref e (y VDC) = e_Vdcref e) by (unfold eff_Vref; now rewrite Hc).
  assert (EP : forall z, eff_Ppv e z = z) by (intros; unfold eff_Ppv; now rewrite Hc).
  assert (EI : forall z, eff_iref e z = z) by (intros; unfold eff_iref; now rewrite Hc).
  cbn [ode3]. rewrite EQ, EV, EP, !EI. unfold dxDC, dxQ, iref3_test. rewrite EQ, EV.
  unfold ia_ref_calc. rewrite Hi, !aw_off. rewrite !phase_zero by auto.
  rewrite dVdc_zero by auto.
  set (q := im (cadd (cadd (S_ph (v PA) (i_of y PA)) (S_ph (v PB) (i_of y PB))) (S_ph (v PC) (i_of y PC)))).
  unfold iref3a, ia_ref_calc, vd3. change (im (S3_pcc p e y)) with q.
  change (v3_of p e y PA) with (v PA). change (v3_of p e y PB) with (v PB). change (v3_of p e y PC) with (v PC).
  unfold vt3_of. change (Urms_calc (v PA) (v PB) (v PC)) with (v_rms p e y). change (y VRF) with (v_filtered y).
  set (vd := vd_three_phase (v PA) (v PB) (v PC) (e_wgrid e) (e_t e) (y WTE)). unfold we_calc. cbn [rot].
  split.
  - intros ((A1 & B1 & C1) & (A2 & B2 & C2) & (A3 & B3 & C3) & D & E & _ & F & G & H).
    apply mul0 in E; auto. apply mul0 in G; auto. apply mul0 in F; [|lra].
    assert (E' : y VDC = e_Vdcref e) by lra. assert (F' : q = e_Qref e) by lra.
    apply mul0 in H; [|apply Rgt_not_eq; unfold Rdiv; rewrite Rmult_1_l; apply Rinv_0_lt_compat; auto].
    rewrite G in C1, C2, C3.
    rewrite <- E', F', !Rminus_eq_0, !Rmult_0_r, Rplus_0_r, Rminus_0_r in B1, B2, B3.
    replace (2 * PI * 60) with wbase in C1, C2, C3 by reflexivity.
    assert (K : Kp_PLL p * 0 + y XPLL + wbase = wbase + y XPLL) by lra.
    repeat split; auto; try lra.
    + intros k; destruct k; auto.
    + intros k. assert (W : 2 * PI * 60 = wbase) by reflexivity. destruct k; [rewrite C1|rewrite C2|rewrite C3]; f_equal; lra.
  - intros (A & B & C & (D1 & D2 & D3) & E & F & G & H).
    rewrite G, B, <- A, H, !Rminus_eq_0, !Rmult_0_r, Rplus_0_r, Rminus_0_r.
    repeat split; auto; rewrite F; f_equal; unfold wbase; lra.
Qed.
Print Assumptions C96_three_phase.

(** Balanced three phase (phases b and c are rotated copies of phase a). *)
Theorem C96_balanced :
  forall p e y, sane p -> y VDC <> 0 -> e_conn e = true -> mod_ok p y PA ->
  cur_ok p (Cx (y XDC + Kp_DC p * (e_Vdcref e - y VDC)) (y XQ - Kp_Q p * (e_Qref e - im (Sb_pcc p e y)))) ->
  let v := v_calc p e PA (i_of y PA) in
  stationary (odeb p) e y <->
  (y VDC = e_Vdcref e /\
   im (cadd (cadd (S_ph v (i_of y PA)) (S_ph (Ub_calc v) (Ub_calc (i_of y PA)))) (S_ph (Uc_calc v) (Uc_calc (i_of y PA)))) = e_Qref e /\
   re (Sb_inv p y) = Ppv_of p e (y VDC) /\
   i_of y PA = Cx (y XDC) (y XQ) /\ u_of y PA = Cx 0 0 /\
   vt_calc p (y VDC) (u_of y PA) (x_of y PA) = filter_drop p (wbase + y XPLL) v (i_of y PA) /\
   vd_three_phase v (Ub_calc v) (Uc_calc v) (e_wgrid e) (e_t e) (y WTE) = 0).
Proof.
  intros p e y Hs HV Hc Hm Hi v. pose proof Hs as (HL & HC & HG & HW & HD & HP & HQ & HPL & HT).
  apply cur_sat in Hi. unfold stationary. rewrite var_cases.
  assert (EQ : eff_Qref e = e_Qref e) by (unfold eff_Qref; now rewrite Hc).
  assert (EV : eff_Vref e (y VDC) = e_Vdcref e) by (unfold eff_Vref; now rewrite Hc).
  assert (EP : forall z, eff_Ppv e z = z) by (intros; unfold eff_Ppv; now rewrite Hc).
  assert (EI : forall z, eff_iref e z = z) by (intros; unfold eff_iref; now rewrite Hc).
  cbn [odeb]. rewrite EQ, EV, EP, EI. unfold dxDC, dxQ, irefb_test. rewrite EQ, EV.
  unfold ia_ref_calc. rewrite Hi, !aw_off. rewrite phase_zero by auto.
  rewrite dVdc_zero by auto. fold v.
  set (q := im (cadd (cadd (S_ph v (i_of y PA)) (S_ph (Ub_calc v) (Ub_calc (i_of y PA)))) (S_ph (Uc_calc v) (Uc_calc (i_of y PA))))).
  unfold irefb, ia_ref_calc, vdb, vb_of. fold v. change (im (Sb_pcc p e y)) with q. cbn [rot].
  set (vd := vd_three_phase v (Ub_calc v) (Uc_calc v) (e_wgrid e) (e_t e) (y WTE)). unfold we_calc.
  split.
  - intros ((A & B & C) & _ & _ & D & E & _ & F & G & _).
    apply mul0 in E; auto. apply mul0 in G; auto. apply mul0 in F; [|lra].
    assert (E' : y VDC = e_Vdcref e) by lra. assert (F' : q = e_Qref e) by lra.
    rewrite G in C. repeat split; auto.
    + rewrite B. rewrite <- E', F', !Rminus_eq_0, !Rmult_0_r, Rplus_0_r, Rminus_0_r. reflexivity.
    + rewrite C. f_equal. unfold wbase. lra.
  - intros (A & B & C & D & E & F & G). rewrite G, B, <- A, !Rminus_eq_0, !Rmult_0_r, Rplus_0_r, Rminus_0_r.
    repeat split; auto. rewrite F. f_equal. unfold wbase. lra.
Qed.
Print Assumptions C96_balanced.

(** Single phase with constant DC voltage: the power loop replaces the DC-link loop. *)
Theorem C96_constant_Vdc :
  forall p e y, sane p -> e_conn e = true -> mod_ok p y PA ->
  cur_ok p (Cx (y XP + Kp_P p * (Ppv_of p e (e_Vconst e) - re (Sc_inv p e y))) (y XQ - Kp_Q p * (e_Qref e - im (S1_pcc p e y)))) ->
  let v := v_calc p e PA (i_of y PA) in
  stationary (odec p) e y <->
  (im (S_ph v (i_of y PA)) = e_Qref e /\
   re (Sc_inv p e y) = Ppv_of p e (e_Vconst e) /\
   i_of y PA = Cx (y XP) (y XQ) /\ u_of y PA = Cx 0 0 /\
   vt_calc p (e_Vconst e) (u_of y PA) (x_of y PA) = filter_drop p (wbase + y XPLL) v (i_of y PA) /\
   vd_single_phase v (e_wgrid e) (e_t e) (y WTE) = 0).
Proof.
  intros p e y Hs Hc Hm Hi v. pose proof Hs as (HL & HC & HG & HW & HD & HP & HQ & HPL & HT).
  apply cur_sat in Hi. unfold stationary. rewrite var_cases.
  assert (EQ : eff_Qref e = e_Qref e) by (unfold eff_Qref; now rewrite Hc).
  assert (EP : forall z, eff_Ppv e z = z) by (intros; unfold eff_Ppv; now rewrite Hc).
  assert (EI : forall z, eff_iref e z = z) by (intros; unfold eff_iref; now rewrite Hc).
  cbn [odec]. rewrite EQ, EP, EI. unfold dxQ, irefc_test. rewrite EQ, EP.
  unfold ia_ref_activepower. rewrite Hi, !aw_off. rewrite phase_zero by auto.
  fold v. change (im (S1_pcc p e y)) with (im (S_ph v (i_of y PA))).
  unfold irefc, ia_ref_activepower, vd1. fold v. change (im (S1_pcc p e y)) with (im (S_ph v (i_of y PA))).
  set (vd := vd_single_phase v (e_wgrid e) (e_t e) (y WTE)). set (q := im (S_ph v (i_of y PA))). unfold we_calc.
  set (pp := Ppv_of p e (e_Vconst e)). set (ps := re (Sc_inv p e y)).
  split.
  - intros ((A & B & C) & _ & _ & _ & _ & E & F & G & _).
    apply mul0 in E; auto. apply mul0 in G; auto. apply mul0 in F; [|lra].
    assert (E' : ps = pp) by lra. assert (F' : q = e_Qref e) by lra.
    rewrite G in C. repeat split; auto.
    + rewrite B. rewrite E', F', !Rminus_eq_0, !Rmult_0_r, Rplus_0_r, Rminus_0_r. reflexivity.
    + rewrite C. f_equal. unfold wbase. lra.
  - intros (B & A & D & E & F & G). rewrite G, B, A, !Rminus_eq_0, !Rmult_0_r, Rplus_0_r, Rminus_0_r.
    repeat split; auto. rewrite F. f_equal. unfold wbase. lra.
Qed.
Print Assumptions C96_constant_Vdc.

(** At an equilibrium the active power delivered at the connection point is the PV
    power minus the losses in the filter resistance (peak phasors: Rf |i|^2 / 2). *)
Lemma drop_power p w v i vt : vt = filter_drop p w v i -> re (S_ph v i) = re (S_ph vt i) - Rf p * cnorm2 i / 2.
Proof.
  intros ->. destruct v as [v1 v2], i as [i1 i2]. unfold filter_drop, S_ph, cscale, cmul, conj, cadd, cnorm2. cbn [re im].
  set (x := w / wbase * Lf p). lra.
Qed.
Theorem C96_delivered_power :
  forall p e y, sane p -> y VDC <> 0 -> e_conn e = true ->
  (mod_ok p y PA ->
   cur_ok p (Cx (y XDC + Kp_DC p * (e_Vdcref e - y VDC)) (y XQ - Kp_Q p * (e_Qref e - im (S1_pcc p e y)))) ->
   stationary (ode1 p) e y ->
   re (S1_pcc p e y) = Ppv_of p e (e_Vdcref e) - Rf p * ((y XDC) ^ 2 + (y XQ) ^ 2) / 2) /\
  ((forall k, mod_ok p y k) ->
   cur_ok p (Cx (y XDC + Kp_DC p * (e_Vdcref e - y VDC)) (y XQ - Kp_Q p * (e_Qref e - im (S3_pcc p e y)))) ->
   stationary (ode3 p) e y ->
   re (S3_pcc p e y) = Ppv_of p e (e_Vdcref e) - 3 * (Rf p * ((y XDC) ^ 2 + (y XQ) ^ 2) / 2)).
Proof.
  intros p e y Hs HV Hc. split; intros Hm Hi H.
  - apply C96_single_phase in H; auto. destruct H as (A & _ & C & D & _ & F & _).
    unfold S1_pcc. rewrite (drop_power _ _ _ _ _ F). change (S_ph (vt_calc p (y VDC) (u_of y PA) (x_of y PA)) (i_of y PA)) with (S1_inv p y).
    rewrite C, D, A. unfold cnorm2. cbn [re im]. lra.
  - apply C96_three_phase in H; auto. destruct H as (A & _ & C & (D1 & D2 & D3) & _ & F & _).
    rewrite <- A. rewrite <- C. unfold S3_pcc, S3_inv, sum3, v3_of, vt3_of, cadd at 1 2 3. cbn [re im].
    unfold cadd. cbn [re im].
    rewrite (drop_power _ _ _ _ _ (F PA)), (drop_power _ _ _ _ _ (F PB)), (drop_power _ _ _ _ _ (F PC)).
    assert (N : forall k, cnorm2 (i_of y k) = cnorm2 (Cx (y XDC) (y XQ))).
    { intros k. rewrite <- !cabs_sq. f_equal; destruct k; [now rewrite D1| | |now rewrite D1| |].
      all: try (rewrite D2; change Ub_calc with (rot PB); apply rot_abs). all: rewrite D3; change Uc_calc with (rot PC); apply rot_abs. }
    rewrite !N. unfold cnorm2. cbn [re im]. lra.
Qed.
Print Assumptions C96_delivered_power.

(** The steady export of 1/2 per unit of C51 meets the hypotheses (and is stationary). *)
Example C96_hypotheses_met :
  exists p e y, sane p /\ y VDC <> 0 /\ e_conn e = true /\ mod_ok p y PA /\
  cur_ok p (Cx (y XDC + Kp_DC p * (e_Vdcref e - y VDC)) (y XQ - Kp_Q p * (e_Qref e - im (S1_pcc p e y)))) /\
  stationary (ode1 p) e y /\ re (S1_pcc p e y) = 1/2.
Proof.
  pose proof (example_rhs 0) as H. cbv zeta in H. do 3 eexists.
  split; [|split; [|split; [|split; [|split; [|split]]]]].
  6:{ intros v Hv. rewrite H. destruct v; auto; congruence. }
  - unfold sane. cbn. lra.
  - cbn. lra.
  - reflexivity.
  - unfold mod_ok, cabs. cbn [m_limit]. rewrite <- (sqrt_square 10) by lra. apply sqrt_le_1_alt.
    unfold cnorm2, cadd, cscale, u_of, x_of. cbn. lra.
  - unfold cur_ok, cabs. cbn [iref_limit]. rewrite <- (sqrt_square 10) by lra. apply sqrt_le_1_alt.
    unfold S1_pcc, v_calc, i_of, S_ph, crect, cscale, cmul, conj, cexp, cnorm2. cbn. rewrite sin_0. lra.
  - unfold S1_pcc, v_calc, i_of, S_ph, crect, cscale, cmul, conj, cexp. cbn. rewrite cos_0. lra.
Qed.

(** * C95: disconnected *)
(** While disconnected, the set points and the weather have no influence on any state,
    in any model, saturated or not. *)
Theorem C95_isolated_from_set_points :
  forall p e y q v m w, e_conn e = false ->
  ode1 p (with_refs e q v m) y w = ode1 p e y w /\
  ode3 p (with_refs e q v m) y w = ode3 p e y w /\
  odeb p (with_refs e q v m) y w = odeb p e y w /\
  odec p (with_refs e q v m) y w = odec p e y w.
Proof.
  intros p e y q v m w Hc. destruct e as [t wg va vb vc g Qr Vr md cn Vc]. cbn [e_conn] in Hc. subst cn.
  repeat split; destruct w as [[| |] [| | | | |]| | | | | | |]; reflexivity.
Qed.
Print Assumptions C95_isolated_from_set_points.

(** The DC-link loop is frozen, the DC link only exchanges power with the inverter
    terminals, and with an unsaturated modulator the current controller drives every
    phase towards zero current. *)
Theorem C95_references_zero :
  forall p e y, e_conn e = false ->
  ode1 p e y XDC = 0 /\ ode3 p e y XDC = 0 /\ odeb p e y XDC = 0 /\
  ode1 p e y VDC = - re (S1_inv p y) / (y VDC * Cdc p) /\
  ode3 p e y VDC = - re (S3_inv p y) / (y VDC * Cdc p) /\
  odeb p e y VDC = - re (Sb_inv p y) / (y VDC * Cdc p) /\
  (mod_ok p y PA ->
     ode1 p e y (P PA CuR) = - (wp p * (y (P PA CuR) + y (P PA CiR))) /\
     ode1 p e y (P PA CuI) = - (wp p * (y (P PA CuI) + y (P PA CiI))) /\
     odeb p e y (P PA CuR) = - (wp p * (y (P PA CuR) + y (P PA CiR))) /\
     odeb p e y (P PA CuI) = - (wp p * (y (P PA CuI) + y (P PA CiI))) /\
     odec p e y (P PA CuR) = - (wp p * (y (P PA CuR) + y (P PA CiR))) /\
     odec p e y (P PA CuI) = - (wp p * (y (P PA CuI) + y (P PA CiI)))) /\
  (forall k, mod_ok p y k ->
     ode3 p e y (P k CuR) = - (wp p * (y (P k CuR) + y (P k CiR))) /\
     ode3 p e y (P k CuI) = - (wp p * (y (P k CuI) + y (P k CiI)))).
Proof.
  intros p e y Hc.
  assert (EV : eff_Vref e (y VDC) = y VDC) by (unfold eff_Vref; now rewrite Hc).
  assert (EP : forall z, eff_Ppv e z = 0) by (intros; unfold eff_Ppv; now rewrite Hc).
  assert (EI : forall z, eff_iref e z = Cx 0 0) by (intros; unfold eff_iref; now rewrite Hc).
  assert (X : forall q a b c, dxDC p (y VDC) (y VDC) q a b c = 0).
  { intros. unfold dxDC. rewrite Rminus_eq_0, Rmult_0_r. apply aw_zero0. }
  cbn [ode1 ode3 odeb odec d_comp]. rewrite EV, !EP, !EI, !X. unfold dVdc. rewrite !Rminus_0_l.
  repeat split; unfold du_re, du_im, u_err; try (rewrite EI); rewrite (mod_sat p y _ H), aw_off; unfold u_of, i_of; cbn [re im]; lra.
Qed.
Print Assumptions C95_references_zero.

(** Stored energy only decreases through the power sent to the grid and the losses:
    no PV term. *)
Theorem C95_no_infeed :
  forall p E Y, Lf p <> 0 -> Cdc p <> 0 -> (forall t, Y t VDC <> 0) -> (forall t, e_conn (E t) = false) ->
  (trajectory (ode1 p) E Y -> forall t, is_derive (fun s => energy1 p (Y s)) t
    (- re (S1_pcc p (E t) (Y t)) - Rf p * cnorm2 (i_of (Y t) PA) / 2)) /\
  (trajectory (ode3 p) E Y -> forall t, is_derive (fun s => energy3 p (Y s)) t
    (- re (S3_pcc p (E t) (Y t)) - Rf p * (cnorm2 (i_of (Y t) PA) + cnorm2 (i_of (Y t) PB) + cnorm2 (i_of (Y t) PC)) / 2)).
Proof.
  intros p E Y HL HC HV Hc. split; intros HT t.
  - pose proof (C51_energy_balance_single_phase p E Y HL HC HV HT t) as K. unfold eff_Ppv in K. rewrite Hc in K.
    evar_last; [exact K|]. lra.
  - pose proof (C51_energy_balance_three_phase p E Y HL HC HV HT t) as K. unfold eff_Ppv in K. rewrite Hc in K.
    evar_last; [exact K|]. lra.
Qed.
Print Assumptions C95_no_infeed.

(** Equilibria of a disconnected DER are exactly the states with zero current in every
    phase (hence zero active and reactive power) whose terminal voltage equals the
    grid voltage, with the PLL in step. *)
Theorem C95_equilibria_deliver_nothing :
  forall p e y, sane p -> y VDC <> 0 -> e_conn e = false ->
  (mod_ok p y PA ->
   let v := v_calc p e PA (Cx 0 0) in
   (stationary (ode1 p) e y <->
    i_of y PA = Cx 0 0 /\ u_of y PA = Cx 0 0 /\ vt_calc p (y VDC) (u_of y PA) (x_of y PA) = v /\
    vd_single_phase v (e_wgrid e) (e_t e) (y WTE) = 0) /\
   (stationary (ode1 p) e y -> S1_pcc p e y = Cx 0 0 /\ S1_inv p y = Cx 0 0)) /\
  ((forall k, mod_ok p y k) ->
   let v k := v_calc p e k (Cx 0 0) in
   (stationary (ode3 p) e y <->
    (forall k, i_of y k = Cx 0 0 /\ u_of y k = Cx 0 0 /\ vt_calc p (y VDC) (u_of y k) (x_of y k) = v k) /\
    vd_three_phase (v PA) (v PB) (v PC) (e_wgrid e) (e_t e) (y WTE) = 0 /\ v_filtered y = v_rms p e y) /\
   (stationary (ode3 p) e y -> S3_pcc p e y = Cx 0 0 /\ S3_inv p y = Cx 0 0)).
Proof.
  intros p e y Hs HV Hc. pose proof Hs as (HL & HC & HG & HW & HD & HP & HQ & HPL & HT).
  assert (EQ : eff_Qref e = 0) by (unfold eff_Qref; now rewrite Hc).
  assert (EV : eff_Vref e (y VDC) = y VDC) by (unfold eff_Vref; now rewrite Hc).
  assert (EP : forall z, eff_Ppv e z = 0) by (intros; unfold eff_Ppv; now rewrite Hc).
  assert (EI : forall z, eff_iref e z = Cx 0 0) by (intros; unfold eff_iref; now rewrite Hc).
  assert (S0 : forall v, S_ph v (Cx 0 0) = Cx 0 0).
  { intros v. unfold S_ph, cscale, cmul, conj. cbn [re im]. apply cx_eq2; cbn [re im]; lra. }
  assert (X : forall q a b c, dxDC p (y VDC) (y VDC) q a b c = 0).
  { intros. unfold dxDC. rewrite Rminus_eq_0, Rmult_0_r. apply aw_zero0. }
  assert (Q : forall z x, dxQ p z 0 x 0 = 0).
  { intros. unfold dxQ. rewrite Rminus_eq_0, Rmult_0_r. apply aw_zero0. }
  assert (FD : forall w v, filter_drop p w v (Cx 0 0) = v).
  { intros w v. unfold filter_drop, cadd, cmul. cbn [re im]. apply cx_eq2; cbn [re im]; lra. }
  split.
  - intros Hm v.
    assert (K : stationary (ode1 p) e y <->
      i_of y PA = Cx 0 0 /\ u_of y PA = Cx 0 0 /\ vt_calc p (y VDC) (u_of y PA) (x_of y PA) = v /\
      vd_single_phase v (e_wgrid e) (e_t e) (y WTE) = 0).
    { unfold stationary. rewrite var_cases. cbn [ode1]. rewrite EQ, EV, EP, EI, X. rewrite phase_zero by auto. rewrite dVdc_zero by auto. split.
      - intros ((A & B & C) & _ & _ & _ & _ & _ & _ & G & _). rewrite B in C |- *. rewrite FD in C. apply mul0 in G; auto.
        unfold vd1 in G. rewrite B in G. repeat split; auto.
      - intros (A & B & C & D). unfold vd1, S1_pcc, S1_inv. rewrite A, !S0. cbn [im re]. rewrite Q, FD. fold v. rewrite D. repeat split; auto. lra. }
    split; [exact K|]. intros Hst. apply K in Hst. destruct Hst as (A & _). unfold S1_pcc, S1_inv. rewrite A, !S0. auto.
  - intros Hm v.
    assert (K : stationary (ode3 p) e y <->
      (forall k, i_of y k = Cx 0 0 /\ u_of y k = Cx 0 0 /\ vt_calc p (y VDC) (u_of y k) (x_of y k) = v k) /\
      vd_three_phase (v PA) (v PB) (v PC) (e_wgrid e) (e_t e) (y WTE) = 0 /\ v_filtered y = v_rms p e y).
    { unfold stationary. rewrite var_cases. cbn [ode3]. rewrite EQ, EV, EP, !EI, X. rewrite !phase_zero by auto. rewrite dVdc_zero by auto.
      change (Urms_calc (v3_of p e y PA) (v3_of p e y PB) (v3_of p e y PC)) with (v_rms p e y). change (y VRF) with (v_filtered y).
      unfold vt3_of, v3_of. split.
      - intros ((A1 & B1 & C1) & (A2 & B2 & C2) & (A3 & B3 & C3) & _ & _ & _ & _ & G & H).
        rewrite B1 in C1. rewrite B2 in C2. rewrite B3 in C3. rewrite FD in C1, C2, C3. apply mul0 in G; auto.
        unfold vd3, v3_of in G. rewrite B1, B2, B3 in G.
        apply mul0 in H; [|apply Rgt_not_eq; unfold Rdiv; rewrite Rmult_1_l; apply Rinv_0_lt_compat; auto].
        split; [intros k; destruct k; auto|]. split; [exact G|lra].
      - intros (A & D & G). unfold vd3, S3_pcc, S3_inv, sum3, v3_of, vt3_of.
        pose proof (A PA) as (A1 & A2 & A3). pose proof (A PB) as (B1 & B2 & B3). pose proof (A PC) as (C1 & C2 & C3).
        rewrite A1, B1, C1, !S0. unfold cadd. cbn [im re]. rewrite !Rplus_0_r, Q, !FD. rewrite G.
        change (vd_three_phase _ _ _ _ _ _) with (vd_three_phase (v PA) (v PB) (v PC) (e_wgrid e) (e_t e) (y WTE)). rewrite D.
        repeat split; auto; lra. }
    split; [exact K|]. intros Hst. apply K in Hst. destruct Hst as (A & _).
    pose proof (A PA) as (A1 & _). pose proof (A PB) as (B1 & _). pose proof (A PC) as (C1 & _).
    unfold S3_pcc, S3_inv, sum3. rewrite A1, B1, C1, !S0. unfold cadd. cbn [re im]. rewrite !Rplus_0_r. auto.
Qed.
Print Assumptions C95_equilibria_deliver_nothing.
(** A tripped three-phase DER on a healthy grid is such a state. *)
Example C95_hypotheses_met : forall p m t, sane p -> sqrt 1 <= m_limit p ->
  e_conn (filt_env 1 t m) = false /\ filt_state p 1 t VDC <> 0 /\ (forall k, mod_ok p (filt_state p 1 t) k) /\
  (forall v, v <> WTE -> v <> VRF -> ode3 p (filt_env 1 t m) (filt_state p 1 t) v = 0).
Proof.
  intros p m t Hs Hm. split; [reflexivity|]. split; [cbn; lra|]. split.
  - intros k. unfold mod_ok. replace (cadd _ _) with (rot k (crect 1 0)).
    2:{ unfold cadd, cscale, u_of, x_of. cbn [re im filt_state]. apply cx_eq2; cbn [re im]; lra. }
    rewrite rot_abs. unfold cabs, cnorm2, crect, cscale, cexp. cbn [re im]. rewrite cos_0, sin_0.
    replace (1 * 1 * (1 * 1) + 1 * 0 * (1 * 0)) with 1 by lra. auto.
  - intros v Hv Hf. pose proof (filt_trajectory p 1 m (proj2 (proj2 (proj2 (proj2 (proj2 (proj2 (proj2 (proj2 Hs)))))))) t v) as D.
    rewrite <- (is_derive_unique _ _ _ D).
    transitivity (Derive (fun _ => filt_state p 1 t v) t); [|apply Derive_const].
    apply Derive_ext. intros s. destruct v as [k [| | | | |]| | | | | | |]; try reflexivity; congruence.
Qed.
