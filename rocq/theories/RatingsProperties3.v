(** Properties C85 and C86: the state a steady-state initialisation starts from. *)
From Verif Require Import RBase CxField PhasorModel PVModel ODEModel PhasorProperties PhasorProperties2 RatingsModel RatingsProperties RatingsProperties2.
From Verif Require CircuitProperties3.
Open Scope R_scope.

(** * C85: the initial state is an equilibrium *)
(** The set points are those of the operating point and the DER is connected. *)
Definition at_point (p : prm) (e : env) (o : opoint) : Prop :=
  e_conn e = true /\ e_Qref e = op_Qref o /\ e_Vdcref e = op_Vdc o /\ Ppv_of p e (op_Vdc o) = op_Ppv o.

Lemma aw_zero sat d x : d = 0 -> aw sat d x d = 0.
Proof. intros ->. unfold aw. destruct sat; auto. destruct (same_sign 0 x); auto. Qed.
Lemma aw_bound sat d x : Rabs (aw sat d x d) <= Rabs d.
Proof. unfold aw. destruct sat; [destruct (same_sign d x)|]; try lra. rewrite Rabs_R0. apply Rabs_pos. Qed.
Lemma aw_x0 sat d : aw sat d 0 d = d.
Proof.
  unfold aw, same_sign, np_sign. destruct sat; auto.
  assert (rlt 0 0 = false) as -> by (apply rlt_false; lra).
  destruct (rlt 0 d) eqn:E1; [|destruct (rlt d 0) eqn:E2]; rb.
  - assert (req 1 0 = false) as -> by (apply req_false; lra). auto.
  - assert (req (-1) 0 = false) as -> by (apply req_false; lra). auto.
  - assert (req 0 0 = true) as -> by (apply req_iff; auto). lra.
Qed.
Lemma re_le z : Rabs (re z) <= cabs z.
Proof.
  pose proof (cabs_nonneg z). pose proof (cabs_sq z) as E. unfold cnorm2 in E. apply Rabs_le. split; nra.
Qed.
Lemma im_le z : Rabs (im z) <= cabs z.
Proof.
  pose proof (cabs_nonneg z). pose proof (cabs_sq z) as E. unfold cnorm2 in E. apply Rabs_le. split; nra.
Qed.
Lemma rot_sub k a b : csub (rot k a) (rot k b) = rot k (csub a b).
Proof. destruct k; cbn [rot]; unfold Ub_calc, Uc_calc; auto; unfold csub, cmul; apply cx_eq; cbn [re im]; ring. Qed.

Lemma ss_i_of Vdc s k : i_of (ss_state Vdc s) k = ss_i s k.
Proof. unfold i_of. cbn [ss_state]. destruct (ss_i s k); reflexivity. Qed.
Lemma ss_x_of Vdc s k : x_of (ss_state Vdc s) k = ss_x s k.
Proof. unfold x_of. cbn [ss_state]. destruct (ss_x s k); reflexivity. Qed.
Lemma ss_u_of Vdc s k : u_of (ss_state Vdc s) k = ss_u s k.
Proof. unfold u_of. cbn [ss_state]. destruct (ss_u s k); reflexivity. Qed.
Lemma vt_zero p V m : vt_calc p V (Cx 0 0) m = cscale (V / 2) m.
Proof. unfold vt_calc, m_calc, cscale, cadd. cbn [re im]. apply cx_eq; cbn [re im]; ring. Qed.

(** Derivatives of the current in terms of the voltage left over the filter. *)
Lemma di_drop p w i v vt : Lf p <> 0 -> let d := csub (csub vt v) (cmul i (Cx (Rf p) (Lf p))) in
  di_re p w i v vt = re d / Lf p + (w / wbase - 1) * im i /\
  di_im p w i v vt = im d / Lf p - (w / wbase - 1) * re i.
Proof.
  intros HL d. unfold d, di_re, di_im. destruct i as [i1 i2], v as [v1 v2], vt as [t1 t2]. cbn [re im csub cmul].
  split; field; split; auto; unfold wbase; pose proof PI_RGT_0; lra.
Qed.

(** Bound on every derivative at the initial state, for a solution whose error is at
    most eps^2; [vd] is the error the PLL sees and [dI] the distance between the
    outer-loop integrators and the current. *)
Definition deriv_bound (p : prm) (o : opoint) (eps vd dI : R) (i : phase -> cx) (v : var) : R :=
  match v with
  | P k (CiR | CiI) => eps / Rabs (Lf p) + Rabs (Kp_PLL p * vd / wbase) * cabs (i k)
  | P k (CxR | CxI) => 0
  | P k (CuR | CuI) => Rabs (wp p) * (dI + Rabs (Kp_Q p) * eps)
  | VDC => eps / Rabs (op_Vdc o * Cdc p)
  | XQ => Rabs (Ki_Q p) * eps
  | XPLL => Rabs (Ki_PLL p * vd)
  | WTE => Rabs (Kp_PLL p * vd)
  | _ => 0
  end.
(** The angle of the PLL advances at the nominal frequency. *)
Definition nominal (v : var) : R := match v with WTE => wbase | _ => 0 end.

Lemma Rabs_div_le a b e : b <> 0 -> Rabs a <= e -> Rabs (a / b) <= e / Rabs b.
Proof.
  intros Hb Ha. unfold Rdiv. rewrite Rabs_mult, Rabs_inv. apply Rmult_le_compat_r; auto.
  left. apply Rinv_0_lt_compat. now apply Rabs_pos_lt.
Qed.
Lemma di_bound p vd i v vt eps : Lf p <> 0 -> cabs (csub (csub vt v) (cmul i (Cx (Rf p) (Lf p)))) <= eps ->
  let w := we_calc (Kp_PLL p) vd 0 in
  let b := eps / Rabs (Lf p) + Rabs (Kp_PLL p * vd / wbase) * cabs i in
  Rabs (di_re p w i v vt) <= b /\ Rabs (di_im p w i v vt) <= b.
Proof.
  intros HL HE w b. destruct (di_drop p w i v vt HL) as [-> ->].
  assert (W : w / wbase - 1 = Kp_PLL p * vd / wbase).
  { unfold w, we_calc. unfold wbase. pose proof PI_RGT_0. field. lra. }
  rewrite W. set (d := csub (csub vt v) _) in *. unfold b. set (q := Kp_PLL p * vd / wbase). clearbody q d.
  pose proof (re_le d). pose proof (im_le d). pose proof (re_le i). pose proof (im_le i).
  pose proof (Rabs_div_le (re d) (Lf p) eps HL ltac:(lra)). pose proof (Rabs_div_le (im d) (Lf p) eps HL ltac:(lra)).
  assert (M : forall x, Rabs x <= cabs i -> Rabs (q * x) <= Rabs q * cabs i).
  { intros x Hx. rewrite Rabs_mult. apply Rmult_le_compat_l; auto. apply Rabs_pos. }
  pose proof (M _ H1). pose proof (M _ H2).
  split.
  - eapply Rle_trans; [apply Rabs_triang|]. lra.
  - unfold Rminus. eapply Rle_trans; [apply Rabs_triang|]. rewrite Rabs_Ropp. lra.
Qed.

(** The state of a solution u whose outer-loop integrators are taken from the
    current ia0. *)
Definition start (p : prm) (e : env) (three : bool) (o : opoint) (u : unk) (ia0 : cx) : st :=
  ss_state (op_Vdc o) (SS (k_i u) (k_m u) (fun _ => Cx 0 0) (re ia0) (re ia0) (im ia0) 0 (2 * PI)
    (if three then Urms_calc (k_v p e u PA) (k_v p e u PB) (k_v p e u PC) else Urms_calc (k_v p e u PA) (k_v p e u PA) (k_v p e u PA))).

Lemma du_start p x iref i : du_re p (Cx 0 0) x iref i = wp p * (re iref - re i) /\ du_im p (Cx 0 0) x iref i = wp p * (im iref - im i).
Proof. unfold du_re, du_im. cbn [re im]. rewrite !aw_x0. unfold u_err. split; ring. Qed.

(** The derivatives of the controllers' filters, for any kind of solution *)
Lemma three_start p e o ub x ia0 eps : 0 <= eps -> Lf p <> 0 -> Cdc p <> 0 -> op_Vdc o <> 0 -> Tfilter p <> 0 -> at_point p e o ->
  error3 p e (Cx (Rf p) (Lf p)) ub o (unk3 ub x) <= eps ^ 2 ->
  let u := unk3 ub x in let y := start p e true o u ia0 in
  (re (iref3a p e y) = re ia0 /\ Rabs (im (iref3a p e y) - im ia0) <= Rabs (Kp_Q p) * eps) /\
  (forall k, ode3 p e y (P k CuR) = wp p * (re (rot k (iref3a p e y)) - re (k_i u k)) /\
             ode3 p e y (P k CuI) = wp p * (im (rot k (iref3a p e y)) - im (k_i u k))) /\
  forall v, (forall k, v <> P k CuR /\ v <> P k CuI) -> Rabs (ode3 p e y v - nominal v) <= deriv_bound p o eps (vd3 p e y) 0 (k_i u) v.
Proof.
  intros He HL HC HV HT (A1 & A2 & A3 & A4) H0 u y.
  destruct (C84_three_phase_residuals p e _ ub o x eps He H0) as (m & i & E0 & E1 & E2).
  assert (Em : forall k, m k = k_m u k /\ i k = k_i u k).
  { unfold u. destruct ub.
    - destruct E0 as [E01 E02], E1 as (E11 & E12 & E13 & E14). intros []; split; assumption.
    - destruct E0 as [E01 E02]. intros k. destruct (E1 k) as [-> ->]. rewrite E01, E02. destruct k; split; reflexivity. }
  cbv zeta in E2. destruct E2 as (R1 & R2 & R3 & _).
  assert (Vs : forall k, v3_of p e y k = v_calc p e k (i k)).
  { intros k. unfold v3_of, y, start. rewrite ss_i_of. cbn [ss_i]. now rewrite (proj2 (Em k)). }
  assert (Vt : forall k, vt3_of p y k = cscale (op_Vdc o / 2) (m k)).
  { intros k. unfold vt3_of, y, start. rewrite ss_u_of, ss_x_of. cbn [ss_u ss_x ss_state]. rewrite vt_zero. now rewrite (proj1 (Em k)). }
  assert (Is : forall k, i_of y k = i k).
  { intros k. unfold y, start. rewrite ss_i_of. cbn [ss_i]. now rewrite (proj2 (Em k)). }
  assert (Us : forall k, u_of y k = Cx 0 0) by (intros k; unfold y, start; now rewrite ss_u_of).
  assert (SQ : Rabs (im (S3_pcc p e y) - op_Qref o) <= eps).
  { unfold S3_pcc, sum3. rewrite !Vs, !Is. exact R2. }
  assert (SP : Rabs (re (S3_inv p y) - op_Ppv o) <= eps).
  { unfold S3_inv, sum3. rewrite !Vt, !Is. exact R1. }
  assert (Y1 : y VDC = op_Vdc o /\ y XDC = re ia0 /\ y XQ = im ia0 /\ y XPLL = 0) by (repeat split; reflexivity).
  destruct Y1 as (Y1 & Y2 & Y3 & Y4).
  split; [|split].
  - unfold iref3a, ia_ref_calc. cbn [re im]. rewrite A2, A3, Y1, Y2, Y3. split; [ring|].
    replace (im ia0 - Kp_Q p * (op_Qref o - im (S3_pcc p e y)) - im ia0) with (Kp_Q p * (im (S3_pcc p e y) - op_Qref o)) by ring.
    rewrite Rabs_mult. apply Rmult_le_compat_l; auto. apply Rabs_pos.
  - intros k. unfold ode3. cbn [d_comp]. rewrite Us. unfold eff_iref. rewrite A1, Is, (proj2 (Em k)).
    exact (du_start p (x_of y k) (rot k (iref3a p e y)) (k_i u k)).
  - intros v Hv. unfold ode3. destruct v as [k c| | | | | | |]; cbn [nominal deriv_bound].
    + assert (DB := di_bound p (vd3 p e y) (i k) (v_calc p e k (i k)) (cscale (op_Vdc o / 2) (m k)) eps HL (R3 k)).
      cbv zeta in DB. rewrite <- Y4 in DB. rewrite <- (proj2 (Em k)). destruct DB as [DB1 DB2].
      destruct c; cbn [d_comp]; rewrite Rminus_0_r.
      * rewrite Is, Vs, Vt. exact DB1.
      * rewrite Is, Vs, Vt. exact DB2.
      * unfold dx_re. rewrite Us. cbn [re im]. rewrite aw_zero by ring. rewrite Rabs_R0. lra.
      * unfold dx_im. rewrite Us. cbn [re im]. rewrite aw_zero by ring. rewrite Rabs_R0. lra.
      * destruct (Hv k) as [[] _]. reflexivity.
      * destruct (Hv k) as [_ []]. reflexivity.
    + rewrite Rminus_0_r. unfold dVdc, eff_Ppv. rewrite A1, Y1, A4. apply Rabs_div_le.
      * now apply Rmult_integral_contrapositive_currified.
      * rewrite Rabs_minus_sym. exact SP.
    + rewrite Rminus_0_r. unfold dxDC. rewrite aw_zero; [rewrite Rabs_R0; lra|]. unfold eff_Vref. rewrite A1, A3, Y1. ring.
    + rewrite Rminus_0_r, Rabs_R0. lra.
    + rewrite Rminus_0_r. unfold dxQ. eapply Rle_trans; [apply aw_bound|]. unfold eff_Qref. rewrite A1, A2, Rabs_mult, Rabs_Ropp.
      apply Rmult_le_compat_l; [apply Rabs_pos|]. rewrite Rabs_minus_sym. exact SQ.
    + rewrite Rminus_0_r. apply Rle_refl.
    + unfold we_calc. rewrite Y4. replace (Kp_PLL p * vd3 p e y + 0 + 2 * PI * 60 - wbase) with (Kp_PLL p * vd3 p e y) by (unfold wbase; ring). apply Rle_refl.
    + rewrite Rminus_0_r, !Vs. change (y VRF) with (Urms_calc (k_v p e u PA) (k_v p e u PB) (k_v p e u PC)).
      unfold k_v. rewrite !(proj2 (Em _)). 
      match goal with |- Rabs ?a <= _ => replace a with 0 by (field; auto) end. rewrite Rabs_R0. lra.
Qed.

Lemma iref_dist p (iref ia0 ia : cx) eps : re iref = re ia0 -> Rabs (im iref - im ia0) <= Rabs (Kp_Q p) * eps ->
  cabs (csub iref ia) <= cabs (csub ia0 ia) + Rabs (Kp_Q p) * eps.
Proof.
  intros H1 H2. set (d := Rabs (Kp_Q p) * eps) in *. clearbody d.
  pose proof (Rabs_pos (im iref - im ia0)). assert (0 <= d) by lra.
  destruct iref as [a b], ia0 as [a0 b0], ia as [x y]. unfold csub in *. cbn [re im] in *. subst a0.
  apply Rabs_le_inv in H2.
  pose proof (cabs_nonneg (Cx (a - x) (b0 - y))) as N. pose proof (im_le (Cx (a - x) (b0 - y))) as M. cbn [im] in M. apply Rabs_le_inv in M.
  pose proof (cabs_sq (Cx (a - x) (b0 - y))) as Q0. pose proof (cabs_sq (Cx (a - x) (b - y))) as Q1.
  pose proof (cabs_nonneg (Cx (a - x) (b - y))) as N1. unfold cnorm2 in *. cbn [re im] in *.
  set (c0 := cabs (Cx (a - x) (b0 - y))) in *. set (c1 := cabs (Cx (a - x) (b - y))) in *. clearbody c0 c1.
  destruct (Rle_or_lt c1 (c0 + d)); auto. exfalso.
  set (r := b0 - y) in *. set (h := b - b0) in *. replace (b - y) with (r + h) in Q1 by (unfold r, h; ring). clearbody r h.
  assert (c0 * c0 + 2 * c0 * d + d * d < c1 * c1).
  { replace (c0 * c0 + 2 * c0 * d + d * d) with ((c0 + d) * (c0 + d)) by ring. apply Rmult_le_0_lt_compat; lra. }
  assert (T1 : 0 <= (c0 - r) * (d + h)) by (apply Rmult_le_pos; lra).
  assert (T2 : 0 <= (c0 + r) * (d - h)) by (apply Rmult_le_pos; lra).
  assert (T3 : 0 <= (d - h) * (d + h)) by (apply Rmult_le_pos; lra). nra.
Qed.

(** Three phases, balanced duty cycles: the derivative of every state at the start is
    within the stated distance of zero (of the nominal frequency for the PLL angle). *)
Theorem C85_three_phase_near_equilibrium :
  forall p e o x ia0 eps, 0 <= eps -> Lf p <> 0 -> Cdc p <> 0 -> op_Vdc o <> 0 -> Tfilter p <> 0 -> at_point p e o ->
  error3 p e (Cx (Rf p) (Lf p)) false o (unk3 false x) <= eps ^ 2 ->
  let u := unk3 false x in let y := start p e true o u ia0 in
  forall v, Rabs (ode3 p e y v - nominal v) <= deriv_bound p o eps (vd3 p e y) (cabs (csub ia0 (k_i u PA))) (k_i u) v.
Proof.
  intros p e o x ia0 eps He HL HC HV HT HA H0 u y v.
  destruct (three_start p e o false x ia0 eps He HL HC HV HT HA H0) as ([I1 I2] & D1 & D2). fold u in D1, D2, I1, I2. fold y in I1, I2, D1, D2.
  assert (R : forall k, csub (rot k (iref3a p e y)) (k_i u k) = rot k (csub (iref3a p e y) (k_i u PA))).
  { intros k. rewrite <- rot_sub. f_equal. }
  pose proof (iref_dist p _ ia0 (k_i u PA) eps I1 I2) as B.
  assert (K : forall k, Rabs (ode3 p e y (P k CuR)) <= deriv_bound p o eps (vd3 p e y) (cabs (csub ia0 (k_i u PA))) (k_i u) (P k CuR) /\
                        Rabs (ode3 p e y (P k CuI)) <= deriv_bound p o eps (vd3 p e y) (cabs (csub ia0 (k_i u PA))) (k_i u) (P k CuI)).
  { intros k. destruct (D1 k) as [-> ->]. cbn [deriv_bound].
    set (z := csub (rot k (iref3a p e y)) (k_i u k)) in *.
    assert (Z : cabs z <= cabs (csub ia0 (k_i u PA)) + Rabs (Kp_Q p) * eps) by (unfold z; rewrite R, CircuitProperties3.rot_abs; exact B).
    change (re (rot k (iref3a p e y)) - re (k_i u k)) with (re z). change (im (rot k (iref3a p e y)) - im (k_i u k)) with (im z).
    rewrite !Rabs_mult. pose proof (re_le z). pose proof (im_le z). split; apply Rmult_le_compat_l; try apply Rabs_pos; lra. }
  destruct v as [k c| | | | | | |].
  - destruct c; [apply (D2 (P k CiR)) | apply (D2 (P k CiI)) | apply (D2 (P k CxR)) | apply (D2 (P k CxI))
                | cbn [nominal]; rewrite Rminus_0_r; apply (K k) | cbn [nominal]; rewrite Rminus_0_r; apply (K k)]; intros; split; discriminate.
  - apply (D2 VDC); intros; split; discriminate.
  - apply (D2 XDC); intros; split; discriminate.
  - apply (D2 XP); intros; split; discriminate.
  - apply (D2 XQ); intros; split; discriminate.
  - apply (D2 XPLL); intros; split; discriminate.
  - apply (D2 WTE); intros; split; discriminate.
  - apply (D2 VRF); intros; split; discriminate.
Qed.
Print Assumptions C85_three_phase_near_equilibrium.

Lemma bound_zero p o i v : deriv_bound p o 0 0 0 i v = 0.
Proof.
  destruct v as [k []| | | | | | |]; cbn [deriv_bound]; unfold Rdiv; rewrite ?Rmult_0_r, ?Rmult_0_l, ?Rabs_R0; ring.
Qed.
Lemma cabs0 z : cabs (csub z z) = 0.
Proof. unfold cabs, cnorm2, csub. cbn [re im]. rewrite !Rminus_diag_eq by reflexivity. rewrite Rmult_0_l, Rplus_0_l. apply sqrt_0. Qed.
(** Exact solution, integrators at the current, no PLL error: an equilibrium. *)
Theorem C85_three_phase_equilibrium :
  forall p e o x, Lf p <> 0 -> Cdc p <> 0 -> op_Vdc o <> 0 -> Tfilter p <> 0 -> at_point p e o ->
  error3 p e (Cx (Rf p) (Lf p)) false o (unk3 false x) <= 0 ->
  let u := unk3 false x in let y := start p e true o u (k_i u PA) in
  vd3 p e y = 0 -> forall v, ode3 p e y v = match v with WTE => wbase | _ => 0 end.
Proof.
  intros p e o x HL HC HV HT HA H0 u y Hvd v.
  assert (H00 : error3 p e (Cx (Rf p) (Lf p)) false o (unk3 false x) <= 0 ^ 2) by (replace (0 ^ 2) with 0 by ring; exact H0).
  pose proof (C85_three_phase_near_equilibrium p e o x (k_i u PA) 0 (Rle_refl 0) HL HC HV HT HA H00 v) as B.
  fold u in B. fold y in B. rewrite Hvd, cabs0, bound_zero in B. apply Rabs_le_inv in B.
  change (match v with WTE => wbase | _ => 0 end) with (nominal v). lra.
Qed.
Print Assumptions C85_three_phase_equilibrium.

(** For balanced PCC voltages at time zero the PLL error is the imaginary part of
    the voltage of phase a. *)
Theorem C85_pll_error_at_start :
  forall p e o x ia0, let u := unk3 false x in let y := start p e true o u ia0 in
  e_t e = 0 -> (forall k, v3_of p e y k = rot k (v3_of p e y PA)) ->
  vd3 p e y = im (v3_of p e y PA).
Proof.
  intros p e o x ia0 u y Ht Hb. unfold vd3. rewrite (Hb PB), (Hb PC). cbn [rot].
  set (va := v3_of p e y PA). clearbody va. rewrite (polar_rect va).
  rewrite (proj1 (C47_pll_error _ _ _ _ _)). rewrite Ht. change (y WTE) with (2 * PI).
  replace (e_wgrid e * 0 + cphase va - 2 * PI) with (cphase va - 2 * PI) by ring.
  unfold crect, cscale, cexp. cbn [im]. f_equal.
  rewrite <- (sin_period (cphase va - 2 * PI) 1). f_equal. simpl. ring.
Qed.
Print Assumptions C85_pll_error_at_start.

(** Refuted for the unbalanced option (allowUnbalancedM): unless the currents of
    phases b and c are the rotated current of phase a the controllers are not at
    rest. *)
Theorem C85_unbalanced_option_refuted :
  forall p e o x, Lf p <> 0 -> Cdc p <> 0 -> op_Vdc o <> 0 -> Tfilter p <> 0 -> wp p <> 0 -> at_point p e o ->
  error3 p e (Cx (Rf p) (Lf p)) true o (unk3 true x) <= 0 ->
  let u := unk3 true x in let y := start p e true o u (k_i u PA) in
  ((forall k, ode3 p e y (P k CuR) = 0 /\ ode3 p e y (P k CuI) = 0) <-> (forall k, k_i u k = rot k (k_i u PA))).
Proof.
  intros p e o x HL HC HV HT HW HA H0 u y.
  assert (H00 : error3 p e (Cx (Rf p) (Lf p)) true o (unk3 true x) <= 0 ^ 2) by (replace (0 ^ 2) with 0 by ring; exact H0).
  destruct (three_start p e o true x (k_i u PA) 0 (Rle_refl 0) HL HC HV HT HA H00) as ([I1 I2] & D & _). fold u in D, I1, I2. fold y in D, I1, I2.
  assert (IR : iref3a p e y = k_i u PA). { rewrite Rmult_0_r in I2. apply Rabs_le_inv in I2. apply cx_eq; lra. }
  rewrite IR in D.
  split; intros H k.
  - destruct (H k) as [H1 H2]. destruct (D k) as [D1 D2].
    rewrite H1 in D1. rewrite H2 in D2. symmetry in D1, D2.
    apply Rmult_integral in D1 as [D1|D1]; [contradiction|]. apply Rmult_integral in D2 as [D2|D2]; [contradiction|].
    apply cx_eq; lra.
  - destruct (D k) as [-> ->]. rewrite <- (H k). split; ring.
Qed.
Print Assumptions C85_unbalanced_option_refuted.

(** Single phase *)
Theorem C85_single_phase_near_equilibrium :
  forall p e o x ia0 eps, 0 <= eps -> Lf p <> 0 -> Cdc p <> 0 -> op_Vdc o <> 0 -> at_point p e o ->
  error1 p e (Cx (Rf p) (Lf p)) o (unk1 x) <= eps ^ 2 ->
  let u := unk1 x in let y := start p e false o u ia0 in
  forall v, Rabs (ode1 p e y v - nominal v) <= deriv_bound p o eps (vd1 p e y) (cabs (csub ia0 (k_i u PA))) (k_i u) v.
Proof.
  intros p e o x ia0 eps He HL HC HV (A1 & A2 & A3 & A4) H0 u y v.
  destruct (C84_single_phase_residuals p e _ o x eps He H0) as (R1 & R2 & R3).
  change (Cx (x 2%nat) (x 3%nat)) with (k_i u PA) in *. change (Cx (x 0%nat) (x 1%nat)) with (k_m u PA) in *.
  assert (Us : u_of y PA = Cx 0 0) by (unfold y, start; now rewrite ss_u_of).
  assert (Xs : x_of y PA = k_m u PA) by (unfold y, start; now rewrite ss_x_of).
  assert (Is : i_of y PA = k_i u PA) by (unfold y, start; now rewrite ss_i_of).
  assert (SQ : Rabs (im (S1_pcc p e y) - op_Qref o) <= eps) by (unfold S1_pcc; rewrite Is; exact R2).
  assert (SP : Rabs (re (S1_inv p y) - op_Ppv o) <= eps) by (unfold S1_inv; rewrite Is, Us, Xs, vt_zero; exact R1).
  assert (Y1 : y VDC = op_Vdc o /\ y XDC = re ia0 /\ y XQ = im ia0 /\ y XPLL = 0) by (repeat split; reflexivity).
  destruct Y1 as (Y1 & Y2 & Y3 & Y4).
  pose proof (cabs_nonneg (csub ia0 (k_i u PA))) as NI. pose proof (Rabs_pos (wp p)) as NW. pose proof (Rabs_pos (Kp_Q p)) as NK.
  assert (DBpos : forall k c, 0 <= deriv_bound p o eps (vd1 p e y) (cabs (csub ia0 (k_i u PA))) (k_i u) (P k c)).
  { intros k c. assert (0 <= eps / Rabs (Lf p) + Rabs (Kp_PLL p * vd1 p e y / wbase) * cabs (k_i u k)).
    { apply Rplus_le_le_0_compat; apply Rmult_le_pos; auto using Rabs_pos, cabs_nonneg. left. apply Rinv_0_lt_compat. now apply Rabs_pos_lt. }
    destruct c; cbn [deriv_bound]; auto; try lra; apply Rmult_le_pos; auto; apply Rplus_le_le_0_compat; auto; apply Rmult_le_pos; auto. }
  assert (IRE : re (iref1 p e y) = re ia0 /\ Rabs (im (iref1 p e y) - im ia0) <= Rabs (Kp_Q p) * eps).
  { unfold iref1, ia_ref_calc. cbn [re im]. rewrite A2, A3, Y1, Y2, Y3. split; [ring|].
    replace (im ia0 - Kp_Q p * (op_Qref o - im (S1_pcc p e y)) - im ia0) with (Kp_Q p * (im (S1_pcc p e y) - op_Qref o)) by ring.
    rewrite Rabs_mult. apply Rmult_le_compat_l; auto. }
  destruct IRE as [I1 I2]. pose proof (iref_dist p _ ia0 (k_i u PA) eps I1 I2) as B.
  destruct v as [k c| | | | | | |].
  - destruct k; [|unfold ode1; cbn [nominal]; rewrite Rminus_0_r, Rabs_R0; apply DBpos|unfold ode1; cbn [nominal]; rewrite Rminus_0_r, Rabs_R0; apply DBpos].
    unfold ode1. cbn [nominal]. rewrite Rminus_0_r. rewrite Is, Us, Xs, Y1, vt_zero. unfold eff_iref. rewrite A1, Y4.
    assert (DB := di_bound p (vd1 p e y) (k_i u PA) (v_calc p e PA (k_i u PA)) (cscale (op_Vdc o / 2) (k_m u PA)) eps HL R3).
    cbv zeta in DB. destruct DB as [DB1 DB2]. destruct (du_start p (k_m u PA) (iref1 p e y) (k_i u PA)) as [U1 U2].
    set (z := csub (iref1 p e y) (k_i u PA)) in *.
    destruct c; cbn [d_comp deriv_bound].
    + exact DB1.
    + exact DB2.
    + unfold dx_re. cbn [re im]. rewrite aw_zero by ring. rewrite Rabs_R0. lra.
    + unfold dx_im. cbn [re im]. rewrite aw_zero by ring. rewrite Rabs_R0. lra.
    + rewrite U1. change (re (iref1 p e y) - re (k_i u PA)) with (re z). rewrite Rabs_mult. pose proof (re_le z). apply Rmult_le_compat_l; auto; lra.
    + rewrite U2. change (im (iref1 p e y) - im (k_i u PA)) with (im z). rewrite Rabs_mult. pose proof (im_le z). apply Rmult_le_compat_l; auto; lra.
  - cbn [nominal deriv_bound]. unfold ode1. rewrite Rminus_0_r. unfold dVdc, eff_Ppv. rewrite A1, Y1, A4. apply Rabs_div_le.
    + now apply Rmult_integral_contrapositive_currified.
    + rewrite Rabs_minus_sym. exact SP.
  - cbn [nominal deriv_bound]. unfold ode1. rewrite Rminus_0_r. unfold dxDC. rewrite aw_zero; [rewrite Rabs_R0; lra|]. unfold eff_Vref. rewrite A1, A3, Y1. ring.
  - cbn [nominal deriv_bound]. unfold ode1. rewrite Rminus_0_r, Rabs_R0. lra.
  - cbn [nominal deriv_bound]. unfold ode1. rewrite Rminus_0_r. unfold dxQ. eapply Rle_trans; [apply aw_bound|]. unfold eff_Qref. rewrite A1, A2, Rabs_mult, Rabs_Ropp.
    apply Rmult_le_compat_l; [apply Rabs_pos|]. rewrite Rabs_minus_sym. exact SQ.
  - cbn [nominal deriv_bound]. unfold ode1. rewrite Rminus_0_r. apply Rle_refl.
  - cbn [nominal deriv_bound]. unfold ode1. unfold we_calc. rewrite Y4.
    replace (Kp_PLL p * vd1 p e y + 0 + 2 * PI * 60 - wbase) with (Kp_PLL p * vd1 p e y) by (unfold wbase; ring). apply Rle_refl.
  - cbn [nominal deriv_bound]. unfold ode1. rewrite Rminus_0_r, Rabs_R0. lra.
Qed.
Print Assumptions C85_single_phase_near_equilibrium.
Theorem C85_single_phase_pll_error :
  forall p e o x ia0, let y := start p e false o (unk1 x) ia0 in
  e_t e = 0 -> vd1 p e y = im (v_calc p e PA (Cx (x 2%nat) (x 3%nat))).
Proof.
  intros p e o x ia0 y Ht. unfold vd1. replace (i_of y PA) with (Cx (x 2%nat) (x 3%nat)) by reflexivity.
  set (va := v_calc p e PA _). clearbody va. rewrite (polar_rect va) at 1.
  rewrite (proj2 (C47_pll_error _ _ _ _ _)). rewrite Ht. change (y WTE) with (2 * PI).
  replace (e_wgrid e * 0 + cphase va - 2 * PI) with (cphase va - 2 * PI) by ring.
  rewrite (polar_rect va) at 3. unfold crect, cscale, cexp. cbn [im]. f_equal.
  rewrite <- (sin_period (cphase va - 2 * PI) 1). f_equal. simpl. ring.
Qed.
Print Assumptions C85_single_phase_pll_error.

(** * C86: the integrators come from the last trial point, not from the solution *)
Theorem C86_no_convergence_is_an_error :
  forall mk p e three mr, mr_success mr = false <-> steady_state_calc mk p e three mr = Raise ValueError.
Proof. intros. unfold steady_state_calc. destruct (mr_success mr); split; congruence. Qed.
Print Assumptions C86_no_convergence_is_an_error.

(** When it converges, the initial state vector has the currents and duty cycles of
    the solution; the outer-loop integrators are the current of the last point the
    minimiser evaluated. *)
Theorem C86_initial_integrators :
  forall mk p e three o mr s, steady_state_calc mk p e three mr = Ok s ->
  let u := mk (mr_x mr) in let y := ss_state (op_Vdc o) s in
  y = start p e three o u (k_i (mk (mr_last mr)) PA) /\
  (forall k, i_of y k = k_i u k /\ x_of y k = k_m u k /\ u_of y k = Cx 0 0) /\
  Cx (y XDC) (y XQ) = k_i (mk (mr_last mr)) PA /\ y XP = y XDC /\ y VDC = op_Vdc o /\ y XPLL = 0 /\ y WTE = 2 * PI.
Proof.
  intros mk p e three o mr s H u y. unfold steady_state_calc in H. destruct (mr_success mr); [|discriminate].
  assert (E : s = SS (k_i u) (k_m u) (fun _ => Cx 0 0) (re (k_i (mk (mr_last mr)) PA)) (re (k_i (mk (mr_last mr)) PA)) (im (k_i (mk (mr_last mr)) PA)) 0 (2 * PI)
    (if three then Urms_calc (k_v p e u PA) (k_v p e u PB) (k_v p e u PC) else Urms_calc (k_v p e u PA) (k_v p e u PA) (k_v p e u PA))) by (unfold u; congruence).
  clear H. subst s. split; [reflexivity|]. split.
  - intros k. unfold y. rewrite ss_i_of, ss_x_of, ss_u_of. auto.
  - unfold y. cbn [ss_state ss_xDC ss_xQ]. destruct (k_i (mk (mr_last mr)) PA). repeat split; reflexivity.
Qed.
Print Assumptions C86_initial_integrators.

(** Refuted: with a last point whose current differs from the solution's, the current
    controllers of every phase are not at rest, even for an exact solution. *)
Theorem C86_integrators_refuted :
  forall p e o mr s, Lf p <> 0 -> Cdc p <> 0 -> op_Vdc o <> 0 -> Tfilter p <> 0 -> wp p <> 0 -> at_point p e o ->
  steady_state_calc (unk3 false) p e true mr = Ok s ->
  error3 p e (Cx (Rf p) (Lf p)) false o (unk3 false (mr_x mr)) <= 0 ->
  let y := ss_state (op_Vdc o) s in
  (mr_last mr 2%nat <> mr_x mr 2%nat -> ode3 p e y (P PA CuR) <> 0) /\
  (mr_last mr 3%nat <> mr_x mr 3%nat -> ode3 p e y (P PA CuI) <> 0).
Proof.
  intros p e o mr s HL HC HV HT HW HA Hs H0 y. destruct (C86_initial_integrators _ _ _ _ o _ _ Hs) as (Ey & _).
  set (u := unk3 false (mr_x mr)) in *. set (ia0 := k_i (unk3 false (mr_last mr)) PA) in *. unfold y. rewrite Ey. clear Ey y.
  assert (H00 : error3 p e (Cx (Rf p) (Lf p)) false o (unk3 false (mr_x mr)) <= 0 ^ 2) by (replace (0 ^ 2) with 0 by ring; exact H0).
  destruct (three_start p e o false (mr_x mr) ia0 0 (Rle_refl 0) HL HC HV HT HA H00) as ([I1 I2] & D & _).
  fold u in I1, I2, D. set (y := start p e true o u ia0) in *.
  rewrite Rmult_0_r in I2. apply Rabs_le_inv in I2. destruct (D PA) as [D1 D2]. cbn [rot] in D1, D2.
  change (re (k_i u PA)) with (mr_x mr 2%nat) in D1. change (im (k_i u PA)) with (mr_x mr 3%nat) in D2.
  change (re ia0) with (mr_last mr 2%nat) in *. change (im ia0) with (mr_last mr 3%nat) in *.
  split; intros Hne HH.
  - rewrite D1 in HH. apply Rmult_integral in HH as [HH|HH]; [contradiction|]. apply Hne. lra.
  - rewrite D2 in HH. apply Rmult_integral in HH as [HH|HH]; [contradiction|]. apply Hne. lra.
Qed.
Print Assumptions C86_integrators_refuted.

(** What holds: the start is as far from rest as the last point is from the solution. *)
Theorem C86_integrators_partial :
  forall p e o mr s eps, 0 <= eps -> Lf p <> 0 -> Cdc p <> 0 -> op_Vdc o <> 0 -> Tfilter p <> 0 -> at_point p e o ->
  steady_state_calc (unk3 false) p e true mr = Ok s ->
  error3 p e (Cx (Rf p) (Lf p)) false o (unk3 false (mr_x mr)) <= eps ^ 2 ->
  let y := ss_state (op_Vdc o) s in let i k := rot k (Cx (mr_x mr 2%nat) (mr_x mr 3%nat)) in
  forall v, Rabs (ode3 p e y v - nominal v) <=
    deriv_bound p o eps (vd3 p e y) (cabs (csub (Cx (mr_last mr 2%nat) (mr_last mr 3%nat)) (i PA))) i v.
Proof.
  intros p e o mr s eps He HL HC HV HT HA Hs H0 y i v. destruct (C86_initial_integrators _ _ _ _ o _ _ Hs) as (Ey & _).
  unfold y. rewrite Ey. exact (C85_three_phase_near_equilibrium p e o (mr_x mr) _ eps He HL HC HV HT HA H0 v).
Qed.
Print Assumptions C86_integrators_partial.

(** * The hypotheses can be met *)
Definition sol (k : nat) : R := match k with 0%nat => 2 | 1%nat => 1 | 2%nat => 1 | _ => 0 end.
Section Met.
Let zx := q_charge * 2 / (k_boltz * 300 * A_ideal * 1000).
Let cur1 := (803/100 + 17/10000 * (300 - (27315/100+25))) - 12/100000000 * (exp zx - 1).
Let p := Prm 1 1 1 1 1 1 10 1 1 1 1 1 1 10 1 1 1 1 10 (Cx 1 2) 72.
Let e := Env 0 (2 * PI * 60) (Cx 1 0) (rot PB (Cx 1 0)) (rot PC (Cx 1 0)) None 0 2 (PVM (150000 / (2 * cur1)) 1000 100 300) true 0.
Let o := Op 2 3 0.
Lemma met : at_point p e o /\ error3 p e (Cx (Rf p) (Lf p)) false o (unk3 false sol) <= 0 /\
  vd3 p e (start p e true o (unk3 false sol) (k_i (unk3 false sol) PA)) = 0.
Proof.
  pose proof CircuitProperties3.cur1_pos as CP. fold zx in CP. fold cur1 in CP.
  assert (VR : forall k i, v_calc p e k i = rot k (Cx 1 0)) by (intros [] i; reflexivity).
  split; [|split].
  - repeat split. unfold Ppv_of, Vdc_actual. change (Vdcmpp_max p) with 10. change (Vdcbase p) with 1. change (op_Vdc o) with 2. change (op_Ppv o) with 3.
    rewrite Rmin_right by lra. unfold Ppv_val, Ipv_val, Iph_calc. cbn [e e_mod Np Ns Sinsol Tactual].
    replace (2 * 1) with 2 by ring. fold zx. unfold Iscr, Kv, T0, Irs, Sbase.
    match goal with |- Rmax 0 (?x * 2) / _ = _ => replace x with 75000 end.
    + rewrite Rmax_right by lra. lra.
    + transitivity (150000 / (2 * cur1) * cur1); [field; lra | set (N := 150000 / (2 * cur1)); clearbody N; unfold cur1; clearbody zx; field].
  - unfold error3. rewrite C84_balanced_modulation_term.
    2:{ cbn [sol]. intros Z. apply (f_equal re) in Z. cbn in Z. lra. }
    assert (SI : sum3 (k_i (unk3 false sol)) = Cx 0 0).
    { cbn [unk3 k_i sol]. unfold sum3. cbn [rot]. unfold Ub_calc, Uc_calc. rewrite cexp_m, cexp_p. unfold cadd, cmul. apply cx_eq; cbn [re im]; lra. }
    assert (KD : forall k, k_drop p e (Cx (Rf p) (Lf p)) o (unk3 false sol) k = Cx 0 0).
    { intros k. unfold k_drop, k_vt, k_v. rewrite VR. cbn [unk3 k_i k_m sol].
      destruct (CircuitProperties3.rot_form k (Cx 1 0)) as (c & _ & Hc & _). rewrite !Hc.
      unfold csub, cscale, cmul. cbn [re im o op_Vdc p Rf Lf]. apply cx_eq; cbn [re im]; field. }
    rewrite SI, !KD. assert (cabs (Cx 0 0) = 0) as -> by (unfold cabs, cnorm2; cbn [re im]; replace (0*0+0*0) with 0 by ring; apply sqrt_0).
    assert (SS : forall z, S_sum (fun k => rot k z) (unk3 false sol) = cscale (3/2) z).
    { intros z. unfold S_sum, half_S. cbn [unk3 k_i sol rot]. unfold Ub_calc, Uc_calc. rewrite cexp_m, cexp_p.
      pose proof w3_sq as W. destruct z as [z1 z2]. pose proof (f_equal (Rmult z1) W). pose proof (f_equal (Rmult z2) W).
      unfold cscale, cadd, cmul, conj. apply cx_eq; cbn [re im]; lra. }
    assert (E1 : S_sum (k_vt o (unk3 false sol)) (unk3 false sol) = Cx 3 (3/2)).
    { transitivity (S_sum (fun k => rot k (Cx 2 1)) (unk3 false sol)).
      - assert (KV : forall k, k_vt o (unk3 false sol) k = rot k (Cx 2 1)).
        { intros k. unfold k_vt. cbn [unk3 k_m sol o op_Vdc]. set (z := rot k _). destruct z as [z1 z2]. unfold cscale. apply cx_eq; cbn [re im]; field. }
        unfold S_sum. rewrite !KV. reflexivity.
      - rewrite SS. unfold cscale. apply cx_eq; cbn [re im]; field. }
    assert (E2 : S_sum (k_v p e (unk3 false sol)) (unk3 false sol) = Cx (3/2) 0).
    { transitivity (S_sum (fun k => rot k (Cx 1 0)) (unk3 false sol)).
      - unfold S_sum, k_v. rewrite !VR. reflexivity.
      - rewrite SS. unfold cscale. apply cx_eq; cbn [re im]; field. }
    rewrite E1, E2. cbn [re im o op_Ppv op_Qref]. lra.
  - rewrite C85_pll_error_at_start; [|reflexivity|].
    + reflexivity.
    + intros k. unfold v3_of. rewrite !VR. reflexivity.
Qed.
End Met.
Example C85_hypotheses_met :
  exists p e o x, Lf p <> 0 /\ Cdc p <> 0 /\ op_Vdc o <> 0 /\ Tfilter p <> 0 /\ wp p <> 0 /\ at_point p e o /\
  error3 p e (Cx (Rf p) (Lf p)) false o (unk3 false x) <= 0 /\
  vd3 p e (start p e true o (unk3 false x) (k_i (unk3 false x) PA)) = 0 /\ op_Ppv o = 3.
Proof.
  pose proof met as (A & B & C). cbv zeta in A, B, C. do 3 eexists. exists sol.
  refine (Logic.conj _ (Logic.conj _ (Logic.conj _ (Logic.conj _ (Logic.conj _ (Logic.conj A (Logic.conj B (Logic.conj C _)))))))); cbn; try reflexivity; lra.
Qed.
