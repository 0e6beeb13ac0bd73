(** C97: the three implementations of the unbalanced three-phase model agree.
    Specification vocabulary: [states23] is the order of the state variables in the
    vectors of the two 23-state implementations (class attribute n_ODE = 23 and
    varInd, DER_check_and_initialize.py:540-560). *)
From Verif Require Import RBase PhasorModel PVModel ODEModel CxField.
From Verif Require NbUtil NbConst Nb NoFilter.

Definition phase_states (k : phase) : list var := [P k CiR; P k CiI; P k CxR; P k CxI; P k CuR; P k CuI].
Definition states23 : list var := phase_states PA ++ phase_states PB ++ phase_states PC ++ [VDC; XDC; XQ; XPLL; WTE].
(** the vector of a state of the model *)
Definition vec_of (y : st) : list R := map y states23.

(** * The utility functions *)
Lemma nb_m K u x p : Kp_GCC p = K -> NbUtil.m_calc K u x = m_calc p u x.
Proof. intros <-. reflexivity. Qed.
Lemma nb_j a b : cadd (RtoCx a) (Nb.j b) = Cx a b.
Proof. unfold Nb.j, cadd, cmul, RtoCx; cbn [re im]. f_equal; lra. Qed.
Lemma nb_vt m V : NbUtil.vt_calc m V = cscale (V / 2) m.
Proof. unfold NbUtil.vt_calc, cmul, RtoCx, cscale; cbn [re im]. f_equal; lra. Qed.
Lemma nb_S va vb vc ia ib ic : NbUtil.S_calc va vb vc ia ib ic = cadd (cadd (S_ph va ia) (S_ph vb ib)) (S_ph vc ic).
Proof. unfold NbUtil.S_calc, S_ph, cadd, cmul, conj, cscale; cbn [re im]. f_equal; lra. Qed.
Lemma nb_iref p xDC xQ V S_ Vr Qr :
  NbUtil.ia_ref_Vdc_Q_control_calc xDC xQ V S_ Vr Qr (Kp_DC p) (Kp_Q p) = ia_ref_calc p Vr V xDC Qr xQ (im S_).
Proof. unfold NbUtil.ia_ref_Vdc_Q_control_calc, ia_ref_calc, cadd, cmul, RtoCx; cbn [re im]. f_equal; lra. Qed.
Lemma nb_dq a b c w : NbUtil.abc_to_dq0 a b c w = abc_to_dq0 a b c w.
Proof.
  unfold NbUtil.abc_to_dq0, abc_to_dq0, cadd, cmul, cscale, RtoCx; cbn [re im].
  f_equal. f_equal; lra.
Qed.

(** Every function of the compiled utility module computes what its namesake does. *)
Theorem C97_utilities :
  (forall a b c, NbUtil.Uunbalance_calc a b c = Uunbalance_calc a b c)
  /\ (forall m V, Tactual m <> 0 -> Ns m <> 0 ->
        forall x, Ppv_calc m V = inl x -> NbUtil.Ppv_calc (Iph_calc m) (Np m) (Ns m) V (Tactual m) Sbase = x)
  /\ (forall x v K, NbUtil.we_calc x v K = we_calc K v x)
  /\ (forall a b c ia ib ic, NbUtil.S_calc a b c ia ib ic = cadd (cadd (S_ph a ia) (S_ph b ib)) (S_ph c ic))
  /\ (forall a b c Z, NbUtil.S_load_calc a b c Z = cadd (cadd (S_load_ph Z a) (S_load_ph Z b)) (S_load_ph Z c))
  /\ (forall p a b c ag bg cg ia ib ic Z,
        NbUtil.S_G_calc a b c ag bg cg ia ib ic Z (a_tr p)
        = cadd (cadd (S_G_ph p Z ag a ia) (S_G_ph p Z bg b ib)) (S_G_ph p Z cg c ic))
  /\ (forall a b c, NbUtil.Urms_calc a b c = Urms_calc a b c)
  /\ (forall a b c, NbUtil.Urms_min_calc a b c = Urms_min_calc a b c)
  /\ (forall a, NbUtil.Urms_calc_1phase a = Urms_calc_1phase a)
  /\ (forall a, NbUtil.Ub_calc a = Ub_calc a) /\ (forall a, NbUtil.Uc_calc a = Uc_calc a)
  /\ (forall a b d, NbUtil.relative_phase_calc a b d = relative_phase_calc a b d)
  /\ (forall a b c w t, NbUtil.phasor_to_time a b c w t = phasor_to_time a b c w t)
  /\ (forall a w t, NbUtil.phasor_to_time_1phase a w t = phasor_to_time_1phase a w t)
  /\ (forall a b c w, NbUtil.abc_to_dq0 a b c w = abc_to_dq0 a b c w)
  /\ (forall a b c w, NbUtil.dq0_to_abc a b c w = dq0_to_abc a b c w)
  /\ (forall a b w, NbUtil.alpha_beta_to_d_q a b w = alpha_beta_to_d_q a b w)
  /\ (forall a b c, NbUtil.phasor_to_symmetrical a b c = phasor_to_symmetrical a b c)
  /\ (forall a b c, NbUtil.phasor_to_zero_sequence a b c = phasor_to_zero_sequence a b c)
  /\ (forall a b c, NbUtil.phasor_to_positive_sequence a b c = phasor_to_positive_sequence a b c)
  /\ (forall a b c, NbUtil.phasor_to_negative_sequence a b c = phasor_to_negative_sequence a b c)
  /\ (forall z lo hi, lo < hi -> limit_complex z lo hi = Ok (NbUtil.limit_complex z lo hi)).
Proof.
  repeat match goal with |- _ /\ _ => split end; intros; try reflexivity.
  - unfold Ppv_calc, diode_arg in H1.
    destruct (req _ 0); [discriminate|]. unfold py_exp in H1. destruct (rlt _ _); [discriminate|].
    injection H1 as <-. reflexivity.
  - apply nb_S.
  - unfold NbUtil.S_load_calc, S_load_ph, S_ph, cadd, cmul, conj, cscale; cbn [re im]. f_equal; lra.
  - unfold NbUtil.S_G_calc, S_G_ph, Rdiv. cbv zeta. rewrite Rmult_1_l.
    unfold cadd, cmul, conj, cscale, cneg; cbn [re im]. f_equal; lra.
  - apply nb_dq.
  - unfold NbUtil.alpha_beta_to_d_q, alpha_beta_to_d_q, cadd, cmul, RtoCx; cbn [re im]. f_equal; lra.
  - unfold limit_complex. destruct (rlt lo hi) eqn:E; rb; [reflexivity|lra].
Qed.
Print Assumptions C97_utilities.

(** The only difference: with limits in the wrong order the compiled limit_complex
    returns a phasor (its assertion is commented out), its namesake raises. *)
Theorem C97_limit_check_refuted : forall z lo hi, hi <= lo ->
  limit_complex z lo hi = Raise Base.AssertionError /\ cabs (NbUtil.limit_complex z lo hi) = Rabs hi.
Proof.
  intros z lo hi H. split.
  - unfold limit_complex. destruct (rlt lo hi) eqn:E; rb; [lra|reflexivity].
  - unfold NbUtil.limit_complex. rewrite Rmin_right by (eapply Rle_trans; [exact H|apply Rmax_r]).
    unfold crect, cabs, cnorm2, cscale, cexp; cbn [re im].
    replace (hi * cos (cphase z) * (hi * cos (cphase z)) + hi * sin (cphase z) * (hi * sin (cphase z)))
      with (Rsqr hi * (Rsqr (sin (cphase z)) + Rsqr (cos (cphase z)))) by (unfold Rsqr; ring).
    rewrite sin2_cos2, Rmult_1_r. apply sqrt_Rsqr_abs.
Qed.
Print Assumptions C97_limit_check_refuted.

(** * The right-hand sides *)
Lemma nb_dx p u x : Nb.dx_logic u x (Ki_GCC p) (Kp_GCC p) (m_limit p) = (dx_re p u x, dx_im p u x).
Proof.
  unfold Nb.dx_logic, dx_re, dx_im, aw, m_sat, Nb.m_abs_calc, m_calc, same_sign, Nb.dxR_calc, Nb.dxI_calc.
  destruct (rlt _ _); reflexivity.
Qed.
Lemma nb_du p u x i r : Nb.du_calc u x i r (wp p) (Kp_GCC p) (m_limit p) = (du_re p u x r i, du_im p u x r i).
Proof.
  unfold Nb.du_calc, du_re, du_im, aw, m_sat, Nb.m_abs_calc, m_calc, same_sign, Nb.duR_calc, Nb.duI_calc, u_err.
  destruct (rlt _ _); reflexivity.
Qed.
Lemma nb_dxDC p xDC xQ V S_ Vr Qr :
  Nb.dxDC_logic xDC xQ V S_ Vr Qr (Ki_DC p) (Kp_DC p) (Kp_Q p) (iref_limit p) = dxDC p Vr V xDC Qr xQ (im S_).
Proof.
  unfold Nb.dxDC_logic, dxDC, aw, i_sat. rewrite nb_iref. unfold same_sign, Nb.dxDC_calc. reflexivity.
Qed.
Lemma nb_dxQ p xDC xQ V S_ Vr Qr :
  Nb.dxQ_logic xDC xQ V S_ Vr Qr (Ki_Q p) (Kp_DC p) (Kp_Q p) (iref_limit p)
  = dxQ p (ia_ref_calc p Vr V xDC Qr xQ (im S_)) Qr xQ (im S_).
Proof.
  unfold Nb.dxQ_logic, dxQ, aw, i_sat. rewrite nb_iref. unfold same_sign, Nb.dxQ_calc. reflexivity.
Qed.
Lemma nb_Ppv p e V : Nb.Ppv_of p e V = Ppv_of p e V.
Proof. reflexivity. Qed.
Lemma nb_unpack y : Nb.unpack (vec_of y) =
  Nb.Inv (i_of y PA) (x_of y PA) (u_of y PA) (i_of y PB) (x_of y PB) (u_of y PB)
         (i_of y PC) (x_of y PC) (u_of y PC) (y VDC) (y XDC) (y XQ) (y XPLL) (y WTE).
Proof.
  unfold Nb.unpack, Nb.update_inverter_states. rewrite !nb_j. reflexivity.
Qed.

Theorem C97_compiled_model_agrees : forall (p : prm) (e : env) (y : st),
  Nb.ODE_model p e (vec_of y) = map (ode3 p e y) states23.
Proof.
  intros p e y. unfold Nb.ODE_model. rewrite nb_unpack. cbv zeta.
  cbn [Nb.ia Nb.xa Nb.ua Nb.ib Nb.xb Nb.ub Nb.ic Nb.xc Nb.uc Nb.Vdc Nb.xDC Nb.xQ Nb.xPLL Nb.wte].
  rewrite !nb_vt, !nb_S, !nb_iref, !nb_dx, !nb_du, nb_dxDC, nb_dxQ, nb_Ppv.
  unfold NbUtil.phasor_to_time. rewrite nb_dq. unfold abc_to_dq0 at 1.
  cbn [map states23 phase_states app].
  unfold ode3, d_comp, iref3_test, v3_of, vt3_of, vt_calc, eff_iref, eff_Qref, eff_Vref, eff_Ppv, rot.
  cbv zeta. destruct (e_conn e); reflexivity.
Qed.
Print Assumptions C97_compiled_model_agrees.

Lemma nf_gate lim z d x : NoFilter.gate lim z d x = aw (rlt lim (cabs z)) d x d.
Proof. reflexivity. Qed.
Lemma nf_power a b c ia ib ic :
  cscale (1 / 2) (cadd (cadd (cmul a (conj ia)) (cmul b (conj ib))) (cmul c (conj ic)))
  = cadd (cadd (S_ph a ia) (S_ph b ib)) (S_ph c ic).
Proof. unfold S_ph, cadd, cmul, conj, cscale; cbn [re im]. f_equal; lra. Qed.
Lemma nf_vt m V : cmul m (RtoCx (V / 2)) = cscale (V / 2) m.
Proof. unfold cmul, RtoCx, cscale; cbn [re im]. f_equal; lra. Qed.
Lemma nf_unpack y : NoFilter.unpack (vec_of y) =
  Nb.Inv (i_of y PA) (x_of y PA) (u_of y PA) (i_of y PB) (x_of y PB) (u_of y PB)
         (i_of y PC) (x_of y PC) (u_of y PC) (y VDC) (y XDC) (y XQ) (y XPLL) (y WTE).
Proof. reflexivity. Qed.

Theorem C97_unfiltered_model_agrees : forall (p : prm) (e : env) (y : st),
  NoFilter.ODE_model p e (vec_of y) = map (ode3 p e y) states23.
Proof.
  intros p e y. unfold NoFilter.ODE_model. rewrite nf_unpack. cbv zeta.
  cbn [Nb.ia Nb.xa Nb.ua Nb.ib Nb.xb Nb.ub Nb.ic Nb.xc Nb.uc Nb.Vdc Nb.xDC Nb.xQ Nb.xPLL Nb.wte].
  rewrite !nf_power, !nf_vt. unfold phasor_to_time, abc_to_dq0 at 1.
  cbn [map states23 phase_states app].
  unfold ode3, d_comp, iref3_test, v3_of, vt3_of, vt_calc, eff_iref, eff_Qref, eff_Vref, eff_Ppv, rot.
  cbv zeta. destruct (e_conn e); reflexivity.
Qed.
Print Assumptions C97_unfiltered_model_agrees.

(** Every vector of length 23 is the vector of a state, so the two 23-state
    implementations agree on every vector a solver can pass. *)
Definition state_of (l : list R) : st := fun v =>
  match v with
  | P k c =>
      let base := match k with PA => 0 | PB => 6 | PC => 12 end%nat in
      nth (base + match c with CiR => 0 | CiI => 1 | CxR => 2 | CxI => 3 | CuR => 4 | CuI => 5 end)%nat l 0
  | VDC => nth 18 l 0 | XDC => nth 19 l 0 | XQ => nth 20 l 0 | XPLL => nth 21 l 0 | WTE => nth 22 l 0
  | _ => 0
  end.
Lemma vec_state l : length l = 23%nat -> vec_of (state_of l) = l.
Proof.
  intros H. do 23 (destruct l as [|? l]; [discriminate|]). destruct l; [|discriminate]. reflexivity.
Qed.
Theorem C97_same_on_every_vector : forall (p : prm) (e : env) (l : list R), length l = 23%nat ->
  Nb.ODE_model p e l = NoFilter.ODE_model p e l
  /\ length (Nb.ODE_model p e l) = 23%nat.
Proof.
  intros p e l H. rewrite <- (vec_state l H). rewrite C97_compiled_model_agrees, C97_unfiltered_model_agrees.
  split; reflexivity.
Qed.
Print Assumptions C97_same_on_every_vector.

(** y0 and the unpacking of the vector are inverse. *)
Theorem C97_initial_vector_round_trip : forall s : Nb.inv,
  Nb.unpack (Nb.y0 s) = s /\ NoFilter.unpack (Nb.y0 s) = s.
Proof.
  intros s. destruct s as [[a1 a2] [b1 b2] [c1 c2] [d1 d2] [e1 e2] [f1 f2] [g1 g2] [h1 h2] [k1 k2] v1 v2 v3 v4 v5]. split; [|reflexivity].
  unfold Nb.y0. cbn [Nb.ia Nb.xa Nb.ua Nb.ib Nb.xb Nb.ub Nb.ic Nb.xc Nb.uc Nb.Vdc Nb.xDC Nb.xQ Nb.xPLL Nb.wte re im].
  unfold Nb.unpack, Nb.update_inverter_states. rewrite !nb_j. reflexivity.
Qed.
Print Assumptions C97_initial_vector_round_trip.

(** The hypotheses hold for concrete vectors: any 23 numbers are a state. *)
Example C97_hypotheses_met :
  length (repeat (1/2) 23) = 23%nat
  /\ state_of (repeat (1/2) 23) VDC = 1/2
  /\ (exists lo hi : R, hi <= lo).
Proof. split; [reflexivity|split; [reflexivity|exists 1, 0; lra]]. Qed.
