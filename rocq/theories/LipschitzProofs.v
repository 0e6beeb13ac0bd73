(** The right-hand sides of the five models are Lipschitz in states, time and inputs, as
    long as nothing saturates. *)
From Coq Require Import List.
From Coquelicot Require Import Coquelicot.
From Verif Require Import RBase CxField PhasorModel PVModel ODEModel Const3Model PhasorProperties PhasorProperties2 CircuitProperties2 CircuitProperties3 PLLProperties FilterProperties BoundProofs BoundProperties SettleProofs SettleProperties SettleProperties2 SolutionSpec SolutionProofs.
Import RBase ListNotations.
Open Scope R_scope.

Lemma cnear_rot X (D : X -> Prop) N ph f f' : cnear D N f f' -> cnear D N (fun t => rot ph (f t)) (fun t => rot ph (f' t)).
Proof. intros H. destruct ph; cbn [rot]; [exact H| |]; unfold Ub_calc, Uc_calc; apply cnear_mul; auto; apply cnear_const. Qed.
Lemma cnear_S X (D : X -> Prop) N f f' g g' : cnear D N f f' -> cnear D N g g' -> cnear D N (fun t => S_ph (f t) (g t)) (fun t => S_ph (f' t) (g' t)).
Proof. intros H1 H2. unfold S_ph. apply cnear_scale; [apply near_const|]. apply cnear_mul; auto. apply cnear_conj; auto. Qed.
Lemma cnear_sum X (D : X -> Prop) N (f f' : X -> phase -> cx) : (forall ph, cnear D N (fun t => f t ph) (fun t => f' t ph)) ->
  cnear D N (fun t => sum3 (f t)) (fun t => sum3 (f' t)).
Proof. intros H. unfold sum3. apply cnear_add; [apply cnear_add|]; apply H. Qed.
Lemma cnear_same X (D : X -> Prop) N f M : (forall t, D t -> cabs (f t) <= M) -> cnear D N f f.
Proof.
  intros H. split; apply (near_same _ _ _ _ M); intros t Ht; (eapply Rle_trans; [|apply (H t Ht)]); [apply cabs_ge_re|apply cabs_ge_im].
Qed.
Lemma cnear_cexp X (D : X -> Prop) N f f' : near D N f f' -> cnear D N (fun t => cexp (f t)) (fun t => cexp (f' t)).
Proof. intros H. split; unfold cexp; cbn [re im]; [apply near_cos|apply near_sin]; auto. Qed.
(** a continuous function is bounded on a closed interval, and a positive one from below *)
Lemma cont_bounded (f : R -> R) a b : a <= b -> (forall t, a <= t <= b -> continuous f t) -> exists M, forall t, a <= t <= b -> Rabs (f t) <= M.
Proof.
  intros Hab H. assert (C : forall c, a <= c <= b -> continuity_pt f c) by (intros c Hc; apply continuity_pt_filterlim; apply H; auto).
  destruct (continuity_ab_maj f a b Hab C) as (x & Hx & _). destruct (continuity_ab_min f a b Hab C) as (z & Hz & _).
  exists (Rmax (f x) (- f z)). intros t Ht. specialize (Hx t Ht). specialize (Hz t Ht).
  pose proof (Rmax_l (f x) (- f z)). pose proof (Rmax_r (f x) (- f z)). apply Rabs_le. lra.
Qed.
Lemma cont_positive (f : R -> R) a b : a <= b -> (forall t, a <= t <= b -> continuous f t) -> (forall t, a <= t <= b -> 0 < f t) ->
  exists c, 0 < c /\ forall t, a <= t <= b -> c <= f t.
Proof.
  intros Hab H HP. assert (C : forall c, a <= c <= b -> continuity_pt f c) by (intros c Hc; apply continuity_pt_filterlim; apply H; auto).
  destruct (continuity_ab_min f a b Hab C) as (z & Hz & Hz'). exists (f z). split; auto.
Qed.

(** the gain of the active-power (DC-voltage) integrator *)
Definition p_int (p : prm) (k : kind) : R := match k with SingleConst | ThreeConst => Ki_P p | _ => Ki_DC p end.
Lemma rhs_outer_p p k e y :
  let sat := rlt (iref_limit p) (cabs (Cx (y (p_state k) + p_gain p k * p_error p k e y) (y XQ - Kp_Q p * q_error p k e y))) in
  let d := p_int p k * p_error p k e y in rhs p k e y (p_state k) = aw sat d (y (p_state k)) d.
Proof.
  cbv zeta. unfold p_int.
  destruct k; cbn [rhs ode1 ode3 odeb odec ode3c p_state p_gain]; unfold dxQ, dxDC, iref1_test, iref3_test, irefb_test, irefc_test, iref3c_test, i_sat, ia_ref_calc, ia_ref_activepower,
    p_error, q_error, p_in, eff_Qref, eff_Vref, eff_Ppv, S_term, v_term, duty, Sc_inv, S3c_inv, vt3c_of, vt_calc, m_calc, u_of, x_of, cscale, cadd; cbn [re im v_dc sum3]; try reflexivity.
Qed.
Lemma phase_dec k ph : {has_phase k ph} + {~ has_phase k ph}.
Proof. destruct k; cbn [has_phase]; try (left; exact I); apply phase_eq_dec. Qed.
Lemma rhs_idle p k e y ph c : ~ has_phase k ph -> rhs p k e y (P ph c) = 0.
Proof. destruct k; cbn [has_phase]; intros H; try (exfalso; apply H; exact I); destruct ph; try (exfalso; apply H; reflexivity); reflexivity. Qed.

(** array power: two arrays that differ in the irradiance only *)
Lemma near_pv X (D : X -> Prop) N (m1 m2 : X -> pvm) np ns T f f' :
  (forall t, D t -> (Np (m1 t) = np /\ Ns (m1 t) = ns /\ Tactual (m1 t) = T) /\ (Np (m2 t) = np /\ Ns (m2 t) = ns /\ Tactual (m2 t) = T)) ->
  near D N (fun t => Sinsol (m1 t)) (fun t => Sinsol (m2 t)) -> near D N f f' ->
  near D N (fun t => Ppv_val (m1 t) (f t)) (fun t => Ppv_val (m2 t) (f' t)).
Proof.
  intros Hm HS Hf.
  apply (near_ext X D N _ _ (fun t => Ppv_val (PVM np ns (Sinsol (m1 t)) T) (f t)) (fun t => Ppv_val (PVM np ns (Sinsol (m2 t)) T) (f' t))).
  1, 2: intros t Ht; destruct (Hm t Ht) as ((A1 & A2 & A3) & (B1 & B2 & B3)); f_equal; destruct (m1 t), (m2 t); simpl in *; congruence.
  unfold Ppv_val, Rdiv. apply near_mult; [|apply near_const]. apply near_max. apply near_mult; [|exact Hf].
  unfold Ipv_val, Iph_calc, Rdiv. cbn [PVModel.Np PVModel.Ns Tactual Sinsol]. apply near_minus; [apply near_mult; [apply near_const|]; apply near_mult; [apply near_const|]; apply near_mult; [exact HS|apply near_const]|].
  apply near_mult; [apply near_const|]. apply near_minus; [|apply near_const].
  apply near_exp. apply near_mult; [|apply near_const]. apply near_mult; [apply near_const|exact Hf].
Qed.
Lemma near_pv_same X (D : X -> Prop) N (m1 m2 : X -> pvm) m f f' : (forall t, D t -> m1 t = m /\ m2 t = m) -> near D N f f' ->
  near D N (fun t => Ppv_val (m1 t) (f t)) (fun t => Ppv_val (m2 t) (f' t)).
Proof.
  intros Hm Hf. apply (near_pv X D N m1 m2 (Np m) (Ns m) (Tactual m)); [intros t Ht; destruct (Hm t Ht) as [-> ->]; auto| |exact Hf].
  apply (near_ext X D N _ _ (fun _ => Sinsol m) (fun _ => Sinsol m)); [| |apply near_const]; intros t Ht; destruct (Hm t Ht) as [E1 E2]; rewrite ?E1, ?E2; reflexivity.
Qed.

Section Lipschitz.
  Variables (p : prm) (k : kind) (X : Type) (D : X -> Prop) (N : X -> R) (E1 E2 : X -> env) (Y1 Y2 : X -> st).
  Notation nr := (near D N).
  Notation cnr := (cnear D N).
  Hypothesis (N_pos : forall t, 0 <= N t).
  Hypothesis (HY : forall v, nr (fun t => Y1 t v) (fun t => Y2 t v)).
  Hypothesis (Hconn : forall t, D t -> e_conn (E1 t) = e_conn (E2 t)).
  Hypothesis (Hpv : forall f f', nr f f' -> nr (fun t => Ppv_val (e_mod (E1 t)) (f t)) (fun t => Ppv_val (e_mod (E2 t)) (f' t))).
  Hypothesis (Hpass : forall t, D t -> passive p (E1 t) /\ passive p (E2 t)).
  Hypothesis (Hz : cnr (fun t => source_impedance p (E1 t)) (fun t => source_impedance p (E2 t))).
  Hypothesis (Hopen : forall ph, cnr (fun t => v_calc p (E1 t) ph (Cx 0 0)) (fun t => v_calc p (E2 t) ph (Cx 0 0))).
  Hypothesis (HQ : nr (fun t => e_Qref (E1 t)) (fun t => e_Qref (E2 t))) (HVr : nr (fun t => e_Vdcref (E1 t)) (fun t => e_Vdcref (E2 t))).
  Hypothesis (HVc : nr (fun t => e_Vconst (E1 t)) (fun t => e_Vconst (E2 t))).
  Hypothesis (Hsin : nr (fun t => sin (e_wgrid (E1 t) * e_t (E1 t))) (fun t => sin (e_wgrid (E2 t) * e_t (E2 t)))).
  Hypothesis (Hcos : nr (fun t => cos (e_wgrid (E1 t) * e_t (E1 t))) (fun t => cos (e_wgrid (E2 t) * e_t (E2 t)))).
  Hypothesis (U1 : forall t, D t -> unsaturated p k (E1 t) (Y1 t)) (U2 : forall t, D t -> unsaturated p k (E2 t) (Y2 t)).
  Hypothesis (V1 : has_dc_link k -> exists c, 0 < c /\ forall t, D t -> c <= Y1 t VDC /\ c <= Y2 t VDC).
  Lemma n_i ph : cnr (fun t => i_of (Y1 t) ph) (fun t => i_of (Y2 t) ph).
  Proof. split; unfold i_of; cbn [re im]; apply HY. Qed.
  Lemma n_duty ph : cnr (fun t => duty p (Y1 t) ph) (fun t => duty p (Y2 t) ph).
  Proof. split; unfold duty; cbn [re im]; apply near_plus; try apply near_mult; try apply near_const; apply HY. Qed.
  Lemma n_vdc : nr (fun t => v_dc k (E1 t) (Y1 t)) (fun t => v_dc k (E2 t) (Y2 t)).
  Proof.
    clear U1 U2 V1.
    assert (Q : nr (fun t => Y1 t VDC) (fun t => Y2 t VDC)) by apply HY.
    pose proof HVc as Q'. destruct k; cbn [v_dc]; assumption. Qed.
  Lemma n_vterm ph : cnr (fun t => v_term p k (E1 t) (Y1 t) ph) (fun t => v_term p k (E2 t) (Y2 t) ph).
  Proof. unfold v_term. apply cnear_scale; [|apply n_duty]. unfold Rdiv. apply near_mult; [apply n_vdc|apply near_const]. Qed.
  Lemma n_v ph : cnr (fun t => v_calc p (E1 t) ph (i_of (Y1 t) ph)) (fun t => v_calc p (E2 t) ph (i_of (Y2 t) ph)).
  Proof.
    assert (Q1 : forall t, D t -> v_calc p (E1 t) ph (i_of (Y1 t) ph) =
      cadd (v_calc p (E1 t) ph (Cx 0 0)) (cmul (source_impedance p (E1 t)) (csub (i_of (Y1 t) ph) (Cx 0 0)))) by (intros t Ht; apply v_calc_affine; apply (Hpass t Ht)).
    assert (Q2 : forall t, D t -> v_calc p (E2 t) ph (i_of (Y2 t) ph) =
      cadd (v_calc p (E2 t) ph (Cx 0 0)) (cmul (source_impedance p (E2 t)) (csub (i_of (Y2 t) ph) (Cx 0 0)))) by (intros t Ht; apply v_calc_affine; apply (Hpass t Ht)).
    eapply cnear_ext; [exact Q1|exact Q2|].
    apply cnear_add; [apply Hopen|]. apply cnear_mul; [apply Hz|]. apply cnear_sub; [apply n_i|apply cnear_const].
  Qed.
  Lemma n_across ph : cnr (fun t => across p k (E1 t) (Y1 t) ph) (fun t => across p k (E2 t) (Y2 t) ph).
  Proof. unfold across. apply cnear_sub; [apply n_vterm|apply n_v]. Qed.
  Lemma n_Sterm : cnr (fun t => S_term p k (E1 t) (Y1 t)) (fun t => S_term p k (E2 t) (Y2 t)).
  Proof.
    clear U1 U2 V1.
    pose proof n_vterm as H. pose proof n_i as I. unfold S_term. destruct k; try (apply cnear_S; [apply H|apply I]);
      apply cnear_sum; intros ph; apply cnear_S; try apply cnear_rot; try apply I; apply H.
  Qed.
  Lemma n_Spcc : cnr (fun t => S_pcc p k (E1 t) (Y1 t)) (fun t => S_pcc p k (E2 t) (Y2 t)).
  Proof.
    clear U1 U2 V1.
    pose proof n_v as H. pose proof n_i as I. unfold S_pcc. destruct k; try (apply cnear_S; [apply H|apply I]);
      apply cnear_sum; intros ph; apply cnear_S; try apply cnear_rot; try apply I; apply H.
  Qed.
  Lemma n_conn (f f' g g' : X -> R) : nr f f' -> nr g g' ->
    nr (fun t => if e_conn (E1 t) then f t else g t) (fun t => if e_conn (E2 t) then f' t else g' t).
  Proof.
    intros Hf Hg. eapply near_ext; [intros t Ht; reflexivity| |apply (near_if X D N (fun t => e_conn (E1 t)) f f' g g' N_pos Hf Hg)].
    intros t Ht. cbv beta. rewrite (Hconn t Ht). reflexivity.
  Qed.
  Lemma n_pin : nr (fun t => p_in p k (E1 t) (Y1 t)) (fun t => p_in p k (E2 t) (Y2 t)).
  Proof.
    unfold p_in. apply (n_conn (fun t => Ppv_of p (E1 t) (v_dc k (E1 t) (Y1 t))) (fun t => Ppv_of p (E2 t) (v_dc k (E2 t) (Y2 t))) (fun _ => 0) (fun _ => 0)); [|apply near_const].
    unfold Ppv_of. apply Hpv. unfold Vdc_actual. apply near_min. apply near_mult; [apply n_vdc|apply near_const].
  Qed.
  Lemma n_qerr : nr (fun t => q_error p k (E1 t) (Y1 t)) (fun t => q_error p k (E2 t) (Y2 t)).
  Proof.
    unfold q_error. apply near_minus; [|apply n_Spcc].
    apply (n_conn (fun t => e_Qref (E1 t)) (fun t => e_Qref (E2 t)) (fun _ => 0) (fun _ => 0)); [exact HQ|apply near_const].
  Qed.
  Lemma n_perr : nr (fun t => p_error p k (E1 t) (Y1 t)) (fun t => p_error p k (E2 t) (Y2 t)).
  Proof.
    clear U1 U2 V1.
    assert (Q1 : nr (fun t => p_in p k (E1 t) (Y1 t) - re (S_term p k (E1 t) (Y1 t))) (fun t => p_in p k (E2 t) (Y2 t) - re (S_term p k (E2 t) (Y2 t)))).
    { apply near_minus; [apply n_pin|apply n_Sterm]. }
    assert (Q2 : nr (fun t => (if e_conn (E1 t) then e_Vdcref (E1 t) else Y1 t VDC) - Y1 t VDC) (fun t => (if e_conn (E2 t) then e_Vdcref (E2 t) else Y2 t VDC) - Y2 t VDC)).
    { apply near_minus; [|apply HY].
      apply (n_conn (fun t => e_Vdcref (E1 t)) (fun t => e_Vdcref (E2 t)) (fun t => Y1 t VDC) (fun t => Y2 t VDC)); [exact HVr|apply HY]. }
    unfold p_error. destruct k; auto.
  Qed.
  Lemma n_iref ph : cnr (fun t => i_ref p k (E1 t) (Y1 t) ph) (fun t => i_ref p k (E2 t) (Y2 t) ph).
  Proof.
    assert (Q : cnr (fun t => rot ph (Cx (Y1 t (p_state k) + p_gain p k * p_error p k (E1 t) (Y1 t)) (Y1 t XQ - Kp_Q p * q_error p k (E1 t) (Y1 t))))
                    (fun t => rot ph (Cx (Y2 t (p_state k) + p_gain p k * p_error p k (E2 t) (Y2 t)) (Y2 t XQ - Kp_Q p * q_error p k (E2 t) (Y2 t))))).
    { apply cnear_rot. split; cbn [re im].
      - apply near_plus; [apply HY|]. apply near_mult; [apply near_const|apply n_perr].
      - apply near_minus; [apply HY|]. apply near_mult; [apply near_const|apply n_qerr]. }
    destruct Q as [Q1 Q2]. unfold i_ref. split.
    - eapply near_ext; [| |apply (n_conn _ _ (fun _ => 0) (fun _ => 0) Q1); apply near_const]; intros t Ht; cbv beta; [destruct (e_conn (E1 t))|destruct (e_conn (E2 t))]; reflexivity.
    - eapply near_ext; [| |apply (n_conn _ _ (fun _ => 0) (fun _ => 0) Q2); apply near_const]; intros t Ht; cbv beta; [destruct (e_conn (E1 t))|destruct (e_conn (E2 t))]; reflexivity.
  Qed.
  Lemma n_time (f f' : X -> cx) : cnr f f' -> nr (fun t => phasor_to_time_1phase (f t) (e_wgrid (E1 t)) (e_t (E1 t))) (fun t => phasor_to_time_1phase (f' t) (e_wgrid (E2 t)) (e_t (E2 t))).
  Proof.
    intros [A C]. eapply near_ext; [intros; apply time_sin|intros; apply time_sin|].
    apply near_plus; apply near_mult; auto.
  Qed.
  Definition pll_in (y : st) (e : env) : R := match k with SinglePhase | SingleConst => vd1 p e y | ThreePhase | ThreeConst => vd3 p e y | Balanced => vdb p e y end.
  Lemma n_vd3 (f f' : X -> phase -> cx) : (forall ph, cnr (fun t => f t ph) (fun t => f' t ph)) ->
    nr (fun t => vd_three_phase (f t PA) (f t PB) (f t PC) (e_wgrid (E1 t)) (e_t (E1 t)) (Y1 t WTE))
       (fun t => vd_three_phase (f' t PA) (f' t PB) (f' t PC) (e_wgrid (E2 t)) (e_t (E2 t)) (Y2 t WTE)).
  Proof.
    intros H. unfold vd_three_phase, phasor_to_time, abc_to_dq0.
    pose proof (n_time _ _ (H PA)). pose proof (n_time _ _ (H PB)). pose proof (n_time _ _ (H PC)).
    assert (W : cnr (fun t => cexp (- Y1 t WTE)) (fun t => cexp (- Y2 t WTE))) by (apply cnear_cexp, near_opp, HY).
    refine (proj1 (cnear_scale X D N (fun _ => 2/3) (fun _ => 2/3) _ _ (near_const _ _ _ _) (cnear_mul X D N _ _ _ _ (cnear_add X D N _ _ _ _ (cnear_add X D N _ _ _ _ _ _) _) W))).
    - split; unfold RtoCx; cbn [re im]; [assumption|apply near_const].
    - apply cnear_scale; [assumption|apply cnear_const].
    - apply cnear_scale; [assumption|apply cnear_const].
  Qed.
  Lemma n_pll : nr (fun t => pll_in (Y1 t) (E1 t)) (fun t => pll_in (Y2 t) (E2 t)).
  Proof.
    clear U1 U2 V1.
    assert (Q1 : nr (fun t => vd1 p (E1 t) (Y1 t)) (fun t => vd1 p (E2 t) (Y2 t))).
    { unfold vd1, vd_single_phase, alpha_beta_to_d_q. cbn [fst].
      assert (W : cnr (fun t => cexp (- Y1 t WTE)) (fun t => cexp (- Y2 t WTE))) by (apply cnear_cexp, near_opp, HY).
      refine (proj1 (cnear_mul X D N _ _ _ _ _ W)). split; cbn [re im]; apply n_time; [apply n_v|]. apply cnear_mul; [apply n_v|apply cnear_const]. }
    assert (Q3 : nr (fun t => vd3 p (E1 t) (Y1 t)) (fun t => vd3 p (E2 t) (Y2 t))).
    { unfold vd3, v3_of. apply (n_vd3 (fun t ph => v_calc p (E1 t) ph (i_of (Y1 t) ph)) (fun t ph => v_calc p (E2 t) ph (i_of (Y2 t) ph))). intros ph. apply n_v. }
    assert (Qb : nr (fun t => vdb p (E1 t) (Y1 t)) (fun t => vdb p (E2 t) (Y2 t))).
    { unfold vdb, vb_of. apply (n_vd3 (fun t ph => rot ph (v_calc p (E1 t) PA (i_of (Y1 t) PA))) (fun t ph => rot ph (v_calc p (E2 t) PA (i_of (Y2 t) PA)))). intros ph. apply cnear_rot, n_v. }
    unfold pll_in. destruct k; auto.
  Qed.
  Lemma n_winv : nr (fun t => we_calc (Kp_PLL p) (pll_in (Y1 t) (E1 t)) (Y1 t XPLL)) (fun t => we_calc (Kp_PLL p) (pll_in (Y2 t) (E2 t)) (Y2 t XPLL)).
  Proof. unfold we_calc. apply near_plus; [|apply near_const]. apply near_plus; [|apply HY]. apply near_mult; [apply near_const|apply n_pll]. Qed.
  Lemma n_omega : nr (fun t => omega p k (E1 t) (Y1 t)) (fun t => omega p k (E2 t) (Y2 t)).
  Proof. unfold omega, Rdiv. apply near_mult; [apply n_winv|apply near_const]. Qed.
  Lemma unsat_d (E : X -> env) (Y : X -> st) ph t : (forall t, D t -> unsaturated p k (E t) (Y t)) -> D t -> has_phase k ph -> rlt (m_limit p) (cabs (duty p (Y t) ph)) = false.
  Proof. intros H Ht Hp. apply rlt_false. apply (H t Ht); auto. Qed.
  Lemma unsat_o (E : X -> env) (Y : X -> st) t : (forall t, D t -> unsaturated p k (E t) (Y t)) -> D t ->
    rlt (iref_limit p) (cabs (Cx (Y t (p_state k) + p_gain p k * p_error p k (E t) (Y t)) (Y t XQ - Kp_Q p * q_error p k (E t) (Y t)))) = false.
  Proof. intros H Ht. apply rlt_false. apply (H t Ht); auto. Qed.
  Lemma n_phase ph c : has_phase k ph -> nr (fun t => rhs p k (E1 t) (Y1 t) (P ph c)) (fun t => rhs p k (E2 t) (Y2 t) (P ph c)).
  Proof.
    intros Hp. destruct (n_across ph) as [A1 A2]. destruct (n_iref ph) as [I1 I2]. pose proof n_omega as W.
    assert (St : forall c, nr (fun t => Y1 t (P ph c)) (fun t => Y2 t (P ph c))) by (intros; apply HY).
    destruct c.
    - eapply near_ext; [intros t Ht; apply (proj1 (rhs_current p k (E1 t) (Y1 t) ph Hp))|intros t Ht; apply (proj1 (rhs_current p k (E2 t) (Y2 t) ph Hp))|].
      apply near_plus; [|apply near_mult; auto]. apply near_mult; [apply near_const|]. apply near_plus; auto. apply near_mult; [apply near_const|auto].
    - eapply near_ext; [intros t Ht; apply (proj2 (rhs_current p k (E1 t) (Y1 t) ph Hp))|intros t Ht; apply (proj2 (rhs_current p k (E2 t) (Y2 t) ph Hp))|].
      apply near_minus; [|apply near_mult; auto]. apply near_mult; [apply near_const|]. apply near_plus; auto. apply near_mult; [apply near_const|auto].
    - apply (near_ext _ _ _ _ _ (fun t => Ki_GCC p * Y1 t (P ph CuR)) (fun t => Ki_GCC p * Y2 t (P ph CuR))); [| |apply near_mult; [apply near_const|auto]];
        intros t Ht; [destruct (rhs_inner p k (E1 t) (Y1 t) ph Hp) as (Q & _)|destruct (rhs_inner p k (E2 t) (Y2 t) ph Hp) as (Q & _)];
        cbv zeta in Q; rewrite ?(unsat_d E1 Y1), ?(unsat_d E2 Y2) in Q by auto; exact Q.
    - apply (near_ext _ _ _ _ _ (fun t => Ki_GCC p * Y1 t (P ph CuI)) (fun t => Ki_GCC p * Y2 t (P ph CuI))); [| |apply near_mult; [apply near_const|auto]];
        intros t Ht; [destruct (rhs_inner p k (E1 t) (Y1 t) ph Hp) as (_ & Q & _)|destruct (rhs_inner p k (E2 t) (Y2 t) ph Hp) as (_ & Q & _)];
        cbv zeta in Q; rewrite ?(unsat_d E1 Y1), ?(unsat_d E2 Y2) in Q by auto; exact Q.
    - apply (near_ext _ _ _ _ _ (fun t => wp p * (- Y1 t (P ph CuR) + re (i_ref p k (E1 t) (Y1 t) ph) - Y1 t (P ph CiR)))
        (fun t => wp p * (- Y2 t (P ph CuR) + re (i_ref p k (E2 t) (Y2 t) ph) - Y2 t (P ph CiR)))).
      + intros t Ht; destruct (rhs_inner p k (E1 t) (Y1 t) ph Hp) as (_ & _ & Q & _); cbv zeta in Q; rewrite ?(unsat_d E1 Y1), ?(unsat_d E2 Y2) in Q by auto; exact Q.
      + intros t Ht; destruct (rhs_inner p k (E2 t) (Y2 t) ph Hp) as (_ & _ & Q & _); cbv zeta in Q; rewrite ?(unsat_d E1 Y1), ?(unsat_d E2 Y2) in Q by auto; exact Q.
      + apply near_mult; [apply near_const|]. apply near_minus; auto. apply near_plus; auto. apply near_opp; auto.
    - apply (near_ext _ _ _ _ _ (fun t => wp p * (- Y1 t (P ph CuI) + im (i_ref p k (E1 t) (Y1 t) ph) - Y1 t (P ph CiI)))
        (fun t => wp p * (- Y2 t (P ph CuI) + im (i_ref p k (E2 t) (Y2 t) ph) - Y2 t (P ph CiI)))).
      + intros t Ht; destruct (rhs_inner p k (E1 t) (Y1 t) ph Hp) as (_ & _ & _ & Q); cbv zeta in Q; rewrite ?(unsat_d E1 Y1), ?(unsat_d E2 Y2) in Q by auto; exact Q.
      + intros t Ht; destruct (rhs_inner p k (E2 t) (Y2 t) ph Hp) as (_ & _ & _ & Q); cbv zeta in Q; rewrite ?(unsat_d E1 Y1), ?(unsat_d E2 Y2) in Q by auto; exact Q.
      + apply near_mult; [apply near_const|]. apply near_minus; auto. apply near_plus; auto. apply near_opp; auto.
  Qed.
  Lemma n_p_state : nr (fun t => rhs p k (E1 t) (Y1 t) (p_state k)) (fun t => rhs p k (E2 t) (Y2 t) (p_state k)).
  Proof.
    apply (near_ext _ _ _ _ _ (fun t => p_int p k * p_error p k (E1 t) (Y1 t)) (fun t => p_int p k * p_error p k (E2 t) (Y2 t))).
    - intros t Ht. pose proof (rhs_outer_p p k (E1 t) (Y1 t)) as Q. cbv zeta in Q. rewrite ?(unsat_o E1 Y1), ?(unsat_o E2 Y2) in Q by auto. exact Q.
    - intros t Ht. pose proof (rhs_outer_p p k (E2 t) (Y2 t)) as Q. cbv zeta in Q. rewrite ?(unsat_o E1 Y1), ?(unsat_o E2 Y2) in Q by auto. exact Q.
    - apply near_mult; [apply near_const|apply n_perr].
  Qed.
  Lemma n_xq : nr (fun t => rhs p k (E1 t) (Y1 t) XQ) (fun t => rhs p k (E2 t) (Y2 t) XQ).
  Proof.
    apply (near_ext _ _ _ _ _ (fun t => - Ki_Q p * q_error p k (E1 t) (Y1 t)) (fun t => - Ki_Q p * q_error p k (E2 t) (Y2 t))).
    - intros t Ht. pose proof (proj1 (rhs_outer p k (E1 t) (Y1 t))) as Q. cbv zeta in Q. rewrite ?(unsat_o E1 Y1), ?(unsat_o E2 Y2) in Q by auto. exact Q.
    - intros t Ht. pose proof (proj1 (rhs_outer p k (E2 t) (Y2 t))) as Q. cbv zeta in Q. rewrite ?(unsat_o E1 Y1), ?(unsat_o E2 Y2) in Q by auto. exact Q.
    - apply near_mult; [apply near_const|apply n_qerr].
  Qed.
  Lemma n_vdc_rate : Cdc p <> 0 -> has_dc_link k -> nr (fun t => rhs p k (E1 t) (Y1 t) VDC) (fun t => rhs p k (E2 t) (Y2 t) VDC).
  Proof.
    intros HCd Hd. destruct (V1 Hd) as (c & Hc & HV).
    apply (near_ext _ _ _ _ _ (fun t => (p_in p k (E1 t) (Y1 t) - re (S_term p k (E1 t) (Y1 t))) * / Y1 t VDC * / Cdc p)
      (fun t => (p_in p k (E2 t) (Y2 t) - re (S_term p k (E2 t) (Y2 t))) * / Y2 t VDC * / Cdc p)).
    - intros t Ht. rewrite rhs_dc by auto. destruct (HV t Ht). field. split; lra.
    - intros t Ht. rewrite rhs_dc by auto. destruct (HV t Ht). field. split; lra.
    - apply near_mult; [|apply near_const]. apply near_mult; [apply near_minus; [apply n_pin|apply n_Sterm]|].
      apply (near_inv _ _ _ _ _ c); [exact Hc|exact HV|apply HY].
  Qed.
  Lemma n_pll_rates : nr (fun t => rhs p k (E1 t) (Y1 t) XPLL) (fun t => rhs p k (E2 t) (Y2 t) XPLL) /\
    nr (fun t => rhs p k (E1 t) (Y1 t) WTE) (fun t => rhs p k (E2 t) (Y2 t) WTE).
  Proof.
    split.
    - apply (near_ext _ _ _ _ _ (fun t => Ki_PLL p * pll_in (Y1 t) (E1 t)) (fun t => Ki_PLL p * pll_in (Y2 t) (E2 t))).
      + intros t _. unfold pll_in. clear. destruct k; reflexivity.
      + intros t _. unfold pll_in. clear. destruct k; reflexivity.
      + apply near_mult; [apply near_const|apply n_pll].
    - eapply near_ext; [| |apply n_winv]; intros t _; unfold pll_in; clear; destruct k; reflexivity.
  Qed.
  (** the filtered voltage of the three-phase model *)
  Lemma n_cabs (f f' : X -> cx) : cnr f f' -> nr (fun t => cabs (f t)) (fun t => cabs (f' t)).
  Proof. intros [A C]. unfold cabs, cnorm2. apply near_norm; auto. Qed.
  Lemma n_vrf : nr (fun t => rhs p k (E1 t) (Y1 t) VRF) (fun t => rhs p k (E2 t) (Y2 t) VRF).
  Proof.
    clear U1 U2 V1.
    assert (Q : nr (fun t => ode3 p (E1 t) (Y1 t) VRF) (fun t => ode3 p (E2 t) (Y2 t) VRF)).
    { cbn [ode3]. apply near_mult; [apply near_const|]. apply near_minus; [|apply HY]. unfold Urms_calc.
      assert (UE : forall u v w : R, sqrt ((u ^ 2 + v ^ 2 + w ^ 2) / 3) / sqrt 2 = / sqrt 3 * sqrt (sqrt (u * u + v * v) * sqrt (u * u + v * v) + w * w) * / sqrt 2).
      { intros u v w. rewrite sqrt_div_alt by lra. rewrite sqrt_sqrt by (pose proof (Rle_0_sqr u); pose proof (Rle_0_sqr v); unfold Rsqr in *; lra).
        replace (u ^ 2 + v ^ 2 + w ^ 2) with (u * u + v * v + w * w) by ring. unfold Rdiv. ring. }
      unfold v3_of. eapply near_ext; [intros t Ht; apply UE|intros t Ht; apply UE|].
      apply near_mult; [|apply near_const]. apply near_mult; [apply near_const|].
      apply near_norm; [|apply n_cabs, n_v]. apply near_norm; apply n_cabs, n_v. }
    destruct k; try exact Q; apply (near_const X D N 0).
  Qed.
  Lemma n_rhs v : Cdc p <> 0 -> nr (fun t => rhs p k (E1 t) (Y1 t) v) (fun t => rhs p k (E2 t) (Y2 t) v).
  Proof.
    intros HCd. assert (Z : (forall e y, rhs p k e y v = 0) -> nr (fun t => rhs p k (E1 t) (Y1 t) v) (fun t => rhs p k (E2 t) (Y2 t) v)).
    { intros H. apply (near_ext _ _ _ _ _ (fun _ => 0) (fun _ => 0)); auto. apply near_const. }
    destruct v as [ph c| | | | | | |].
    - destruct (phase_dec k ph) as [Hp|Hp]; [apply n_phase; auto|]. apply Z. intros e y. apply rhs_idle; auto.
    - pose proof n_vdc_rate as Q. destruct k; try (apply Q; [exact HCd|exact I]); apply Z; reflexivity.
    - pose proof n_p_state as Q. destruct k; try exact Q; apply Z; reflexivity.
    - pose proof n_p_state as Q. destruct k; try exact Q; apply Z; reflexivity.
    - apply n_xq.
    - apply n_pll_rates.
    - apply n_pll_rates.
    - apply n_vrf.
  Qed.
End Lipschitz.
