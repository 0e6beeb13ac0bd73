(** C52 for the single-phase constant-Vdc model. *)
From Coquelicot Require Import Coquelicot.
From Coq Require Import List.
From Verif Require Import RBase PhasorModel PVModel ODEModel JacModel JacSpec JacLemmas PhasorProperties PhasorProperties2 PVProperties JacProperties.
Import RBase.
Import ListNotations.
Open Scope R_scope.

Definition regularc (p : prm) (e : env) (y : st) : Prop :=
  regular_phase p (i_of y PA) (x_of y PA) (u_of y PA) (irefc p e y) /\
  regular_outer p (irefc p e y) (Ki_P p * (Ppv_of p e (e_Vconst e) - re (Sc_inv p e y))) (y XP)
    (- Ki_Q p * (e_Qref e - im (S1_pcc p e y))) (y XQ).
(** Rows and columns through which the active power of the inverter enters. *)
Definition power_entry (v w : var) : Prop := (v = XP \/ v = P PA CuR) /\ exists c, w = P PA c.

Section Const.
Variables (p : prm) (e : env).
Hypothesis G : e_grid e = None.
Hypothesis CON : e_conn e = true.
Let Vc := e_Vconst e.
Definition NC_P (y : st) :=
  1/2 * (Vc / 2 * (Kp_GCC p * y (P PA CuR) + y (P PA CxR)) * y (P PA CiR) +
         Vc / 2 * (Kp_GCC p * y (P PA CuI) + y (P PA CxI)) * y (P PA CiI)).
Definition NC_err (y : st) := Ppv_of p e Vc - NC_P y.
Definition NC_rD (y : st) := y XP + Kp_P p * NC_err y.
Definition NC_rQ (y : st) := y XQ - Kp_Q p * (e_Qref e - N1_Q e y).
Definition NC_ir (y : st) := cabs (Cx (NC_rD y) (NC_rQ y)).
Definition NC (y : st) (v : var) : R :=
  match v with
  | P PA CiR => (1 / Lf p) * (- Rf p * y (P PA CiR) - re (e_va e) + Vc / 2 * (Kp_GCC p * y (P PA CuR) + y (P PA CxR))) + N1_we p e y / wbase * y (P PA CiI)
  | P PA CiI => (1 / Lf p) * (- Rf p * y (P PA CiI) - im (e_va e) + Vc / 2 * (Kp_GCC p * y (P PA CuI) + y (P PA CxI))) - N1_we p e y / wbase * y (P PA CiR)
  | P PA CxR => aw (rlt (m_limit p) (N1_m p y)) (Ki_GCC p * y (P PA CuR)) (y (P PA CxR)) (Ki_GCC p * y (P PA CuR))
  | P PA CxI => aw (rlt (m_limit p) (N1_m p y)) (Ki_GCC p * y (P PA CuI)) (y (P PA CxI)) (Ki_GCC p * y (P PA CuI))
  | P PA CuR => aw (rlt (m_limit p) (N1_m p y)) (wp p * (- y (P PA CuR) + NC_rD y - y (P PA CiR))) (y (P PA CuR)) (wp p * (- y (P PA CuR) + NC_rD y - y (P PA CiR)))
  | P PA CuI => aw (rlt (m_limit p) (N1_m p y)) (wp p * (- y (P PA CuI) + NC_rQ y - y (P PA CiI))) (y (P PA CuI)) (wp p * (- y (P PA CuI) + NC_rQ y - y (P PA CiI)))
  | XP => aw (rlt (iref_limit p) (NC_ir y)) (Ki_P p * NC_err y) (y XP) (Ki_P p * NC_err y)
  | XQ => aw (rlt (iref_limit p) (NC_ir y)) (- Ki_Q p * (e_Qref e - N1_Q e y)) (y XQ) (- Ki_Q p * (e_Qref e - N1_Q e y))
  | XPLL => Ki_PLL p * N1_vd e y
  | WTE => N1_we p e y
  | _ => 0
  end.
Lemma Sc_form y : re (Sc_inv p e y) = NC_P y.
Proof. unfold Sc_inv, S_ph, vt_calc, m_calc, cscale, cmul, conj, cadd, u_of, x_of, i_of, NC_P, Vc. cbn [re im]. ring. Qed.
Lemma irefc_form y : irefc p e y = Cx (NC_rD y) (NC_rQ y).
Proof. unfold irefc, ia_ref_activepower. rewrite Sc_form, (S1_form p e G). reflexivity. Qed.
Lemma irefc_test_form y : irefc_test p e y = Cx (NC_rD y) (NC_rQ y).
Proof. rewrite <- irefc_form. unfold irefc_test, irefc, eff_Ppv, eff_Qref. rewrite CON. reflexivity. Qed.
Lemma odec_form y v : odec p e y v = NC y v.
Proof.
  assert (VD : vd1 p e y = N1_vd e y) by (apply vd1_form; auto).
  assert (VC : v_calc p e PA (i_of y PA) = e_va e) by (unfold v_calc; rewrite G; reflexivity).
  unfold odec. cbv zeta. unfold we_calc. rewrite VD, irefc_test_form, VC. unfold eff_iref, eff_Ppv, eff_Qref. rewrite CON, irefc_form.
  destruct v as [k c| | | | | | |]; try reflexivity.
  - rewrite Sc_form. reflexivity.
  - unfold dxQ. rewrite (S1_form p e G). reflexivity.
Qed.
End Const.

Section Const_proof.
Variables (p : prm) (e : env) (y : st).
Hypothesis EV : external_voltage e.
Hypothesis HL : Lf p <> 0.
Hypothesis REG : regularc p e y.
Let G : e_grid e = None. Proof. apply EV. Qed.
Let CON : e_conn e = true. Proof. apply EV. Qed.
Let W : wbase <> 0. Proof. unfold wbase. pose proof PI_RGT_0. lra. Qed.
Ltac ode_start w := apply is_derive_Reals; eapply is_derive_ext; [intros; symmetry; apply (odec_form p e G CON (upd y w _))|];
   unfold NC, NC_ir, NC_rD, NC_rQ, NC_err, NC_P, N1_we, N1_vd, N1_m, N1_Q; upd_red.
Ltac fin := unfold jacc; cbv zeta; rewrite ?(S1_form p e G), ?(Sc_form p e); unfold v_calc, eff_iref, eff_Qref, eff_Ppv; rewrite ?(vd1_form p e y G), ?G, ?CON, ?(irefc_form p e G), ?wte_factor;
  first [ reflexivity | field; auto
        | apply aw_ext; first [reflexivity | ring | field; auto]
        | etransitivity; [apply aw_ext with (b := 0); first [reflexivity|ring]|apply aw_0] ].
Ltac reg := destruct REG as ((R1 & R2 & R3 & R4) & (R5 & R6)); rewrite (irefc_form p e G) in *; rewrite (Sc_form p e) in R5; rewrite (S1_form _ _ G) in R6; assumption.
Ltac entry w := unfold partial_derivative; ode_start w;
  first [ aw_tac; [reg | fin ]
        | evar_last; [auto_derive; [repeat split; auto | reflexivity] | fin] ].
Lemma C52_const_sec v w : In v statesc -> In w statesc -> ~ power_entry v w -> ~ (v = P PA CiI /\ w = WTE) ->
   partial_derivative (fun z => odec p e z v) w y (jacc p e y v w).
Proof.
  intros Hv Hw Hx Hx2. unfold statesc, abc_states in *. simpl in Hv, Hw.
  repeat (destruct Hv as [<-|Hv]); try contradiction; repeat (destruct Hw as [<-|Hw]); try contradiction.
  all: try (exfalso; apply Hx; split; eauto; fail).
  all: try (exfalso; apply Hx2; split; reflexivity).
  all: match goal with |- partial_derivative _ ?w _ _ => try solve [entry w] end.
Qed.
Lemma C52_const_wte : partial_derivative (fun z => odec p e z (P PA CiI)) WTE y (- jacc p e y (P PA CiI) WTE).
Proof. entry WTE. Qed.
(** True derivatives of the power controller with respect to the current-loop states. *)
Definition dP (w : ODEModel.comp) : R :=
  e_Vconst e / 4 * match w with
  | CiR => Kp_GCC p * y (P PA CuR) + y (P PA CxR) | CiI => Kp_GCC p * y (P PA CuI) + y (P PA CxI)
  | CxR => y (P PA CiR) | CxI => y (P PA CiI) | CuR => Kp_GCC p * y (P PA CiR) | CuI => Kp_GCC p * y (P PA CiI) end.
Lemma C52_const_XP c : partial_derivative (fun z => odec p e z XP) (P PA c) y
  (aw (i_sat p (irefc p e y)) (Ki_P p * (Ppv_of p e (e_Vconst e) - re (Sc_inv p e y))) (y XP) (- Ki_P p * dP c)).
Proof.
  rewrite (irefc_form p e G), (Sc_form p e).
  destruct c; match goal with |- partial_derivative _ ?w _ _ => unfold partial_derivative; ode_start w end;
   aw_tac; [reg|apply aw_ext; unfold dP; field|reg|apply aw_ext; unfold dP; field|reg|apply aw_ext; unfold dP; field|reg|apply aw_ext; unfold dP; field|reg|apply aw_ext; unfold dP; field|reg|apply aw_ext; unfold dP; field].
Qed.
End Const_proof.
(** Every entry outside the active-power path is the partial derivative, except
    (i_imag, PLL angle), whose sign is wrong; the last conjunct gives the true
    derivatives of the active-power integrator, which the matrix does not contain. *)
Theorem C52_constant_Vdc_partial :
  forall p e y, external_voltage e -> Lf p <> 0 -> regularc p e y ->
  (forall v w, In v statesc -> In w statesc -> ~ power_entry v w -> ~ (v = P PA CiI /\ w = WTE) ->
   partial_derivative (fun z => odec p e z v) w y (jacc p e y v w)) /\
  partial_derivative (fun z => odec p e z (P PA CiI)) WTE y (- jacc p e y (P PA CiI) WTE) /\
  (forall c, partial_derivative (fun z => odec p e z XP) (P PA c) y
     (aw (i_sat p (irefc p e y)) (Ki_P p * (Ppv_of p e (e_Vconst e) - re (Sc_inv p e y))) (y XP) (- Ki_P p * dP p e y c))).
Proof.
  intros p e y EV HL REG. split; [|split].
  - apply C52_const_sec; auto.
  - apply C52_const_wte; auto.
  - apply C52_const_XP; auto.
Qed.
Print Assumptions C52_constant_Vdc_partial.
Definition witc_p : prm := Prm 1 1 1 1 1 1 1000 1 1 1 1 1 1 1000 1 1 1 1 10 (Cx 1 2) 72.
Lemma Ppv_small : Rabs (Ppv_of witc_p wit_e 2) <= 3.
Proof.
  assert (D := Ppv_local witc_p wit_e 2 wit_pv). apply locally_singleton in D. rewrite D. cbn [witc_p wit_e Vdcbase e_mod].
  unfold Ipv_val, Iph_calc. cbn [Np Ns Sinsol Tactual].
  set (z := q_charge * _ / _). assert (B : 0 <= z <= 1) by (unfold z, q_charge, k_boltz, A_ideal; lra).
  pose proof (PVProperties.exp_le _ _ (proj2 B)). pose proof exp_le_3. pose proof (PVProperties.exp_le _ _ (proj1 B)). rewrite exp_0 in *.
  unfold Iscr, Kv, T0, Irs, Sbase. apply Rabs_le_between. lra.
Qed.
Lemma cabs_lt1000 a b : Rabs a <= 9 -> Rabs b <= 9 -> cabs (Cx a b) < 1000.
Proof.
  intros A B. apply Rabs_le_between in A. apply Rabs_le_between in B.
  unfold cabs, cnorm2. cbn [re im]. rewrite <- (sqrt_square 1000) by lra. apply sqrt_lt_1; nra.
Qed.
Lemma witc_regular : regularc witc_p wit_e wit_y.
Proof.
  pose proof Ppv_small as PS. apply Rabs_le_between in PS.
  assert (A : forall r, Rabs r <= 9 <-> -9 <= r <= 9) by (intros; apply Rabs_le_between).
  unfold regularc. rewrite (irefc_form witc_p wit_e eq_refl). split.
  - split; [|split; [|split]]; apply off_below; apply cabs_lt1000; apply A; cbn; lra.
  - split; apply off_below; apply cabs_lt1000; apply A; unfold NC_rD, NC_rQ, NC_err, NC_P, N1_Q; cbn [e_Vconst wit_e] in *; fold wit_e; cbn [witc_p wit_y Kp_P Kp_Q Kp_GCC e_Qref wit_e e_va re im]; fold witc_p; lra.
Qed.
Example C52_constant_Vdc_hypotheses_met : exists p e y, external_voltage e /\ Lf p <> 0 /\ regularc p e y /\ y (P PA CiR) = 1.
Proof. exists witc_p, wit_e, wit_y. split; [split; reflexivity|]. split; [cbn; lra|]. split; [apply witc_regular|reflexivity]. Qed.
(** REFUTED for the full matrix: the derivative of the active-power integrator with
    respect to the controller state x_real is -1/2, the matrix says 0. *)
Theorem C52_constant_Vdc_refuted :
  exists p e y v w, external_voltage e /\ Lf p <> 0 /\ regularc p e y /\ In v statesc /\ In w statesc /\
    partial_derivative (fun z => odec p e z v) w y (- 1 / 2) /\ jacc p e y v w = 0.
Proof.
  exists witc_p, wit_e, wit_y, XP, (P PA CxR). split; [split; reflexivity|]. split; [cbn; lra|]. split; [apply witc_regular|].
  split; [simpl; tauto|]. split; [simpl; tauto|]. split; [|reflexivity].
  assert (T := C52_const_XP witc_p wit_e wit_y).
  specialize (T ltac:(split; reflexivity) witc_regular CxR).
  assert (NS : i_sat witc_p (irefc witc_p wit_e wit_y) = false).
  { destruct witc_regular as (_ & (_ & _) & _). unfold i_sat. apply rlt_false. left.
    pose proof Ppv_small as PS. apply Rabs_le_between in PS. rewrite (irefc_form witc_p wit_e eq_refl).
    assert (A : forall r, Rabs r <= 9 <-> -9 <= r <= 9) by (intros; apply Rabs_le_between).
    apply cabs_lt1000; apply A; unfold NC_rD, NC_rQ, NC_err, NC_P, N1_Q; cbn [e_Vconst wit_e] in *; fold wit_e; cbn [witc_p wit_y Kp_P Kp_Q Kp_GCC e_Qref wit_e e_va re im]; fold witc_p; lra. }
  rewrite NS in T. unfold aw in T. replace (- 1 / 2) with (- Ki_P witc_p * dP witc_p wit_e wit_y CxR) by (unfold dP; cbn [witc_p wit_e wit_y Ki_P e_Vconst Kp_GCC]; lra). exact T.
Qed.
Print Assumptions C52_constant_Vdc_refuted.
