(** C52 for the single-phase model. *)
From Coquelicot Require Import Coquelicot.
From Coq Require Import List.
From Verif Require Import RBase PhasorModel PVModel ODEModel JacModel JacSpec JacLemmas PhasorProperties PhasorProperties2 PVProperties.
Import RBase.
Import ListNotations.
Open Scope R_scope.

(** State is away from the switching surfaces of the single-phase model. *)
Definition regular1 (p : prm) (e : env) (y : st) : Prop :=
  regular_phase p (i_of y PA) (x_of y PA) (u_of y PA) (iref1 p e y) /\
  regular_outer p (iref1 p e y) (Ki_DC p * (e_Vdcref e - y VDC)) (y XDC)
    (- Ki_Q p * (e_Qref e - im (S1_pcc p e y))) (y XQ) /\
  pv_regular p e (y VDC).
(** Grid-connected simulation with the voltage supplied from outside. *)
Definition external_voltage (e : env) : Prop := e_grid e = None /\ e_conn e = true.
Definition sound_parameters (p : prm) : Prop := Lf p <> 0 /\ Cdc p <> 0.

Lemma vd1_form p e y : e_grid e = None ->
  vd1 p e y = cabs (e_va e) * sin (e_wgrid e * e_t e + cphase (e_va e) - y WTE).
Proof.
  intros G. unfold vd1, v_calc. rewrite G. rewrite (polar_rect (e_va e)) at 1. apply C47_pll_error.
Qed.

Section Single.
Variables (p : prm) (e : env).
Hypothesis G : e_grid e = None.
Hypothesis CON : e_conn e = true.
Let a := re (e_va e).
Let b := im (e_va e).
Let r := cabs (e_va e).
Let th := e_wgrid e * e_t e + cphase (e_va e).
(** the model in real coordinates *)
Definition N1_vd (y : st) := r * sin (th - y WTE).
Definition N1_we (y : st) := Kp_PLL p * N1_vd y + y XPLL + 2 * PI * 60.
Definition N1_Q (y : st) := 1/2 * (b * y (P PA CiR) - a * y (P PA CiI)).
Definition N1_rD (y : st) := y XDC + Kp_DC p * (e_Vdcref e - y VDC).
Definition N1_rQ (y : st) := y XQ - Kp_Q p * (e_Qref e - N1_Q y).
Definition N1_m (y : st) := cabs (Cx (Kp_GCC p * y (P PA CuR) + y (P PA CxR)) (Kp_GCC p * y (P PA CuI) + y (P PA CxI))).
Definition N1_ir (y : st) := cabs (Cx (N1_rD y) (N1_rQ y)).
Definition N1_Pinv (y : st) :=
  1/2 * (y VDC / 2 * (Kp_GCC p * y (P PA CuR) + y (P PA CxR)) * y (P PA CiR) +
         y VDC / 2 * (Kp_GCC p * y (P PA CuI) + y (P PA CxI)) * y (P PA CiI)).
Definition N1 (y : st) (v : var) : R :=
  match v with
  | P PA CiR => (1 / Lf p) * (- Rf p * y (P PA CiR) - a + y VDC / 2 * (Kp_GCC p * y (P PA CuR) + y (P PA CxR))) + N1_we y / wbase * y (P PA CiI)
  | P PA CiI => (1 / Lf p) * (- Rf p * y (P PA CiI) - b + y VDC / 2 * (Kp_GCC p * y (P PA CuI) + y (P PA CxI))) - N1_we y / wbase * y (P PA CiR)
  | P PA CxR => aw (rlt (m_limit p) (N1_m y)) (Ki_GCC p * y (P PA CuR)) (y (P PA CxR)) (Ki_GCC p * y (P PA CuR))
  | P PA CxI => aw (rlt (m_limit p) (N1_m y)) (Ki_GCC p * y (P PA CuI)) (y (P PA CxI)) (Ki_GCC p * y (P PA CuI))
  | P PA CuR => aw (rlt (m_limit p) (N1_m y)) (wp p * (- y (P PA CuR) + N1_rD y - y (P PA CiR))) (y (P PA CuR)) (wp p * (- y (P PA CuR) + N1_rD y - y (P PA CiR)))
  | P PA CuI => aw (rlt (m_limit p) (N1_m y)) (wp p * (- y (P PA CuI) + N1_rQ y - y (P PA CiI))) (y (P PA CuI)) (wp p * (- y (P PA CuI) + N1_rQ y - y (P PA CiI)))
  | VDC => (Ppv_of p e (y VDC) - N1_Pinv y) / (y VDC * Cdc p)
  | XDC => aw (rlt (iref_limit p) (N1_ir y)) (Ki_DC p * (e_Vdcref e - y VDC)) (y XDC) (Ki_DC p * (e_Vdcref e - y VDC))
  | XQ => aw (rlt (iref_limit p) (N1_ir y)) (- Ki_Q p * (e_Qref e - N1_Q y)) (y XQ) (- Ki_Q p * (e_Qref e - N1_Q y))
  | XPLL => Ki_PLL p * N1_vd y
  | WTE => N1_we y
  | _ => 0
  end.
Lemma S1_form y : im (S1_pcc p e y) = N1_Q y.
Proof. unfold S1_pcc, v_calc, S_ph, cscale, cmul, conj, i_of, N1_Q, a, b. rewrite G. cbn [re im]. ring. Qed.
Lemma iref_form y : iref1 p e y = Cx (N1_rD y) (N1_rQ y).
Proof. unfold iref1, ia_ref_calc. rewrite S1_form. reflexivity. Qed.
Lemma itest_form y : iref1_test p e y = Cx (N1_rD y) (N1_rQ y).
Proof. rewrite <- iref_form. unfold iref1_test, iref1, eff_Vref, eff_Qref. rewrite CON. reflexivity. Qed.
Lemma ode1_form y v : ode1 p e y v = N1 y v.
Proof.
  assert (VD : vd1 p e y = N1_vd y) by (apply vd1_form; auto).
  pose proof (itest_form y) as IT.
  assert (VC : v_calc p e PA (i_of y PA) = e_va e) by (unfold v_calc; rewrite G; reflexivity).
  assert (SAT : m_sat p (u_of y PA) (x_of y PA) = rlt (m_limit p) (N1_m y)) by reflexivity.
  unfold ode1. cbv zeta. unfold we_calc. rewrite VD, IT, VC. unfold eff_iref, eff_Vref, eff_Qref, eff_Ppv. rewrite CON, iref_form.
  destruct v as [k c| | | | | | |]; try reflexivity.
  - cbn [N1]. unfold dVdc. f_equal. f_equal. unfold S1_inv, S_ph, vt_calc, m_calc, cscale, cmul, conj, cadd, u_of, x_of, i_of, N1_Pinv. cbn [re im]. ring.
  - unfold dxDC. rewrite S1_form. reflexivity.
  - unfold dxQ. rewrite S1_form. reflexivity.
Qed.
End Single.

Ltac upd_red := cbv beta zeta delta [upd]; cbn [var_eq_dec phase_eq_dec comp_eq_dec var_rec var_rect comp_rec comp_rect phase_rec phase_rect eq_rec_r eq_rec eq_rect sumbool_rec sumbool_rect f_equal].

Lemma wte_factor th w : - cos (th - PI / 2) * sin w + cos (th - PI / 2 - PI / 2) * cos w = - cos (th + - w).
Proof.
  change (th + - w) with (th - w).
  rewrite cos_minus, (cos_minus th). replace (th - PI/2 - PI/2) with (th - PI) by lra. rewrite cos_minus.
  rewrite cos_PI2, sin_PI2, cos_PI, sin_PI. ring.
Qed.

Ltac smooth := apply ex_cont; auto_derive; repeat split; auto.
Ltac aw_tac :=
  lazymatch goal with
  | |- is_derive (fun x => aw (rlt ?L (@?s x)) (@?d x) (@?z x) (@?val x)) ?x0 ?l =>
      evar_last; [apply (aw_derive L s d z val x0); [apply cabs_cont; smooth | smooth | smooth | cbv beta | auto_derive; [repeat split; auto | reflexivity]] | cbv beta]
  end.

Lemma locally_ne (x0 : R) : x0 <> 0 -> locally x0 (fun x => x <> 0).
Proof. intros H. apply (open_neq 0). auto. Qed.
Lemma dvdc_split I V B A1 A2 i1 i2 C : V <> 0 -> C <> 0 ->
  (I * (V * B) / Sbase - 1/2 * (V / 2 * A1 * i1 + V / 2 * A2 * i2)) / (V * C) = I * B / Sbase / C - 1/4 * (A1 * i1 + A2 * i2) / C.
Proof. intros. unfold Sbase. field. auto. Qed.

Section Single_proof.
Variables (p : prm) (e : env) (y : st).
Hypothesis EV : external_voltage e.
Hypothesis SP : sound_parameters p.
Hypothesis REG : regular1 p e y.
Let G : e_grid e = None. Proof. apply EV. Qed.
Let CON : e_conn e = true. Proof. apply EV. Qed.
Let HL : Lf p <> 0. Proof. apply SP. Qed.
Let HC : Cdc p <> 0. Proof. apply SP. Qed.
Let HV : y VDC <> 0. Proof. destruct REG as (_ & _ & _ & H & _). intros E. rewrite E in H. lra. Qed.
Let W : wbase <> 0. Proof. unfold wbase. pose proof PI_RGT_0. lra. Qed.
Ltac ode_start w := apply is_derive_Reals; eapply is_derive_ext; [intros; symmetry; apply (ode1_form p e G CON (upd y w _))|];
   unfold N1, N1_we, N1_vd, N1_m, N1_ir, N1_rD, N1_rQ, N1_Q, N1_Pinv; upd_red.


Ltac fin := unfold jac1; cbv zeta; rewrite ?(itest_form p e G CON), ?(S1_form p e G); unfold v_calc, eff_iref, eff_Qref, eff_Vref; rewrite ?(vd1_form p e y G), ?G, ?CON, ?(iref_form _ _ G), ?wte_factor;
  first [ reflexivity | field; auto
        | apply aw_ext; first [reflexivity | ring | field; auto]
        | etransitivity; [apply aw_ext with (b := 0); first [reflexivity|ring]|apply aw_0] ].
Ltac reg := destruct REG as ((R1 & R2 & R3 & R4) & (R5 & R6) & _); rewrite ?(iref_form _ _ G) in *; rewrite ?(S1_form _ _ G) in *; assumption.
Ltac entry w := unfold partial_derivative; ode_start w;
  first [ aw_tac; [reg | fin ]
        | evar_last; [auto_derive; [repeat split; auto | reflexivity] | fin] ].
(** Every entry except one is the partial derivative; the exception has the wrong sign. *)
Lemma C52_single_phase_partial_sec :
  (forall v w, In v states1 -> In w states1 -> ~ (v = P PA CiI /\ w = WTE) ->
   partial_derivative (fun z => ode1 p e z v) w y (jac1 p e y v w)) /\
  partial_derivative (fun z => ode1 p e z (P PA CiI)) WTE y (- jac1 p e y (P PA CiI) WTE).
Proof.
  split; [|entry WTE].
  intros v w Hv Hw Hx. unfold states1, abc_states in *. simpl in Hv, Hw.
  repeat (destruct Hv as [<-|Hv]); try contradiction; repeat (destruct Hw as [<-|Hw]); try contradiction.
  all: match goal with |- partial_derivative _ ?w _ _ => try solve [entry w] end.
  - exfalso; auto.
  - pose proof REG as (_ & _ & PR). unfold partial_derivative. apply is_derive_Reals.
    apply (is_derive_ext_loc (fun x => Ipv_val (e_mod e) (x * Vdcbase p) * Vdcbase p / Sbase / Cdc p
      - 1/4 * ((Kp_GCC p * y (P PA CuR) + y (P PA CxR)) * y (P PA CiR) + (Kp_GCC p * y (P PA CuI) + y (P PA CxI)) * y (P PA CiI)) / Cdc p)).
    + generalize (filter_and _ _ (Ppv_local p e (y VDC) PR) (locally_ne (y VDC) HV)). apply filter_imp.
      intros x [E NX]. symmetry. rewrite (ode1_form p e G CON). unfold N1, N1_Pinv. upd_red. rewrite E.
      apply dvdc_split; auto.
    + unfold Ipv_val. destruct PR as (_ & _ & HN & HT).
      assert (D : q_charge <> 0 /\ k_boltz <> 0 /\ A_ideal <> 0 /\ Sbase <> 0) by (unfold q_charge, k_boltz, A_ideal, Sbase; lra). destruct D as (D1 & D2 & D3 & D4).
      evar_last; [auto_derive; [repeat split; auto|reflexivity]|]. unfold jac1. cbv zeta.
      replace (q_charge * y VDC * Vdcbase p / (k_boltz * A_ideal * Ns (e_mod e) * Tactual (e_mod e))) with
              (q_charge * (y VDC * Vdcbase p) / (k_boltz * Tactual (e_mod e) * A_ideal * Ns (e_mod e))) by (field; auto).
      unfold Rdiv at 2. set (EX := exp _). field; repeat split; auto.
Qed.
End Single_proof.
Theorem C52_single_phase_partial :
  forall p e y, external_voltage e -> sound_parameters p -> regular1 p e y ->
  (forall v w, In v states1 -> In w states1 -> ~ (v = P PA CiI /\ w = WTE) ->
   partial_derivative (fun z => ode1 p e z v) w y (jac1 p e y v w)) /\
  partial_derivative (fun z => ode1 p e z (P PA CiI)) WTE y (- jac1 p e y (P PA CiI) WTE).
Proof. exact C52_single_phase_partial_sec. Qed.
Print Assumptions C52_single_phase_partial.

(** ** A concrete regular operating point, used as witness below. *)
Lemma cphase_1 : cphase (Cx 1 0) = 0.
Proof.
  unfold cphase. cbn [re im]. replace (rlt 0 1) with true by (symmetry; apply rlt_iff; lra).
  replace (0 / 1) with 0 by field. apply atan_0.
Qed.
Definition wit_p : prm := Prm 1 1 1 1 1 1 10 1 1 1 1 1 1 10 1 1 1 1 10 (Cx 1 2) 72.
Definition wit_e : env := Env 0 0 (Cx 1 0) (Cx 1 0) (Cx 1 0) None 0 2 (PVM 1 1000 100 300) true 2.
Definition wit_y : st := fun v => match v with P _ CiR => 1 | VDC => 2 | _ => 0 end.
Lemma wit_pv : pv_regular wit_p wit_e 2.
Proof.
  unfold pv_regular. cbn [wit_p wit_e Vdcbase Vdcmpp_max e_mod Ns Tactual]. split; [lra|]. split; [|lra].
  unfold Ipv_val, Iph_calc. cbn [Np Ns Sinsol Tactual].
  set (z := q_charge * _ / _). assert (z <= 1) by (unfold z, q_charge, k_boltz, A_ideal; lra).
  pose proof (PVProperties.exp_le _ _ H). pose proof exp_le_3. unfold Iscr, Kv, T0, Irs. nra.
Qed.
Lemma cabs_lt10 a b : Rabs a <= 3 -> Rabs b <= 3 -> cabs (Cx a b) < 10.
Proof.
  intros A B. apply Rabs_le_between in A. apply Rabs_le_between in B.
  unfold cabs, cnorm2. cbn [re im]. rewrite <- (sqrt_square 10) by lra. apply sqrt_lt_1; nra.
Qed.
Lemma off_below L s d x : s < L -> off_switch L s d x.
Proof. intros H. split; [lra|intros; lra]. Qed.
Lemma wit_regular1 : regular1 wit_p wit_e wit_y.
Proof.
  assert (A : forall r, Rabs r <= 3 <-> -3 <= r <= 3) by (intros; apply Rabs_le_between).
  unfold regular1. rewrite (iref_form wit_p wit_e eq_refl). split; [|split; [|apply wit_pv]].
  - split; [|split; [|split]]; apply off_below; apply cabs_lt10; apply A; cbn; lra.
  - split; apply off_below; apply cabs_lt10; apply A; unfold N1_rD, N1_rQ, N1_Q; cbn; lra.
Qed.
Example C52_single_phase_hypotheses_met : exists p e y, external_voltage e /\ sound_parameters p /\ regular1 p e y /\ y (P PA CiR) = 1.
Proof. exists wit_p, wit_e, wit_y. split; [split; reflexivity|]. split; [split; cbn; lra|]. split; [apply wit_regular1|reflexivity]. Qed.

(** REFUTED for the full matrix. *)
Theorem C52_single_phase_refuted :
  exists p e y v w, external_voltage e /\ sound_parameters p /\ regular1 p e y /\ In v states1 /\ In w states1 /\
    ~ partial_derivative (fun z => ode1 p e z v) w y (jac1 p e y v w).
Proof.
  exists wit_p, wit_e, wit_y, (P PA CiI), WTE. split; [split; reflexivity|]. split; [split; cbn; lra|]. split; [apply wit_regular1|].
  split; [simpl; tauto|]. split; [simpl; tauto|]. intros H.
  assert (T := proj2 (C52_single_phase_partial wit_p wit_e wit_y ltac:(split; reflexivity) ltac:(split; cbn; lra) wit_regular1)).
  pose proof (uniqueness_limite _ _ _ _ H T) as E. revert E. unfold jac1. cbv zeta. rewrite wte_factor.
  assert (CA : cabs (v_calc wit_p wit_e PA (i_of wit_y PA)) = 1).
  { unfold cabs, cnorm2. cbn. replace (1 * 1 + 0 * 0) with 1 by ring. apply sqrt_1. }
  assert (CP : cphase (v_calc wit_p wit_e PA (i_of wit_y PA)) = 0).
  { apply cphase_1. }
  rewrite CA, CP. cbn [wit_p wit_e wit_y e_wgrid e_t Kp_PLL]. replace (0 * 0 + 0 + - 0) with 0 by ring. rewrite cos_0.
  pose proof PI_RGT_0. intros E. assert (X : 1 / wbase = 0) by lra. unfold wbase in X.
  assert (0 < 1 / (2 * PI * 60)) by (apply Rdiv_lt_0_compat; lra). lra.
Qed.
Print Assumptions C52_single_phase_refuted.

(** The restriction to externally supplied voltage is needed: in stand-alone mode
    the dependence of the PCC voltage on the inverter current is missing. *)
Definition wit_g : grid := Grid_ (Cx 1 0) (Cx 1 0) (Cx 1 0) (Cx 0 0) (Cx 1 0).
Definition wit_p2 : prm := Prm 1 1 1 1 1 1 10 1 1 1 1 1 1 10 1 1 1 1 10 (Cx 1 0) 1.
Definition wit_e2 : env := Env 0 0 (Cx 1 0) (Cx 1 0) (Cx 1 0) (Some wit_g) 0 2 (PVM 1 1000 100 300) true 2.
Theorem C52_stand_alone_refuted :
  exists p e y v w, e_grid e <> None /\ e_conn e = true /\ sound_parameters p /\ pv_regular p e (y VDC) /\
    cabs (m_calc p (u_of y PA) (x_of y PA)) < m_limit p /\ cabs (iref1 p e y) < iref_limit p /\
    In v states1 /\ In w states1 /\ ~ partial_derivative (fun z => ode1 p e z v) w y (jac1 p e y v w).
Proof.
  exists wit_p2, wit_e2, wit_y, (P PA CiR), (P PA CiR).
  split; [discriminate|]. split; [reflexivity|]. split; [split; cbn; lra|]. split; [exact wit_pv|].
  assert (A : forall r, -3 <= r <= 3 -> Rabs r <= 3) by (intros; apply Rabs_le_between; auto).
  split; [apply cabs_lt10; apply A; cbn; lra|]. 
  assert (V : forall z, v_calc wit_p2 wit_e2 PA z = Cx ((1 + re z) / 2) (im z / 2)).
  { intros [z1 z2]. unfold v_calc, wit_e2, v_standalone. cbn [e_grid]. apply cx_eq; unfold cmul, cadd, cscale, cdiv, cinv, cnorm2; cbn; field. }
  split.
  { unfold iref1, S1_pcc. rewrite V. apply cabs_lt10; apply A; cbn; lra. }
  split; [simpl; tauto|]. split; [simpl; tauto|]. intros H. apply is_derive_Reals in H.
  assert (T : is_derive (fun x => ode1 wit_p2 wit_e2 (upd wit_y (P PA CiR) x) (P PA CiR)) (wit_y (P PA CiR)) (- (3/2))).
  { apply is_derive_ext with (fun x => - x - (1 + x) / 2).
    - intros x. unfold ode1. cbv zeta. cbn [d_comp]. unfold di_re. rewrite V. unfold i_of, vt_calc, m_calc. upd_red. cbn. field. unfold wbase. pose proof PI_RGT_0. lra.
    - auto_derive; auto. lra. }
  assert (E2 := eq_trans (eq_sym (is_derive_unique _ _ _ H)) (is_derive_unique _ _ _ T)).
  cbn in E2. lra.
Qed.
Print Assumptions C52_stand_alone_refuted.

(** ... and so is the restriction to a connected DER: after disconnection the
    current reference is zero, but the entries of the reference path stay. *)
Definition wit_e3 : env := Env 0 0 (Cx 1 0) (Cx 1 0) (Cx 1 0) None 0 2 (PVM 1 1000 100 300) false 2.
Theorem C52_disconnected_refuted :
  exists p e y v w, e_grid e = None /\ e_conn e = false /\ sound_parameters p /\ pv_regular p e (y VDC) /\
    cabs (m_calc p (u_of y PA) (x_of y PA)) < m_limit p /\ cabs (iref1 p e y) < iref_limit p /\
    In v states1 /\ In w states1 /\ ~ partial_derivative (fun z => ode1 p e z v) w y (jac1 p e y v w).
Proof.
  exists wit_p, wit_e3, wit_y, (P PA CuR), XDC.
  split; [reflexivity|]. split; [reflexivity|]. split; [split; cbn; lra|]. split; [exact wit_pv|].
  assert (A : forall r, -3 <= r <= 3 -> Rabs r <= 3) by (intros; apply Rabs_le_between; auto).
  assert (M : cabs (m_calc wit_p (u_of wit_y PA) (x_of wit_y PA)) < 10) by (apply cabs_lt10; apply A; cbn; lra).
  split; [exact M|]. split; [apply cabs_lt10; apply A; cbn; lra|].
  split; [simpl; tauto|]. split; [simpl; tauto|]. intros H. apply is_derive_Reals in H.
  assert (MS : m_sat wit_p (u_of wit_y PA) (x_of wit_y PA) = false) by (apply rlt_false; cbn [wit_p m_limit]; fold wit_p; lra).
  assert (T : is_derive (fun x => ode1 wit_p wit_e3 (upd wit_y XDC x) (P PA CuR)) (wit_y XDC) 0).
  { apply is_derive_ext with (fun x => -1); [|apply @is_derive_const].
    intros x. unfold ode1. cbv zeta. cbn [d_comp]. unfold du_re. 
    change (m_sat wit_p (u_of (upd wit_y XDC x) PA) (x_of (upd wit_y XDC x) PA)) with (m_sat wit_p (u_of wit_y PA) (x_of wit_y PA)).
    rewrite MS. unfold aw, u_err, eff_iref. cbn. lra. }
  assert (E2 := eq_trans (eq_sym (is_derive_unique _ _ _ H)) (is_derive_unique _ _ _ T)).
  revert E2. unfold jac1. cbv zeta. rewrite MS. cbn. lra.
Qed.
Print Assumptions C52_disconnected_refuted.
