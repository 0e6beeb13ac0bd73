(** C52 for the three-phase model. *)
From Coquelicot Require Import Coquelicot.
From Coq Require Import List.
From Verif Require Import RBase PhasorModel PVModel ODEModel JacModel JacSpec JacLemmas PhasorProperties PhasorProperties2 PVProperties JacProperties.
Import RBase.
Import ListNotations.
Open Scope R_scope.

(** State is away from the switching surfaces of the three-phase model. *)
Definition regular3 (p : prm) (e : env) (y : st) : Prop :=
  (forall k, regular_phase p (i_of y k) (x_of y k) (u_of y k) (rot k (iref3a p e y))) /\
  regular_outer p (iref3a p e y) (Ki_DC p * (e_Vdcref e - y VDC)) (y XDC)
    (- Ki_Q p * (e_Qref e - im (S3_pcc p e y))) (y XQ) /\
  pv_regular p e (y VDC).

Definition volt (e : env) (k : phase) : cx := match k with PA => e_va e | PB => e_vb e | PC => e_vc e end.
Section Three.
Variables (p : prm) (e : env).
Hypothesis G : e_grid e = None.
Hypothesis CON : e_conn e = true.
Definition ang (k : phase) : R := cabs (volt e k) * sin (e_wgrid e * e_t e + cphase (volt e k)).
Definition N3_vd (y : st) :=
  2/3 * (ang PA * cos (y WTE) + ang PB * (- (1/2) * cos (y WTE) + w3 * sin (y WTE)) + ang PC * (- (1/2) * cos (y WTE) - w3 * sin (y WTE))).
Definition N3_we (y : st) := Kp_PLL p * N3_vd y + y XPLL + 2 * PI * 60.
Definition N3_Qk (y : st) k := 1/2 * (im (volt e k) * y (P k CiR) - re (volt e k) * y (P k CiI)).
Definition N3_Q (y : st) := N3_Qk y PA + N3_Qk y PB + N3_Qk y PC.
Definition N3_rD (y : st) := y XDC + Kp_DC p * (e_Vdcref e - y VDC).
Definition N3_rQ (y : st) := y XQ - Kp_Q p * (e_Qref e - N3_Q y).
Definition N3_rre (y : st) k := match k with PA => N3_rD y | PB => - (1/2) * N3_rD y + w3 * N3_rQ y | PC => - (1/2) * N3_rD y - w3 * N3_rQ y end.
Definition N3_rim (y : st) k := match k with PA => N3_rQ y | PB => - w3 * N3_rD y - 1/2 * N3_rQ y | PC => w3 * N3_rD y - 1/2 * N3_rQ y end.
Definition N3_m (y : st) k := cabs (Cx (Kp_GCC p * y (P k CuR) + y (P k CxR)) (Kp_GCC p * y (P k CuI) + y (P k CxI))).
Definition N3_ir (y : st) := cabs (Cx (N3_rD y) (N3_rQ y)).
Definition N3_Pk (y : st) k :=
  1/2 * (y VDC / 2 * (Kp_GCC p * y (P k CuR) + y (P k CxR)) * y (P k CiR) +
         y VDC / 2 * (Kp_GCC p * y (P k CuI) + y (P k CxI)) * y (P k CiI)).
Definition N3 (y : st) (v : var) : R :=
  match v with
  | P k CiR => (1 / Lf p) * (- Rf p * y (P k CiR) - re (volt e k) + y VDC / 2 * (Kp_GCC p * y (P k CuR) + y (P k CxR))) + N3_we y / wbase * y (P k CiI)
  | P k CiI => (1 / Lf p) * (- Rf p * y (P k CiI) - im (volt e k) + y VDC / 2 * (Kp_GCC p * y (P k CuI) + y (P k CxI))) - N3_we y / wbase * y (P k CiR)
  | P k CxR => aw (rlt (m_limit p) (N3_m y k)) (Ki_GCC p * y (P k CuR)) (y (P k CxR)) (Ki_GCC p * y (P k CuR))
  | P k CxI => aw (rlt (m_limit p) (N3_m y k)) (Ki_GCC p * y (P k CuI)) (y (P k CxI)) (Ki_GCC p * y (P k CuI))
  | P k CuR => aw (rlt (m_limit p) (N3_m y k)) (wp p * (- y (P k CuR) + N3_rre y k - y (P k CiR))) (y (P k CuR)) (wp p * (- y (P k CuR) + N3_rre y k - y (P k CiR)))
  | P k CuI => aw (rlt (m_limit p) (N3_m y k)) (wp p * (- y (P k CuI) + N3_rim y k - y (P k CiI))) (y (P k CuI)) (wp p * (- y (P k CuI) + N3_rim y k - y (P k CiI)))
  | VDC => (Ppv_of p e (y VDC) - (N3_Pk y PA + N3_Pk y PB + N3_Pk y PC)) / (y VDC * Cdc p)
  | XDC => aw (rlt (iref_limit p) (N3_ir y)) (Ki_DC p * (e_Vdcref e - y VDC)) (y XDC) (Ki_DC p * (e_Vdcref e - y VDC))
  | XQ => aw (rlt (iref_limit p) (N3_ir y)) (- Ki_Q p * (e_Qref e - N3_Q y)) (y XQ) (- Ki_Q p * (e_Qref e - N3_Q y))
  | XPLL => Ki_PLL p * N3_vd y
  | WTE => N3_we y
  | VRF => (1 / Tfilter p) * (Urms_calc (e_va e) (e_vb e) (e_vc e) - y VRF)
  | XP => 0
  end.
Lemma v3_form y k : v3_of p e y k = volt e k.
Proof. unfold v3_of, v_calc, volt. rewrite G. destruct k; reflexivity. Qed.
Lemma S3_form y : im (S3_pcc p e y) = N3_Q y.
Proof.
  unfold S3_pcc, sum3. rewrite !v3_form. unfold S_ph, cscale, cmul, conj, cadd, i_of, N3_Q, N3_Qk. cbn [re im]. ring.
Qed.
Lemma iref3_form y : iref3a p e y = Cx (N3_rD y) (N3_rQ y).
Proof. unfold iref3a, ia_ref_calc. rewrite S3_form. reflexivity. Qed.
Lemma rot3_form y k : rot k (iref3a p e y) = Cx (N3_rre y k) (N3_rim y k).
Proof.
  rewrite iref3_form. destruct k; cbn [rot N3_rre N3_rim]; [reflexivity| |]; unfold Ub_calc, Uc_calc;
    rewrite ?cexp_m, ?cexp_p; apply cx_eq; unfold cmul; cbn [re im]; ring.
Qed.
Lemma itest3_form y : iref3_test p e y = Cx (N3_rD y) (N3_rQ y).
Proof. rewrite <- iref3_form. unfold iref3_test, iref3a, eff_Vref, eff_Qref. rewrite CON. reflexivity. Qed.
Lemma vd3_form y : vd3 p e y = N3_vd y.
Proof.
  unfold vd3. rewrite !v3_form. unfold vd_three_phase, phasor_to_time. 
  assert (T : forall k, phasor_to_time_1phase (volt e k) (e_wgrid e) (e_t e) = ang k).
  { intros k. unfold ang. rewrite (polar_rect (volt e k)) at 1. apply time_rect. }
  rewrite !T. unfold abc_to_dq0. cbn [fst]. unfold N3_vd.
  rewrite cexp_p, cexp_m. unfold cexp. rewrite cos_neg, sin_neg. unfold cscale, cmul, cadd, RtoCx. cbn [re im]. ring.
Qed.
Lemma ode3_form y v : ode3 p e y v = N3 y v.
Proof.
  unfold ode3. cbv zeta. unfold we_calc. rewrite !vd3_form, !itest3_form.
  unfold eff_iref, eff_Vref, eff_Qref, eff_Ppv. rewrite CON.
  destruct v as [k c| | | | | | |]; try reflexivity.
  - rewrite rot3_form, v3_form. destruct c; reflexivity.
  - cbn [N3]. unfold dVdc. f_equal. f_equal. unfold S3_inv, sum3, vt3_of, S_ph, vt_calc, m_calc, cscale, cmul, conj, cadd, u_of, x_of, i_of, N3_Pk. cbn [re im]. ring.
  - unfold dxDC. rewrite S3_form. reflexivity.
  - unfold dxQ. rewrite S3_form. reflexivity.
  - rewrite !v3_form. reflexivity.
Qed.
End Three.

Lemma cos_mPI2 x : cos (x - PI / 2) = sin x.
Proof. rewrite cos_minus, cos_PI2, sin_PI2. ring. Qed.
Lemma dvdc_split3 I V B A1 A2 i1 i2 B1 B2 j1 j2 D1 D2 k1 k2 C : V <> 0 -> C <> 0 ->
  (I * (V * B) / Sbase - (1/2 * (V / 2 * A1 * i1 + V / 2 * A2 * i2) + 1/2 * (V / 2 * B1 * j1 + V / 2 * B2 * j2) + 1/2 * (V / 2 * D1 * k1 + V / 2 * D2 * k2))) / (V * C)
  = I * B / Sbase / C - 1/4 * (A1 * i1 + A2 * i2 + B1 * j1 + B2 * j2 + D1 * k1 + D2 * k2) / C.
Proof. intros. unfold Sbase. field. auto. Qed.

Section Three_proof.
Variables (p : prm) (e : env) (y : st).
Hypothesis EV : external_voltage e.
Hypothesis SP : sound_parameters p.
Hypothesis HT : Tfilter p <> 0.
Hypothesis REG : regular3 p e y.
Let G : e_grid e = None. Proof. apply EV. Qed.
Let CON : e_conn e = true. Proof. apply EV. Qed.
Let HL : Lf p <> 0. Proof. apply SP. Qed.
Let HC : Cdc p <> 0. Proof. apply SP. Qed.
Let HV : y VDC <> 0. Proof. destruct REG as (_ & _ & _ & H & _). intros E. rewrite E in H. lra. Qed.
Let W : wbase <> 0. Proof. unfold wbase. pose proof PI_RGT_0. lra. Qed.
Ltac ode_start w := apply is_derive_Reals; eapply is_derive_ext; [intros; symmetry; apply (ode3_form p e G CON (upd y w _))|];
   unfold N3, N3_we, N3_vd, N3_m, N3_ir, N3_rre, N3_rim, N3_rD, N3_rQ, N3_Q, N3_Qk, N3_Pk; upd_red.
Ltac fin := unfold jac3_at; cbv zeta; rewrite ?(itest3_form p e G CON), ?(S3_form p e G); unfold eff_iref, eff_Qref, eff_Vref;
  rewrite ?(vd3_form p e G y), ?(v3_form p e G y), ?CON, ?(rot3_form p e G), ?cos_mPI2; unfold N3_vd, ang; cbn [volt];
  first [ reflexivity | field; auto
        | apply aw_ext; first [reflexivity | ring | field; auto]
        | etransitivity; [apply aw_ext with (b := 0); first [reflexivity|ring]|apply aw_0] ].
Ltac reg := first [ let k := match goal with |- off_switch _ _ _ (y (P ?k _)) => k end in
      destruct REG as (R & _); specialize (R k); rewrite (rot3_form p e G) in R; destruct R as (R1 & R2 & R3 & R4); assumption
    | destruct REG as (_ & (R5 & R6) & _); rewrite (iref3_form p e G) in R5, R6; rewrite (S3_form p e G) in R6; assumption ].
Ltac entry w := unfold partial_derivative; ode_start w;
  first [ aw_tac; [reg | fin ]
        | evar_last; [auto_derive; [repeat split; auto | reflexivity] | fin] ].
Lemma C52_three_phase_sec :
  forall v w, In v states3 -> In w states3 -> ~ (v = VRF /\ w = VRF) ->
   partial_derivative (fun z => ode3 p e z v) w y (jac3_at w3 w3 p e y v w).
Proof.
  intros v w Hv Hw Hx. unfold states3, abc_states in *. simpl in Hv, Hw.
  repeat (destruct Hv as [<-|Hv]); try contradiction; repeat (destruct Hw as [<-|Hw]); try contradiction.
  all: match goal with |- partial_derivative _ ?w _ _ => try solve [entry w] end.
  - pose proof REG as (_ & _ & PR). unfold partial_derivative. apply is_derive_Reals.
    apply (is_derive_ext_loc (fun x => Ipv_val (e_mod e) (x * Vdcbase p) * Vdcbase p / Sbase / Cdc p
      - 1/4 * ((Kp_GCC p * y (P PA CuR) + y (P PA CxR)) * y (P PA CiR) + (Kp_GCC p * y (P PA CuI) + y (P PA CxI)) * y (P PA CiI)
             + (Kp_GCC p * y (P PB CuR) + y (P PB CxR)) * y (P PB CiR) + (Kp_GCC p * y (P PB CuI) + y (P PB CxI)) * y (P PB CiI)
             + (Kp_GCC p * y (P PC CuR) + y (P PC CxR)) * y (P PC CiR) + (Kp_GCC p * y (P PC CuI) + y (P PC CxI)) * y (P PC CiI)) / Cdc p)).
    + generalize (filter_and _ _ (Ppv_local p e (y VDC) PR) (locally_ne (y VDC) HV)). apply filter_imp.
      intros x [E NX]. symmetry. rewrite (ode3_form p e G CON). unfold N3, N3_Pk. upd_red. rewrite E.
      apply dvdc_split3; auto.
    + unfold Ipv_val. destruct PR as (_ & _ & HN & HTa).
      assert (D : q_charge <> 0 /\ k_boltz <> 0 /\ A_ideal <> 0 /\ Sbase <> 0) by (unfold q_charge, k_boltz, A_ideal, Sbase; lra). destruct D as (D1 & D2 & D3 & D4).
      evar_last; [auto_derive; [repeat split; auto|reflexivity]|]. unfold jac3_at. cbv zeta.
      replace (q_charge * y VDC * Vdcbase p / (k_boltz * A_ideal * Ns (e_mod e) * Tactual (e_mod e))) with
              (q_charge * (y VDC * Vdcbase p) / (k_boltz * Tactual (e_mod e) * A_ideal * Ns (e_mod e))) by (field; auto).
      unfold Rdiv at 2. set (EX := exp _). field; repeat split; auto.
  - exfalso; auto.
Qed.
Lemma C52_three_phase_vrms :
  partial_derivative (fun z => ode3 p e z VRF) VRF y (- (1 / Tfilter p)).
Proof.
  unfold partial_derivative. ode_start VRF. evar_last; [auto_derive; [auto|reflexivity]|]. field; auto.
Qed.
End Three_proof.
