(** C52 for the balanced three-phase and the single-phase constant-Vdc models. *)
From Coquelicot Require Import Coquelicot.
From Coq Require Import List.
From Verif Require Import RBase PhasorModel PVModel ODEModel JacModel JacSpec JacLemmas PhasorProperties PhasorProperties2 PVProperties JacProperties JacProperties2 JacProperties3.
Import RBase.
Import ListNotations.
Open Scope R_scope.

(** * Balanced model *)
Definition regularb (p : prm) (e : env) (y : st) : Prop :=
  regular_phase p (i_of y PA) (x_of y PA) (u_of y PA) (irefb p e y) /\
  regular_outer p (irefb p e y) (Ki_DC p * (e_Vdcref e - y VDC)) (y XDC)
    (- Ki_Q p * (e_Qref e - im (Sb_pcc p e y))) (y XQ) /\
  pv_regular p e (y VDC).
(** Entries whose phase-a contribution is not multiplied by the three phases. *)
Definition one_phase_only (v w : var) : Prop :=
  (v = VDC /\ exists c, w = P PA c) \/ (v = XQ /\ (w = P PA CiR \/ w = P PA CiI)) \/ (v = P PA CuI /\ w = P PA CiR).

Section Balanced.
Variables (p : prm) (e : env).
Hypothesis G : e_grid e = None.
Hypothesis CON : e_conn e = true.
Definition angb (k : phase) : R := cabs (rot k (e_va e)) * sin (e_wgrid e * e_t e + cphase (rot k (e_va e))).
Definition NB_vd (y : st) :=
  2/3 * (angb PA * cos (y WTE) + angb PB * (- (1/2) * cos (y WTE) + w3 * sin (y WTE)) + angb PC * (- (1/2) * cos (y WTE) - w3 * sin (y WTE))).
Definition NB_we (y : st) := Kp_PLL p * NB_vd y + y XPLL + 2 * PI * 60.
Definition NB_Q (y : st) := 3/2 * (im (e_va e) * y (P PA CiR) - re (e_va e) * y (P PA CiI)).
Definition NB_rD (y : st) := y XDC + Kp_DC p * (e_Vdcref e - y VDC).
Definition NB_rQ (y : st) := y XQ - Kp_Q p * (e_Qref e - NB_Q y).
Definition NB_m (y : st) := cabs (Cx (Kp_GCC p * y (P PA CuR) + y (P PA CxR)) (Kp_GCC p * y (P PA CuI) + y (P PA CxI))).
Definition NB_ir (y : st) := cabs (Cx (NB_rD y) (NB_rQ y)).
Definition NB_Pinv (y : st) :=
  3/2 * (y VDC / 2 * (Kp_GCC p * y (P PA CuR) + y (P PA CxR)) * y (P PA CiR) +
         y VDC / 2 * (Kp_GCC p * y (P PA CuI) + y (P PA CxI)) * y (P PA CiI)).
Definition NB (y : st) (v : var) : R :=
  match v with
  | P PA CiR => (1 / Lf p) * (- Rf p * y (P PA CiR) - re (e_va e) + y VDC / 2 * (Kp_GCC p * y (P PA CuR) + y (P PA CxR))) + NB_we y / wbase * y (P PA CiI)
  | P PA CiI => (1 / Lf p) * (- Rf p * y (P PA CiI) - im (e_va e) + y VDC / 2 * (Kp_GCC p * y (P PA CuI) + y (P PA CxI))) - NB_we y / wbase * y (P PA CiR)
  | P PA CxR => aw (rlt (m_limit p) (NB_m y)) (Ki_GCC p * y (P PA CuR)) (y (P PA CxR)) (Ki_GCC p * y (P PA CuR))
  | P PA CxI => aw (rlt (m_limit p) (NB_m y)) (Ki_GCC p * y (P PA CuI)) (y (P PA CxI)) (Ki_GCC p * y (P PA CuI))
  | P PA CuR => aw (rlt (m_limit p) (NB_m y)) (wp p * (- y (P PA CuR) + NB_rD y - y (P PA CiR))) (y (P PA CuR)) (wp p * (- y (P PA CuR) + NB_rD y - y (P PA CiR)))
  | P PA CuI => aw (rlt (m_limit p) (NB_m y)) (wp p * (- y (P PA CuI) + NB_rQ y - y (P PA CiI))) (y (P PA CuI)) (wp p * (- y (P PA CuI) + NB_rQ y - y (P PA CiI)))
  | VDC => (Ppv_of p e (y VDC) - NB_Pinv y) / (y VDC * Cdc p)
  | XDC => aw (rlt (iref_limit p) (NB_ir y)) (Ki_DC p * (e_Vdcref e - y VDC)) (y XDC) (Ki_DC p * (e_Vdcref e - y VDC))
  | XQ => aw (rlt (iref_limit p) (NB_ir y)) (- Ki_Q p * (e_Qref e - NB_Q y)) (y XQ) (- Ki_Q p * (e_Qref e - NB_Q y))
  | XPLL => Ki_PLL p * NB_vd y
  | WTE => NB_we y
  | _ => 0
  end.
Lemma vb_form y k : vb_of p e y k = rot k (e_va e).
Proof. unfold vb_of, v_calc. rewrite G. reflexivity. Qed.
Lemma rot_S k v i : S_ph (rot k v) (rot k i) = S_ph v i.
Proof.
  pose proof w3_sq. destruct k; cbn [rot]; [reflexivity| |]; unfold Ub_calc, Uc_calc; rewrite ?cexp_m, ?cexp_p;
  destruct v as [v1 v2], i as [i1 i2]; unfold S_ph, cmul, conj, cscale; apply cx_eq; cbn [re im]; ring_simplify; replace (w3 ^ 2) with (3/4) by (rewrite <- H; ring); field.
Qed.
Lemma rot_lin k (a b : R) z w : rot k (cadd (cscale a z) (cscale b w)) = cadd (cscale a (rot k z)) (cscale b (rot k w)).
Proof. destruct k; cbn [rot]; unfold Ub_calc, Uc_calc; [reflexivity| |]; apply cx_eq; unfold cmul, cadd, cscale; cbn [re im]; ring. Qed.
Lemma Sb_form y : im (Sb_pcc p e y) = NB_Q y.
Proof.
  unfold Sb_pcc, sum3. rewrite !vb_form, !rot_S. unfold S_ph, cscale, cmul, conj, cadd, i_of, NB_Q. cbn [re im]. field.
Qed.
Lemma Sbi_form y : re (Sb_inv p y) = NB_Pinv y.
Proof.
  unfold Sb_inv, sum3.
  assert (V : forall k, vt_calc p (y VDC) (rot k (u_of y PA)) (rot k (x_of y PA)) = rot k (vt_calc p (y VDC) (u_of y PA) (x_of y PA))).
  { intros k. unfold vt_calc, m_calc.
    replace (cscale (y VDC / 2) (cadd (cscale (Kp_GCC p) (u_of y PA)) (x_of y PA))) with (cadd (cscale (y VDC / 2 * Kp_GCC p) (u_of y PA)) (cscale (y VDC / 2) (x_of y PA)))
      by (apply cx_eq; unfold cadd, cscale; cbn [re im]; ring).
    rewrite rot_lin. apply cx_eq; unfold cadd, cscale; cbn [re im]; ring. }
  rewrite !V, !rot_S. unfold S_ph, vt_calc, m_calc, cscale, cmul, conj, cadd, i_of, u_of, x_of, NB_Pinv. cbn [re im]. field.
Qed.
Lemma irefb_form y : irefb p e y = Cx (NB_rD y) (NB_rQ y).
Proof. unfold irefb, ia_ref_calc. rewrite Sb_form. reflexivity. Qed.
Lemma itestb_form y : irefb_test p e y = Cx (NB_rD y) (NB_rQ y).
Proof. rewrite <- irefb_form. unfold irefb_test, irefb, eff_Vref, eff_Qref. rewrite CON. reflexivity. Qed.
Lemma vdb_form y : vdb p e y = NB_vd y.
Proof.
  unfold vdb. rewrite !vb_form. unfold vd_three_phase, phasor_to_time.
  assert (T : forall k, phasor_to_time_1phase (rot k (e_va e)) (e_wgrid e) (e_t e) = angb k).
  { intros k. unfold angb. rewrite (polar_rect (rot k (e_va e))) at 1. apply time_rect. }
  rewrite !T. unfold abc_to_dq0. cbn [fst]. unfold NB_vd.
  rewrite cexp_p, cexp_m. unfold cexp. rewrite cos_neg, sin_neg. unfold cscale, cmul, cadd, RtoCx. cbn [re im]. ring.
Qed.
Lemma odeb_form y v : odeb p e y v = NB y v.
Proof.
  assert (VC : v_calc p e PA (i_of y PA) = e_va e) by (unfold v_calc; rewrite G; reflexivity).
  unfold odeb. cbv zeta. unfold we_calc. rewrite !vdb_form, !itestb_form, VC.
  unfold eff_iref, eff_Vref, eff_Qref, eff_Ppv. rewrite CON, irefb_form.
  destruct v as [k c| | | | | | |]; try reflexivity.
  - rewrite Sbi_form. reflexivity.
  - unfold dxDC. rewrite Sb_form. reflexivity.
  - unfold dxQ. rewrite Sb_form. reflexivity.
Qed.
End Balanced.

Lemma aw_scale k s d x a : aw s d x (k * a) = k * aw s d x a.
Proof. unfold aw. destruct s; auto. destruct (same_sign d x); auto. ring. Qed.
Lemma aw_plus s d x a b : aw s d x (a + b) = aw s d x a + aw s d x b.
Proof. unfold aw. destruct s; auto. destruct (same_sign d x); auto. ring. Qed.

Lemma dvdc_split3 I V B A1 A2 i1 i2 C : V <> 0 -> C <> 0 ->
  (I * (V * B) / Sbase - 3/2 * (V / 2 * A1 * i1 + V / 2 * A2 * i2)) / (V * C) = I * B / Sbase / C - 3/4 * (A1 * i1 + A2 * i2) / C.
Proof. intros. unfold Sbase. field. auto. Qed.

Section Balanced_proof.
Variables (p : prm) (e : env) (y : st).
Hypothesis EV : external_voltage e.
Hypothesis SP : sound_parameters p.
Hypothesis REG : regularb p e y.
Let G : e_grid e = None. Proof. apply EV. Qed.
Let CON : e_conn e = true. Proof. apply EV. Qed.
Let HL : Lf p <> 0. Proof. apply SP. Qed.
Let HC : Cdc p <> 0. Proof. apply SP. Qed.
Let HV : y VDC <> 0. Proof. destruct REG as (_ & _ & _ & H & _). intros E. rewrite E in H. lra. Qed.
Let W : wbase <> 0. Proof. unfold wbase. pose proof PI_RGT_0. lra. Qed.
Ltac ode_start w := apply is_derive_Reals; eapply is_derive_ext; [intros; symmetry; apply (odeb_form p e G CON (upd y w _))|];
   unfold NB, NB_we, NB_vd, NB_m, NB_ir, NB_rD, NB_rQ, NB_Q, NB_Pinv; upd_red.
Ltac fin := unfold jacb_at; cbv zeta; rewrite ?(itestb_form p e G CON), ?(Sb_form p e G); unfold eff_iref, eff_Qref, eff_Vref;
  rewrite ?(vdb_form p e G y), ?(vb_form p e G y), ?CON, ?(irefb_form p e G), ?cos_mPI2; unfold NB_vd, angb; cbn [rot];
  rewrite <- ?aw_scale, <- ?aw_plus;
  first [ reflexivity | field; auto
        | apply aw_ext; first [reflexivity | ring | field; auto]
        | etransitivity; [apply aw_ext with (b := 0); first [reflexivity|ring]|apply aw_0] ].
Ltac reg := destruct REG as ((R1 & R2 & R3 & R4) & (R5 & R6) & _); rewrite (irefb_form p e G) in *; rewrite (Sb_form p e G) in R6; assumption.
Ltac entry w := unfold partial_derivative; ode_start w;
  first [ aw_tac; [reg | fin ]
        | evar_last; [auto_derive; [repeat split; auto | reflexivity] | fin] ].
Lemma C52_balanced_sec v w : In v statesb -> In w statesb -> ~ one_phase_only v w -> ~ (v = P PA CuI /\ w = P PA CiI) ->
   partial_derivative (fun z => odeb p e z v) w y (jacb_at w3 p e y v w).
Proof.
  intros Hv Hw Hx Hx2. unfold statesb, states1, abc_states in *. simpl in Hv, Hw.
  repeat (destruct Hv as [<-|Hv]); try contradiction; repeat (destruct Hw as [<-|Hw]); try contradiction.
  all: try (exfalso; apply Hx; unfold one_phase_only; eauto 6; fail).
  all: match goal with |- partial_derivative _ ?w _ _ => try solve [entry w] end.
  all: try (exfalso; apply Hx2; split; reflexivity).
  - pose proof REG as (_ & _ & PR). unfold partial_derivative. apply is_derive_Reals.
    apply (is_derive_ext_loc (fun x => Ipv_val (e_mod e) (x * Vdcbase p) * Vdcbase p / Sbase / Cdc p
      - 3/4 * ((Kp_GCC p * y (P PA CuR) + y (P PA CxR)) * y (P PA CiR) + (Kp_GCC p * y (P PA CuI) + y (P PA CxI)) * y (P PA CiI)) / Cdc p)).
    + generalize (filter_and _ _ (Ppv_local p e (y VDC) PR) (locally_ne (y VDC) HV)). apply filter_imp.
      intros x [E NX]. symmetry. rewrite (odeb_form p e G CON). unfold NB, NB_Pinv. upd_red. rewrite E.
      apply dvdc_split3; auto.
    + unfold Ipv_val. destruct PR as (_ & _ & HN & HT).
      assert (D : q_charge <> 0 /\ k_boltz <> 0 /\ A_ideal <> 0 /\ Sbase <> 0) by (unfold q_charge, k_boltz, A_ideal, Sbase; lra). destruct D as (D1 & D2 & D3 & D4).
      evar_last; [auto_derive; [repeat split; auto|reflexivity]|]. unfold jacb_at. cbv zeta.
      replace (q_charge * y VDC * Vdcbase p / (k_boltz * A_ideal * Ns (e_mod e) * Tactual (e_mod e))) with
              (q_charge * (y VDC * Vdcbase p) / (k_boltz * Tactual (e_mod e) * A_ideal * Ns (e_mod e))) by (field; auto).
      unfold Rdiv at 2. set (EX := exp _). field; repeat split; auto.
Qed.
Lemma C52_balanced_sec3 v w : In v statesb -> In w statesb -> one_phase_only v w ->
   partial_derivative (fun z => odeb p e z v) w y (3 * jacb_at w3 p e y v w).
Proof.
  intros Hv Hw Hx. clear Hv Hw. unfold one_phase_only in Hx.
  destruct Hx as [[-> [c ->]]|[[-> [->| ->]]|[-> ->]]]; try destruct c.
  all: match goal with |- partial_derivative _ ?w _ _ => try solve [entry w] end.
Qed.
Lemma C52_balanced_uI : partial_derivative (fun z => odeb p e z (P PA CuI)) (P PA CiI) y
    (3 * jacb_at w3 p e y (P PA CuI) (P PA CiI) + (-2) * jacb_at w3 p e y (P PA CuI) (P PA CuI)).
Proof. entry (P PA CiI). Qed.
End Balanced_proof.

(** ** Decimal literal for sqrt(3)/2 *)
Lemma cabs_rot k v : cabs (rot k v) = cabs v.
Proof. destruct k; cbn [rot]; auto; unfold Ub_calc, Uc_calc; rewrite cabs_mul, cabs_cexp; ring. Qed.
Definition jacb_scale (p : prm) (e : env) (y : st) : R :=
  (Rabs (Kp_PLL p) * (1 + cabs (i_of y PA) / wbase) + Rabs (Ki_PLL p)) * (2 * cabs (e_va e)).
Lemma pll_bound K r c2 c3 c : 0 <= r -> Rabs c2 <= 1 -> Rabs c3 <= 1 -> Rabs c <= 1 ->
  Rabs (2/3 * K * (r * c2 * c - r * c3 * c)) <= Rabs K * (2 * r).
Proof.
  intros Hr A B C.
  replace (2/3 * K * (r * c2 * c - r * c3 * c)) with (K * (2/3 * (c * (r * c2 - r * c3)))) by ring.
  rewrite !Rabs_mult. apply Rmult_le_compat_l; [apply Rabs_pos|]. rewrite (Rabs_pos_eq (2/3)) by lra.
  assert (X : Rabs (r * c2 - r * c3) <= 2 * r).
  { apply Rabs_le_between in A. apply Rabs_le_between in B. apply Rabs_le_between. nra. }
  pose proof (Rabs_pos c). pose proof (Rabs_pos (r * c2 - r * c3)). nra.
Qed.
Section LiteralsB.
Variables (p : prm) (e : env) (y : st).
Hypothesis G : e_grid e = None.
Let S_ := jacb_scale p e y.
Let r := cabs (e_va e).
Lemma SB_parts : Rabs (Kp_PLL p) * (2 * r) <= S_ /\ Rabs (Ki_PLL p) * (2 * r) <= S_ /\
  (forall z, Rabs z <= cabs (i_of y PA) -> Rabs (Kp_PLL p * z / wbase) * (2 * r) <= S_) /\ 0 <= S_.
Proof.
  pose proof wbase_pos as HW. pose proof (cabs_nonneg (e_va e)) as Hr. pose proof (cabs_nonneg (i_of y PA)) as HI.
  assert (HQ : 0 <= cabs (i_of y PA) / wbase) by (apply Rmult_le_pos; [auto|left; apply Rinv_0_lt_compat; auto]).
  pose proof (Rabs_pos (Kp_PLL p)) as H1. pose proof (Rabs_pos (Ki_PLL p)) as H2.
  unfold S_, jacb_scale, r. set (q := cabs (i_of y PA) / wbase) in *.
  pose proof (Rmult_le_pos _ _ H1 Hr). pose proof (Rmult_le_pos _ _ H2 Hr). pose proof (Rmult_le_pos _ _ H HQ).
  split; [nra|]. split; [nra|]. split; [|nra].
  intros z Hz. assert (Rabs (Kp_PLL p * z / wbase) <= Rabs (Kp_PLL p) * q).
  { unfold Rdiv. rewrite !Rabs_mult. rewrite (Rabs_pos_eq (/ wbase)) by (left; apply Rinv_0_lt_compat; auto).
    rewrite Rmult_assoc. apply Rmult_le_compat_l; auto. apply Rmult_le_compat_r; [left; apply Rinv_0_lt_compat; auto|auto]. }
  nra.
Qed.
Ltac same := rewrite Rminus_diag_eq by reflexivity; rewrite Rabs_R0; apply Rmult_le_pos; [lra|apply SB_parts].
Lemma jacb_literals v w : Rabs (jacb p e y v w - jacb_at w3 p e y v w) <= / 1000000000 * S_.
Proof.
  unfold jacb.
  destruct v as [kv cv| | | | | | |]; try (destruct kv; destruct cv); destruct w as [kw cw| | | | | | |]; try (destruct kw; destruct cw); try (unfold jacb_at; same).
  all: unfold jacb_at; cbv zeta; rewrite ?(vb_form p e G y), !cabs_rot; fold r.
  all: set (tb := cos (e_wgrid e * e_t e + cphase (rot PB (e_va e)) - PI / 2)); set (tc := cos (e_wgrid e * e_t e + cphase (rot PC (e_va e)) - PI / 2)).
  all: assert (LIT : forall K, Rabs K * (2 * r) <= S_ -> Rabs ((k10_code - w3) * (2/3 * K * (r * tb * cos (y WTE) - r * tc * cos (y WTE)))) <= / 1000000000 * S_)
    by (intros K HK; rewrite Rabs_mult; apply Rmult_le_compat; try apply Rabs_pos; [apply k10_close|];
        eapply Rle_trans; [apply pll_bound; [apply cabs_nonneg|apply trig1|apply trig1|apply trig1]|exact HK]).
  all: match goal with |- Rabs ?d <= _ => match d with
       | context [- (2/3) * ?K * _] => replace d with ((k10_code - w3) * (2/3 * (- K) * (r * tb * cos (y WTE) - r * tc * cos (y WTE)))) by ring; apply LIT; rewrite Rabs_Ropp
       | context [(2/3) * ?K * _] => replace d with ((k10_code - w3) * (2/3 * K * (r * tb * cos (y WTE) - r * tc * cos (y WTE)))) by ring; apply LIT end end.
  all: try apply SB_parts; first [apply (re_le_cabs (i_of y PA)) | apply (im_le_cabs (i_of y PA))].
Qed.
End LiteralsB.

(** Balanced model: with exact sqrt(3)/2 in place of the literal, every entry is the
    partial derivative except those listed in [one_phase_only], which are one third of
    it, and (u_imag, i_imag), whose reactive-power part is one third of the true one. *)
Theorem C52_balanced_partial :
  forall p e y, external_voltage e -> sound_parameters p -> regularb p e y ->
  (forall v w, In v statesb -> In w statesb -> ~ one_phase_only v w -> ~ (v = P PA CuI /\ w = P PA CiI) ->
   exists d, partial_derivative (fun z => odeb p e z v) w y d /\
             Rabs (jacb p e y v w - d) <= / 1000000000 * jacb_scale p e y) /\
  (forall v w, In v statesb -> In w statesb -> ~ one_phase_only v w -> ~ (v = P PA CuI /\ w = P PA CiI) ->
   partial_derivative (fun z => odeb p e z v) w y (jacb_at (sqrt 3 / 2) p e y v w)) /\
  (forall v w, In v statesb -> In w statesb -> one_phase_only v w ->
   partial_derivative (fun z => odeb p e z v) w y (3 * jacb p e y v w)) /\
  partial_derivative (fun z => odeb p e z (P PA CuI)) (P PA CiI) y
    (3 * jacb p e y (P PA CuI) (P PA CiI) - 2 * jacb p e y (P PA CuI) (P PA CuI)).
Proof.
  intros p e y EV SP REG. split; [|split; [|split]].
  - intros v w Hv Hw N1 N2. exists (jacb_at w3 p e y v w). split; [apply C52_balanced_sec; auto|]. apply jacb_literals. apply EV.
  - intros v w Hv Hw N1 N2. apply (C52_balanced_sec p e y EV SP REG v w Hv Hw N1 N2).
  - intros v w Hv Hw O. replace (jacb p e y v w) with (jacb_at w3 p e y v w).
    + apply C52_balanced_sec3; auto.
    + destruct O as [[-> [c ->]]|[[-> [->| ->]]|[-> ->]]]; try destruct c; reflexivity.
  - pose proof (C52_balanced_uI p e y EV REG) as H.
    change (jacb p e y (P PA CuI) (P PA CiI)) with (jacb_at w3 p e y (P PA CuI) (P PA CiI)).
    change (jacb p e y (P PA CuI) (P PA CuI)) with (jacb_at w3 p e y (P PA CuI) (P PA CuI)).
    match goal with |- partial_derivative _ _ _ ?b => match type of H with partial_derivative _ _ _ ?a => replace b with a by ring; exact H end end.
Qed.
Print Assumptions C52_balanced_partial.
Lemma wit_regularb : regularb wit_p wit_e wit_y.
Proof.
  assert (A : forall r, Rabs r <= 3 <-> -3 <= r <= 3) by (intros; apply Rabs_le_between).
  unfold regularb. rewrite (irefb_form wit_p wit_e eq_refl). split; [|split; [|exact wit_pv]].
  - split; [|split; [|split]]; apply off_below; apply cabs_lt10; apply A; cbn; lra.
  - split; apply off_below; apply cabs_lt10; apply A; unfold NB_rD, NB_rQ, NB_Q; cbn; lra.
Qed.
Example C52_balanced_hypotheses_met : exists p e y, external_voltage e /\ sound_parameters p /\ regularb p e y /\ y (P PA CiR) = 1.
Proof. exists wit_p, wit_e, wit_y. split; [split; reflexivity|]. split; [split; cbn; lra|]. split; [apply wit_regularb|reflexivity]. Qed.
(** REFUTED for the full matrix: the DC-link row is one third of the derivative. *)
Theorem C52_balanced_refuted :
  exists p e y v w, external_voltage e /\ sound_parameters p /\ regularb p e y /\ In v statesb /\ In w statesb /\
    partial_derivative (fun z => odeb p e z v) w y (- 3 / 4) /\ jacb p e y v w = - 1 / 4.
Proof.
  exists wit_p, wit_e, wit_y, VDC, (P PA CxR). split; [split; reflexivity|]. split; [split; cbn; lra|]. split; [apply wit_regularb|].
  split; [simpl; tauto|]. split; [simpl; tauto|].
  assert (J : jacb wit_p wit_e wit_y VDC (P PA CxR) = - 1 / 4) by (cbn; field).
  split; [|exact J].
  assert (T := proj1 (proj2 (proj2 (C52_balanced_partial wit_p wit_e wit_y ltac:(split; reflexivity) ltac:(split; cbn; lra) wit_regularb))) VDC (P PA CxR) ltac:(simpl; tauto) ltac:(simpl; tauto) ltac:(left; eauto)).
  rewrite J in T. replace (- 3 / 4) with (3 * (-1 / 4)) by field. exact T.
Qed.
Print Assumptions C52_balanced_refuted.
