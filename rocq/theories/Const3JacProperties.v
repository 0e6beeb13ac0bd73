(** C52 for the three-phase constant-Vdc model. *)
From Coquelicot Require Import Coquelicot.
From Coq Require Import List.
From Verif Require Import RBase PhasorModel PVModel ODEModel JacModel JacSpec JacLemmas PhasorProperties PhasorProperties2 PVProperties JacProperties JacProperties2 JacProperties3 JacProperties5 Const3Model Const3Jac.
Import RBase.
Import ListNotations.
Open Scope R_scope.

Definition regular3c (p : prm) (e : env) (y : st) : Prop :=
  (forall k, regular_phase p (i_of y k) (x_of y k) (u_of y k) (rot k (iref3c p e y))) /\
  regular_outer p (iref3c p e y) (Ki_P p * (Ppv_of p e (e_Vconst e) - re (S3c_inv p e y))) (y XP)
    (- Ki_Q p * (e_Qref e - im (S3_pcc p e y))) (y XQ).
(** Rows through which the inverter power enters, with the columns of the current loops. *)
Definition power_entry3 (v w : var) : Prop :=
  (v = XP \/ v = P PA CuR \/ v = P PB CuR \/ v = P PB CuI \/ v = P PC CuR \/ v = P PC CuI) /\ exists k c, w = P k c.
(** Rows of the reactive-power path of phase a, with the currents of phases b and c. *)
Definition cross_entry3 (v w : var) : Prop :=
  (v = XQ \/ v = P PA CuI) /\ (w = P PB CiR \/ w = P PB CiI \/ w = P PC CiR \/ w = P PC CiI).
(** Rows whose derivative by the PLL angle is written for a single phase. *)
Definition angle_entry3 (v w : var) : Prop :=
  w = WTE /\ (v = P PA CiR \/ v = P PA CiI \/ v = XPLL \/ v = WTE).

Section Const3.
Variables (p : prm) (e : env).
Hypothesis G : e_grid e = None.
Hypothesis CON : e_conn e = true.
Let Vc := e_Vconst e.
Definition M3_Pk (y : st) k :=
  1/2 * (Vc / 2 * (Kp_GCC p * y (P k CuR) + y (P k CxR)) * y (P k CiR) +
         Vc / 2 * (Kp_GCC p * y (P k CuI) + y (P k CxI)) * y (P k CiI)).
Definition M3_err (y : st) := Ppv_of p e Vc - (M3_Pk y PA + M3_Pk y PB + M3_Pk y PC).
Definition M3_rD (y : st) := y XP + Kp_P p * M3_err y.
Definition M3_rQ (y : st) := y XQ - Kp_Q p * (e_Qref e - N3_Q e y).
Definition M3_rre (y : st) k := match k with PA => M3_rD y | PB => - (1/2) * M3_rD y + w3 * M3_rQ y | PC => - (1/2) * M3_rD y - w3 * M3_rQ y end.
Definition M3_rim (y : st) k := match k with PA => M3_rQ y | PB => - w3 * M3_rD y - 1/2 * M3_rQ y | PC => w3 * M3_rD y - 1/2 * M3_rQ y end.
Definition M3_ir (y : st) := cabs (Cx (M3_rD y) (M3_rQ y)).
Definition M3 (y : st) (v : var) : R :=
  match v with
  | P k CiR => (1 / Lf p) * (- Rf p * y (P k CiR) - re (volt e k) + Vc / 2 * (Kp_GCC p * y (P k CuR) + y (P k CxR))) + N3_we p e y / wbase * y (P k CiI)
  | P k CiI => (1 / Lf p) * (- Rf p * y (P k CiI) - im (volt e k) + Vc / 2 * (Kp_GCC p * y (P k CuI) + y (P k CxI))) - N3_we p e y / wbase * y (P k CiR)
  | P k CxR => aw (rlt (m_limit p) (N3_m p y k)) (Ki_GCC p * y (P k CuR)) (y (P k CxR)) (Ki_GCC p * y (P k CuR))
  | P k CxI => aw (rlt (m_limit p) (N3_m p y k)) (Ki_GCC p * y (P k CuI)) (y (P k CxI)) (Ki_GCC p * y (P k CuI))
  | P k CuR => aw (rlt (m_limit p) (N3_m p y k)) (wp p * (- y (P k CuR) + M3_rre y k - y (P k CiR))) (y (P k CuR)) (wp p * (- y (P k CuR) + M3_rre y k - y (P k CiR)))
  | P k CuI => aw (rlt (m_limit p) (N3_m p y k)) (wp p * (- y (P k CuI) + M3_rim y k - y (P k CiI))) (y (P k CuI)) (wp p * (- y (P k CuI) + M3_rim y k - y (P k CiI)))
  | XP => aw (rlt (iref_limit p) (M3_ir y)) (Ki_P p * M3_err y) (y XP) (Ki_P p * M3_err y)
  | XQ => aw (rlt (iref_limit p) (M3_ir y)) (- Ki_Q p * (e_Qref e - N3_Q e y)) (y XQ) (- Ki_Q p * (e_Qref e - N3_Q e y))
  | XPLL => Ki_PLL p * N3_vd e y
  | WTE => N3_we p e y
  | _ => 0
  end.
Lemma S3c_form y : re (S3c_inv p e y) = M3_Pk y PA + M3_Pk y PB + M3_Pk y PC.
Proof. unfold S3c_inv, sum3, vt3c_of, S_ph, vt_calc, m_calc, cscale, cmul, conj, cadd, u_of, x_of, i_of, M3_Pk, Vc. cbn [re im]. ring. Qed.
Lemma iref3c_form y : iref3c p e y = Cx (M3_rD y) (M3_rQ y).
Proof. unfold iref3c, ia_ref_activepower. rewrite S3c_form, (S3_form p e G). reflexivity. Qed.
Lemma iref3c_test_form y : iref3c_test p e y = Cx (M3_rD y) (M3_rQ y).
Proof. rewrite <- iref3c_form. unfold iref3c_test, iref3c, eff_Ppv, eff_Qref. rewrite CON. reflexivity. Qed.
Lemma rot3c_form y k : rot k (iref3c p e y) = Cx (M3_rre y k) (M3_rim y k).
Proof.
  rewrite iref3c_form. destruct k; cbn [rot M3_rre M3_rim]; [reflexivity| |]; unfold Ub_calc, Uc_calc;
    rewrite ?cexp_m, ?cexp_p; apply cx_eq; unfold cmul; cbn [re im]; ring.
Qed.
Lemma ode3c_form y v : ode3c p e y v = M3 y v.
Proof.
  unfold ode3c. cbv zeta. unfold we_calc. rewrite !(vd3_form p e G), !iref3c_test_form.
  unfold eff_iref, eff_Qref, eff_Ppv. rewrite CON.
  destruct v as [k c| | | | | | |]; try reflexivity.
  - rewrite rot3c_form, (v3_form p e G). destruct c; reflexivity.
  - rewrite S3c_form. reflexivity.
  - unfold dxQ. rewrite (S3_form p e G). reflexivity.
Qed.
End Const3.

Section Const3_proof.
Variables (p : prm) (e : env) (y : st).
Hypothesis EV : external_voltage e.
Hypothesis HL : Lf p <> 0.
Hypothesis REG : regular3c p e y.
Let G : e_grid e = None. Proof. apply EV. Qed.
Let CON : e_conn e = true. Proof. apply EV. Qed.
Let W : wbase <> 0. Proof. unfold wbase. pose proof PI_RGT_0. lra. Qed.
Ltac ode_start w := apply is_derive_Reals; eapply is_derive_ext; [intros; symmetry; apply (ode3c_form p e G CON (upd y w _))|];
   unfold M3, M3_ir, M3_rre, M3_rim, M3_rD, M3_rQ, M3_err, M3_Pk, N3_we, N3_vd, N3_m, N3_Q, N3_Qk; upd_red.
Ltac fin := unfold jac3c_at; cbv zeta; rewrite ?(S3_form p e G), ?(S3c_form p e); unfold eff_iref, eff_Qref, eff_Ppv;
  rewrite ?(vd3_form p e G y), ?(v3_form p e G y), ?CON, ?(rot3c_form p e G), ?cos_mPI2; unfold N3_vd, ang; cbn [volt];
  first [ reflexivity | field; auto
        | apply aw_ext; first [reflexivity | ring | field; auto]
        | etransitivity; [apply aw_ext with (b := 0); first [reflexivity|ring]|apply aw_0] ].
Ltac reg := first [ let k := match goal with |- off_switch _ _ _ (y (P ?k _)) => k end in
      destruct REG as (R & _); specialize (R k); rewrite (rot3c_form p e G) in R; destruct R as (R1 & R2 & R3 & R4); assumption
    | destruct REG as (_ & (R5 & R6)); rewrite (iref3c_form p e G) in R5, R6; rewrite (S3c_form p e) in R5; rewrite (S3_form p e G) in R6; assumption ].
Ltac entry w := unfold partial_derivative; ode_start w;
  first [ aw_tac; [reg | fin ]
        | evar_last; [auto_derive; [repeat split; auto | reflexivity] | fin] ].
Lemma C52_const3_sec v w : In v states3c -> In w states3c -> ~ power_entry3 v w -> ~ cross_entry3 v w -> ~ angle_entry3 v w ->
   partial_derivative (fun z => ode3c p e z v) w y (jac3c_at w3 w3 p e y v w).
Proof.
  intros Hv Hw X1 X2 X3. unfold states3c, abc_states in *. simpl in Hv, Hw.
  repeat (destruct Hv as [<-|Hv]); try contradiction; repeat (destruct Hw as [<-|Hw]); try contradiction.
  all: try (exfalso; apply X1; split; [tauto|eauto]; fail).
  all: try (exfalso; apply X2; split; tauto).
  all: try (exfalso; apply X3; split; tauto).
  all: clear X1 X2 X3; match goal with |- partial_derivative _ ?w _ _ => try solve [entry w] end.
Qed.
End Const3_proof.

Section True_values.
Variables (p : prm) (e : env) (y : st).
Hypothesis EV : external_voltage e.
Hypothesis HL : Lf p <> 0.
Hypothesis REG : regular3c p e y.
Let G : e_grid e = None. Proof. apply EV. Qed.
Let CON : e_conn e = true. Proof. apply EV. Qed.
Let W : wbase <> 0. Proof. unfold wbase. pose proof PI_RGT_0. lra. Qed.
Ltac ode_start w := apply is_derive_Reals; eapply is_derive_ext; [intros; symmetry; apply (ode3c_form p e G CON (upd y w _))|];
   unfold M3, M3_ir, M3_rre, M3_rim, M3_rD, M3_rQ, M3_err, M3_Pk, N3_we, N3_vd, N3_m, N3_Q, N3_Qk; upd_red.
Ltac reg := 
    destruct REG as (_ & (R5 & R6)); rewrite (iref3c_form p e G) in R5, R6; rewrite (S3c_form p e) in R5; rewrite (S3_form p e G) in R6; assumption.
(** derivative of the inverter power with respect to a current-loop state of phase k *)
Definition dP3 (k : phase) (w : ODEModel.comp) : R :=
  e_Vconst e / 4 * match w with
  | CiR => Kp_GCC p * y (P k CuR) + y (P k CxR) | CiI => Kp_GCC p * y (P k CuI) + y (P k CxI)
  | CxR => y (P k CiR) | CxI => y (P k CiI) | CuR => Kp_GCC p * y (P k CiR) | CuI => Kp_GCC p * y (P k CiI) end.
Lemma C52_const3_XP k c : partial_derivative (fun z => ode3c p e z XP) (P k c) y
  (aw (i_sat p (iref3c p e y)) (Ki_P p * (Ppv_of p e (e_Vconst e) - re (S3c_inv p e y))) (y XP) (- Ki_P p * dP3 k c)).
Proof.
  rewrite (iref3c_form p e G), (S3c_form p e).
  destruct k, c; match goal with |- partial_derivative _ ?w _ _ => unfold partial_derivative; ode_start w end;
   (aw_tac; [reg|apply aw_ext; unfold dP3; field]).
Qed.
(** derivative of the reactive-power integrator with respect to the current of phase k *)
Lemma C52_const3_XQ k (c : bool) : partial_derivative (fun z => ode3c p e z XQ) (P k (if c then CiR else CiI)) y
  (aw (i_sat p (iref3c p e y)) (- Ki_Q p * (e_Qref e - im (S3_pcc p e y))) (y XQ)
      (Ki_Q p * (if c then im (volt e k) else - re (volt e k)) / 2)).
Proof.
  rewrite (iref3c_form p e G), (S3_form p e G).
  destruct k, c; match goal with |- partial_derivative _ ?w _ _ => unfold partial_derivative; ode_start w end;
   (aw_tac; [reg|apply aw_ext; cbn [volt]; field]).
Qed.
(** derivative of the PLL input by the PLL angle *)
Definition dvd3 : R :=
  2/3 * (ang e PA * (- sin (y WTE)) + ang e PB * (1/2 * sin (y WTE) + w3 * cos (y WTE)) + ang e PC * (1/2 * sin (y WTE) - w3 * cos (y WTE))).
Lemma C52_const3_angle v K : (v, K) = (XPLL, Ki_PLL p) \/ (v, K) = (WTE, Kp_PLL p) \/
    (v, K) = (P PA CiR, Kp_PLL p / wbase * y (P PA CiI)) \/ (v, K) = (P PA CiI, - (Kp_PLL p / wbase * y (P PA CiR))) ->
  partial_derivative (fun z => ode3c p e z v) WTE y (K * dvd3).
Proof.
  intros [H|[H|[H|H]]]; injection H as -> ->; unfold partial_derivative; ode_start WTE;
   (evar_last; [auto_derive; [repeat split; auto | reflexivity] |unfold dvd3; field; auto]).
Qed.
Lemma angle_balanced : volt e PB = Ub_calc (volt e PA) -> volt e PC = Uc_calc (volt e PA) ->
  dvd3 = - cabs (volt e PA) * cos (e_wgrid e * e_t e + cphase (volt e PA) - y WTE).
Proof.
  intros HB HC.
  assert (T : forall k, ang e k = phasor_to_time_1phase (volt e k) (e_wgrid e) (e_t e)).
  { intros k. unfold ang. rewrite (polar_rect (volt e k)) at 3. symmetry. apply time_rect. }
  unfold dvd3. rewrite !T, HB, HC, !time_sin. unfold Ub_calc, Uc_calc. rewrite cexp_m, cexp_p.
  rewrite cos_minus, cos_plus, sin_plus.
  pose proof (polar_rect (volt e PA)) as E. set (r := cabs _) in *. set (f := cphase _) in *.
  rewrite E. unfold crect, cscale, cexp, cmul. cbn [re im]. set (a := e_wgrid e * e_t e).
  pose proof w3_sq4 as Q. set (s := w3) in *. clearbody s.
  set (c1 := cos a). set (s1 := sin a). set (c2 := cos f). set (s2 := sin f). set (c3 := cos (y WTE)). set (s3 := sin (y WTE)).
  clearbody c1 s1 c2 s2 c3 s3 r. clear - Q. nz.
Qed.
End True_values.

Section Literals3.
Variables (p : prm) (e : env) (y : st).
Hypothesis G : e_grid e = None.
Let V := cabs (volt e PA) + cabs (volt e PB) + cabs (volt e PC).
Let S_ := jac3_scale p e y.
Let eps := / 1000000000.
Ltac same := rewrite Rminus_diag_eq by reflexivity; rewrite Rabs_R0; apply Rmult_le_pos; [unfold eps; lra|apply (S_parts p e y)].
Ltac pll_rep d K :=
  replace d with ((k10_code - w3) * (2/3 * K * (cabs (volt e PB) * cos (e_wgrid e * e_t e + cphase (volt e PB) - PI / 2) * cos (y WTE) -
              cabs (volt e PC) * cos (e_wgrid e * e_t e + cphase (volt e PC) - PI / 2) * cos (y WTE)))) by ring.
Lemma jac3c_literals v w : Rabs (jac3c p e y v w - jac3c_at w3 w3 p e y v w) <= eps * S_.
Proof.
  unfold jac3c. 
  destruct v as [kv cv| | | | | | |]; try (destruct kv; destruct cv); destruct w as [kw cw| | | | | | |]; try (destruct kw; destruct cw); try (unfold jac3c_at; same).
  all: unfold jac3c_at; cbv zeta; rewrite ?(v3_form p e G y); try apply aw_diff.
  all: lazymatch goal with
  | |- context [Kp_Q p * wp p * ?f (volt e ?k) / 2] =>
      match goal with |- Rabs ?d <= _ =>
        first [ replace d with ((k9_code - w3) * (1 * (Kp_Q p * wp p * f (volt e k) / 2))) by ring
              | replace d with ((k9_code - w3) * (-1 * (Kp_Q p * wp p * f (volt e k) / 2))) by ring ];
        apply (lit p e y); [apply k9_close|apply (c_u p e y _ _ k); [first [apply re_le_cabs|apply im_le_cabs]|auto]] end
  | |- context [cos (y WTE)] =>
      match goal with |- Rabs ?d <= _ => match d with | context [- (2/3) * ?K * _] => pll_rep d (- K) | context [(2/3) * ?K * _] => pll_rep d K end end;
      apply (lit p e y); [apply k10_close|]; apply (c_pll p e y); try apply cabs_nonneg; try apply trig1; try apply (S_parts p e y);
      [first [ rewrite Rabs_Ropp | idtac]; solve [eapply (cK_i p e y _ _ PA); [|reflexivity]; first [apply (re_le_cabs (i_of y PA))|apply (im_le_cabs (i_of y PA))]
             | eapply (cK_i p e y _ _ PB); [|reflexivity]; first [apply (re_le_cabs (i_of y PB))|apply (im_le_cabs (i_of y PB))]
             | eapply (cK_i p e y _ _ PC); [|reflexivity]; first [apply (re_le_cabs (i_of y PC))|apply (im_le_cabs (i_of y PC))] ] 
      | ..]; pose proof (cabs_nonneg (volt e PA)); try lra
  | |- _ => idtac
  end.
  all: match goal with |- Rabs ?d <= _ =>
    first [ replace d with ((k9_code - w3) * wp p) by ring
          | replace d with (- ((k9_code - w3) * wp p)) by ring; rewrite Rabs_Ropp
          | replace d with ((k10_code - w3) * wp p) by ring
          | replace d with (- ((k10_code - w3) * wp p)) by ring; rewrite Rabs_Ropp ] end;
    apply (lit p e y); try apply k9_close; try apply k10_close; rewrite ?Rabs_mult; apply (S_parts p e y).
Qed.
End Literals3.

(** Outside the active-power path, the cross-phase entries of the reactive-power path
    and the PLL-angle column of phase a and of the PLL, every entry is the partial
    derivative up to the decimal literals (at most 1e-9 times [jac3_scale]).  The
    true derivatives of the outer loops and of the PLL are given; in a balanced grid
    the entries (i_a,real | PLL, angle) are right and (i_a,imag, angle) has the wrong
    sign. *)
Theorem C52_const3_partial :
  forall p e y, external_voltage e -> Lf p <> 0 -> regular3c p e y ->
  (forall v w, In v states3c -> In w states3c -> ~ power_entry3 v w -> ~ cross_entry3 v w -> ~ angle_entry3 v w ->
   exists d, partial_derivative (fun z => ode3c p e z v) w y d /\
             Rabs (jac3c p e y v w - d) <= / 1000000000 * jac3_scale p e y) /\
  (forall k c, partial_derivative (fun z => ode3c p e z XP) (P k c) y
     (aw (i_sat p (iref3c p e y)) (Ki_P p * (Ppv_of p e (e_Vconst e) - re (S3c_inv p e y))) (y XP) (- Ki_P p * dP3 p e y k c))) /\
  (forall k (c : bool), partial_derivative (fun z => ode3c p e z XQ) (P k (if c then CiR else CiI)) y
     (aw (i_sat p (iref3c p e y)) (- Ki_Q p * (e_Qref e - im (S3_pcc p e y))) (y XQ)
         (Ki_Q p * (if c then im (volt e k) else - re (volt e k)) / 2))) /\
  (e_vb e = Ub_calc (e_va e) -> e_vc e = Uc_calc (e_va e) ->
   (forall v, In v [XPLL; WTE; P PA CiR] -> partial_derivative (fun z => ode3c p e z v) WTE y (jac3c p e y v WTE)) /\
   partial_derivative (fun z => ode3c p e z (P PA CiI)) WTE y (- jac3c p e y (P PA CiI) WTE)).
Proof.
  intros p e y EV HL REG. split; [|split; [|split]].
  - intros v w Hv Hw X1 X2 X3. exists (jac3c_at w3 w3 p e y v w). split; [apply C52_const3_sec; auto|].
    apply jac3c_literals. apply EV.
  - apply C52_const3_XP; auto.
  - apply C52_const3_XQ; auto.
  - intros HB HC. assert (G : e_grid e = None) by apply EV.
    assert (D := angle_balanced e y HB HC).
    assert (T := C52_const3_angle p e y EV). rewrite D in T.
    assert (W : wbase <> 0) by (unfold wbase; pose proof PI_RGT_0; lra).
    assert (J : forall K, K * cabs (volt e PA) * (- cos (e_wgrid e * e_t e + cphase (volt e PA) - PI / 2) * sin (y WTE) +
        cos (e_wgrid e * e_t e + cphase (volt e PA) - PI / 2 - PI / 2) * cos (y WTE)) =
        K * (- cabs (volt e PA) * cos (e_wgrid e * e_t e + cphase (volt e PA) - y WTE))).
    { intros K. rewrite wte_factor. unfold Rminus. ring. }
    split.
    + intros v [<-|[<-|[<-|[]]]].
      * replace (jac3c p e y XPLL WTE) with (Ki_PLL p * (- cabs (volt e PA) * cos (e_wgrid e * e_t e + cphase (volt e PA) - y WTE))); [apply T; auto|].
        unfold jac3c, jac3c_at. cbv zeta. rewrite !(v3_form p e G). symmetry. apply J.
      * replace (jac3c p e y WTE WTE) with (Kp_PLL p * (- cabs (volt e PA) * cos (e_wgrid e * e_t e + cphase (volt e PA) - y WTE))); [apply T; auto|].
        unfold jac3c, jac3c_at. cbv zeta. rewrite !(v3_form p e G). symmetry. apply J.
      * replace (jac3c p e y (P PA CiR) WTE) with (Kp_PLL p / wbase * y (P PA CiI) * (- cabs (volt e PA) * cos (e_wgrid e * e_t e + cphase (volt e PA) - y WTE))); [apply T; auto|].
        unfold jac3c, jac3c_at. cbv zeta. rewrite !(v3_form p e G), <- J. field. auto.
    + replace (- jac3c p e y (P PA CiI) WTE) with (- (Kp_PLL p / wbase * y (P PA CiR)) * (- cabs (volt e PA) * cos (e_wgrid e * e_t e + cphase (volt e PA) - y WTE))); [apply T; auto|].
      unfold jac3c, jac3c_at. cbv zeta. rewrite !(v3_form p e G), <- J. field. auto.
Qed.
Print Assumptions C52_const3_partial.

Lemma wit3c_Pk k : M3_Pk witc_p wit3_e wit_y k = 0.
Proof. unfold M3_Pk. cbn [e_Vconst wit3_e witc_p wit_y Kp_GCC]. lra. Qed.
Lemma wit3c_rD : -9 <= M3_rD witc_p wit3_e wit_y <= 9.
Proof.
  pose proof Ppv_small as PS. apply Rabs_le_between in PS. unfold M3_rD, M3_err. rewrite !wit3c_Pk.
  change (Ppv_of witc_p wit3_e (e_Vconst wit3_e)) with (Ppv_of witc_p wit_e 2). cbn [wit_y witc_p Kp_P]. fold witc_p. lra.
Qed.
Lemma wit3c_rQ : -9 <= M3_rQ witc_p wit3_e wit_y <= 9.
Proof. unfold M3_rQ, N3_Q, N3_Qk. cbn. lra. Qed.
Lemma wit_regular3c : regular3c witc_p wit3_e wit_y.
Proof.
  assert (A : forall r, Rabs r <= 9 <-> -9 <= r <= 9) by (intros; apply Rabs_le_between).
  unfold regular3c. split.
  - intros k. split; [|split; [|split]]; apply off_below; apply cabs_lt1000; apply A; destruct k; cbn; lra.
  - rewrite (iref3c_form witc_p wit3_e eq_refl).
    split; apply off_below; apply cabs_lt1000; apply A; first [apply wit3c_rD|apply wit3c_rQ].
Qed.
Example C52_const3_hypotheses_met : exists p e y, external_voltage e /\ Lf p <> 0 /\ regular3c p e y /\ y (P PB CiR) = 1.
Proof. exists witc_p, wit3_e, wit_y. split; [split; reflexivity|]. split; [cbn; lra|]. split; [apply wit_regular3c|reflexivity]. Qed.
(** REFUTED for the full matrix: the active-power integrator does not see phase b
    (true derivative -1/2), the reactive-power integrator neither (true 1/2). *)
Theorem C52_const3_refuted :
  exists p e y, external_voltage e /\ Lf p <> 0 /\ regular3c p e y /\
    (In XP states3c /\ In (P PB CxR) states3c /\
     partial_derivative (fun z => ode3c p e z XP) (P PB CxR) y (- 1 / 2) /\ jac3c p e y XP (P PB CxR) = 0) /\
    (In XQ states3c /\ In (P PB CiR) states3c /\
     partial_derivative (fun z => ode3c p e z XQ) (P PB CiR) y (1 / 2) /\ jac3c p e y XQ (P PB CiR) = 0).
Proof.
  exists witc_p, wit3_e, wit_y. assert (EV : external_voltage wit3_e) by (split; reflexivity).
  split; [exact EV|]. split; [cbn; lra|]. split; [apply wit_regular3c|].
  assert (NS : i_sat witc_p (iref3c witc_p wit3_e wit_y) = false).
  { unfold i_sat. apply rlt_false. left. rewrite (iref3c_form witc_p wit3_e eq_refl).
    apply cabs_lt1000; apply Rabs_le_between; first [apply wit3c_rD|apply wit3c_rQ]. }
  pose proof (C52_const3_XP witc_p wit3_e wit_y EV wit_regular3c PB CxR) as T1.
  pose proof (C52_const3_XQ witc_p wit3_e wit_y EV wit_regular3c PB true) as T2.
  rewrite NS in T1, T2. unfold aw in T1, T2.
  split; (split; [simpl; tauto|]); (split; [simpl; tauto|]); (split; [|reflexivity]).
  - replace (- 1 / 2) with (- Ki_P witc_p * dP3 witc_p wit3_e wit_y PB CxR); [exact T1|].
    unfold dP3; cbn [witc_p wit3_e wit_y Ki_P e_Vconst Kp_GCC]; lra.
  - replace (1 / 2) with (Ki_Q witc_p * im (volt wit3_e PB) / 2); [exact T2|].
    cbn [witc_p wit3_e wit_y Ki_Q volt e_vb im]; lra.
Qed.
Print Assumptions C52_const3_refuted.
