(** C51 (energy balance along trajectories, filter steady state), C53 anti-windup,
    C60 base values, C71 balanced model, C72 per-unit time scaling. *)
From Coquelicot Require Import Coquelicot.
From Verif Require Import RBase CxField PhasorModel PVModel ODEModel PhasorProperties.
Import RBase.
Open Scope R_scope.

(** * C51: energy balance along every trajectory.
    Stored energy (per unit): DC link C*Vdc^2/2, filter inductors Lf*|i|^2/4 each
    (peak-valued phasors). *)
Definition energy1 (p : prm) (y : st) : R :=
  Cdc p * (y VDC) ^ 2 / 2 + Lf p * cnorm2 (i_of y PA) / 4.
Definition energy3 (p : prm) (y : st) : R :=
  Cdc p * (y VDC) ^ 2 / 2 + Lf p * (cnorm2 (i_of y PA) + cnorm2 (i_of y PB) + cnorm2 (i_of y PC)) / 4.

(** A trajectory of a model: differentiable in every state with the derivative
    prescribed by ODE_model, whatever the inputs do. *)
Definition trajectory (ode : env -> st -> var -> R) (E : R -> env) (Y : R -> st) : Prop :=
  forall t v, is_derive (fun s => Y s v) t (ode (E t) (Y t) v).

Lemma energy_phase (p : prm) w i v vt : Lf p <> 0 ->
  Lf p * (re i * di_re p w i v vt + im i * di_im p w i v vt) / 2 =
  re (S_ph vt i) - re (S_ph v i) - Rf p * cnorm2 i / 2.
Proof.
  intros H. unfold di_re, di_im, S_ph, cmul, cscale, conj, cnorm2. cbn [re im].
  set (ww := w / wbase). field. auto.
Qed.

Lemma d_sq (f : R -> R) t d : is_derive f t d -> is_derive (fun s => f s * f s) t (2 * f t * d).
Proof.
  intros D. evar_last. apply (is_derive_mult f f t d d D D). intros; apply Rmult_comm.
  unfold plus, mult. simpl. ring.
Qed.
Lemma d_lin (f g : R -> R) t a b df dg : is_derive f t df -> is_derive g t dg ->
  is_derive (fun s => a * f s + b * g s) t (a * df + b * dg).
Proof.
  intros D1 D2. apply (is_derive_plus (fun s => a * f s) (fun s => b * g s)); apply (is_derive_scal); auto.
Qed.
Lemma d_energy1 (V a b : R -> R) t dV da db C L :
  is_derive V t dV -> is_derive a t da -> is_derive b t db ->
  is_derive (fun s => C * (V s)^2 / 2 + L * (a s * a s + b s * b s) / 4) t
    (C * V t * dV + L * (a t * da + b t * db) / 2).
Proof.
  intros D1 D2 D3.
  pose proof (d_lin _ _ t 1 1 _ _ (d_sq a t da D2) (d_sq b t db D3)) as K1.
  pose proof (d_lin _ _ t (C/2) (L/4) _ _ (d_sq V t dV D1) K1) as K2.
  apply (is_derive_ext (fun s => C / 2 * (V s * V s) + L / 4 * (1 * (a s * a s) + 1 * (b s * b s)))); [intros s; simpl; field|].
  evar_last; [exact K2|]. simpl. field.
Qed.

Theorem C51_energy_balance_single_phase :
  forall p E Y, Lf p <> 0 -> Cdc p <> 0 -> (forall t, Y t VDC <> 0) ->
  trajectory (ode1 p) E Y ->
  forall t, is_derive (fun s => energy1 p (Y s)) t
    (eff_Ppv (E t) (Ppv_of p (E t) (Y t VDC))       (* PV power fed in *)
     - re (S1_pcc p (E t) (Y t))                     (* power delivered at the PCC *)
     - Rf p * cnorm2 (i_of (Y t) PA) / 2).           (* filter losses *)
Proof.
  intros p E Y HL HC HV HT t. unfold energy1, cnorm2, i_of. cbn [re im].
  evar_last; [apply d_energy1; [exact (HT t VDC)|exact (HT t (P PA CiR))|exact (HT t (P PA CiI))]|].
  cbn [ode1 d_comp]. set (w := we_calc _ _ _).
  pose proof (energy_phase p w (i_of (Y t) PA) (v_calc p (E t) PA (i_of (Y t) PA)) (vt_calc p (Y t VDC) (u_of (Y t) PA) (x_of (Y t) PA)) HL) as EP.
  unfold cnorm2 in EP. cbn [i_of re im] in EP. fold (i_of (Y t) PA) in EP. rewrite EP.
  unfold dVdc, S1_inv, S1_pcc. specialize (HV t). field. auto.
Qed.
Print Assumptions C51_energy_balance_single_phase.

Lemma d_energy3 (V a b c d f g : R -> R) t dV da db dc dd df dg C L :
  is_derive V t dV -> is_derive a t da -> is_derive b t db -> is_derive c t dc -> is_derive d t dd ->
  is_derive f t df -> is_derive g t dg ->
  is_derive (fun s => C * (V s)^2 / 2 + L * ((a s * a s + b s * b s) + (c s * c s + d s * d s) + (f s * f s + g s * g s)) / 4) t
    (C * V t * dV + L * (a t * da + b t * db) / 2 + L * (c t * dc + d t * dd) / 2 + L * (f t * df + g t * dg) / 2).
Proof.
  intros D1 D2 D3 D4 D5 D6 D7.
  pose proof (d_lin _ _ t 1 1 _ _ (d_sq a t da D2) (d_sq b t db D3)) as K1.
  pose proof (d_lin _ _ t 1 1 _ _ (d_sq c t dc D4) (d_sq d t dd D5)) as K2.
  pose proof (d_lin _ _ t 1 1 _ _ (d_sq f t df D6) (d_sq g t dg D7)) as K3.
  pose proof (d_lin _ _ t 1 1 _ _ K1 K2) as K4. pose proof (d_lin _ _ t 1 1 _ _ K4 K3) as K5.
  pose proof (d_lin _ _ t (C/2) (L/4) _ _ (d_sq V t dV D1) K5) as K6.
  eapply is_derive_ext; [|evar_last; [exact K6|]].
  - intros s. simpl. field.
  - simpl. field.
Qed.

Theorem C51_energy_balance_three_phase :
  forall p E Y, Lf p <> 0 -> Cdc p <> 0 -> (forall t, Y t VDC <> 0) ->
  trajectory (ode3 p) E Y ->
  forall t, is_derive (fun s => energy3 p (Y s)) t
    (eff_Ppv (E t) (Ppv_of p (E t) (Y t VDC))
     - re (S3_pcc p (E t) (Y t))
     - Rf p * (cnorm2 (i_of (Y t) PA) + cnorm2 (i_of (Y t) PB) + cnorm2 (i_of (Y t) PC)) / 2).
Proof.
  intros p E Y HL HC HV HT t. unfold energy3, cnorm2, i_of. cbn [re im].
  evar_last; [apply d_energy3; [exact (HT t VDC)|exact (HT t (P PA CiR))|exact (HT t (P PA CiI))|exact (HT t (P PB CiR))|exact (HT t (P PB CiI))|exact (HT t (P PC CiR))|exact (HT t (P PC CiI))]|].
  cbn [ode3 d_comp]. set (w := we_calc _ _ _).
  assert (EP : forall k, Lf p * (Y t (P k CiR) * di_re p w (i_of (Y t) k) (v3_of p (E t) (Y t) k) (vt3_of p (Y t) k)
                    + Y t (P k CiI) * di_im p w (i_of (Y t) k) (v3_of p (E t) (Y t) k) (vt3_of p (Y t) k)) / 2 =
      re (S_ph (vt3_of p (Y t) k) (i_of (Y t) k)) - re (S_ph (v3_of p (E t) (Y t) k) (i_of (Y t) k)) - Rf p * (Y t (P k CiR) * Y t (P k CiR) + Y t (P k CiI) * Y t (P k CiI)) / 2).
  { intros k. apply (energy_phase p w (i_of (Y t) k)); auto. }
  rewrite !EP. unfold dVdc, S3_inv, S3_pcc, sum3. specialize (HV t).
  cbn [cadd re]. field. auto.
Qed.
Print Assumptions C51_energy_balance_three_phase.

(** At an equilibrium of the current equation the terminal voltage is the PCC
    voltage plus the drop over the filter impedance at the inverter frequency. *)
Theorem C51_filter_steady_state :
  forall p w i v vt, Lf p <> 0 ->
  (di_re p w i v vt = 0 /\ di_im p w i v vt = 0 <->
   csub vt v = cmul (Cx (Rf p) (w / wbase * Lf p)) i).
Proof.
  intros p w i v vt HL. unfold di_re, di_im. set (ww := w / wbase). 
  destruct i as [i1 i2], v as [v1 v2], vt as [t1 t2]. unfold csub, cmul. cbn [re im]. split.
  - intros [E1 E2]. apply (f_equal (Rmult (Lf p))) in E1. apply (f_equal (Rmult (Lf p))) in E2.
    field_simplify in E1; auto. field_simplify in E2; auto. apply cx_eq; cbn [re im]; lra.
  - intros E. pose proof (f_equal re E) as E1. pose proof (f_equal im E) as E2. cbn [re im] in *. split.
    + replace t1 with (v1 + (Rf p * i1 - ww * Lf p * i2)) by lra. field. auto.
    + replace t2 with (v2 + (Rf p * i2 + ww * Lf p * i1)) by lra. field. auto.
Qed.
Print Assumptions C51_filter_steady_state.

(** * C53: anti-windup *)
Lemma aw_dir d x : aw true d x d * x <= 0.
Proof.
  unfold aw, same_sign, np_sign.
  destruct (req _ _) eqn:E; rb; [lra|].
  destruct (rlt 0 d) eqn:E1, (rlt d 0) eqn:E2, (rlt 0 x) eqn:E3, (rlt x 0) eqn:E4; rb; nra.
Qed.

(** While the modulation of a phase is beyond its limit no controller state of
    that phase is driven further away from zero; while the current reference is
    beyond its limit neither is an outer-loop integrator.  Holds for the
    three-phase, single-phase and balanced models, in every state. *)
Theorem C53_integrators_not_driven_further_partial :
  forall p e y,
  (forall k, m_limit p < cabs (m_calc p (u_of y k) (x_of y k)) ->
     ode3 p e y (P k CxR) * y (P k CxR) <= 0 /\ ode3 p e y (P k CxI) * y (P k CxI) <= 0 /\
     ode3 p e y (P k CuR) * y (P k CuR) <= 0 /\ ode3 p e y (P k CuI) * y (P k CuI) <= 0) /\
  (m_limit p < cabs (m_calc p (u_of y PA) (x_of y PA)) ->
     forall c, In c [CxR; CxI; CuR; CuI] ->
     ode1 p e y (P PA c) * y (P PA c) <= 0 /\ odeb p e y (P PA c) * y (P PA c) <= 0) /\
  (iref_limit p < cabs (iref3_test p e y) -> ode3 p e y XDC * y XDC <= 0 /\ ode3 p e y XQ * y XQ <= 0) /\
  (iref_limit p < cabs (iref1_test p e y) -> ode1 p e y XDC * y XDC <= 0 /\ ode1 p e y XQ * y XQ <= 0) /\
  (iref_limit p < cabs (irefb_test p e y) -> odeb p e y XDC * y XDC <= 0 /\ odeb p e y XQ * y XQ <= 0).
Proof.
  intros p e y.
  split; [|split; [|split; [|split]]].
  - intros k H. apply rlt_iff in H. cbn [ode3 d_comp]. unfold dx_re, dx_im, du_re, du_im, m_sat. rewrite H. repeat split; apply aw_dir.
  - intros H c Hc. apply rlt_iff in H. cbn [In] in Hc. 
    destruct Hc as [<-|[<-|[<-|[<-|[]]]]]; cbn [ode1 odeb d_comp]; unfold dx_re, dx_im, du_re, du_im, m_sat; rewrite H; split; apply aw_dir.
  - intros H. apply rlt_iff in H. cbn [ode3]. unfold dxDC, dxQ, i_sat. unfold iref3_test in *. rewrite H. split; apply aw_dir.
  - intros H. apply rlt_iff in H. cbn [ode1]. unfold dxDC, dxQ, i_sat. unfold iref1_test in *. rewrite H. split; apply aw_dir.
  - intros H. apply rlt_iff in H. cbn [odeb]. unfold dxDC, dxQ, i_sat. unfold irefb_test in *. rewrite H. split; apply aw_dir.
Qed.
Print Assumptions C53_integrators_not_driven_further_partial.

(** Below the limits the controllers are the plain PI laws. *)
Theorem C53_unsaturated_is_PI_partial :
  forall p e y k, e_conn e = true ->
  cabs (m_calc p (u_of y k) (x_of y k)) <= m_limit p -> cabs (iref3_test p e y) <= iref_limit p ->
  ode3 p e y (P k CxR) = Ki_GCC p * y (P k CuR) /\ ode3 p e y (P k CxI) = Ki_GCC p * y (P k CuI) /\
  ode3 p e y XDC = Ki_DC p * (e_Vdcref e - y VDC) /\
  ode3 p e y XQ = - Ki_Q p * (e_Qref e - im (S3_pcc p e y)).
Proof.
  intros p e y k Hc H1 H2. apply rlt_false in H1. apply rlt_false in H2. unfold iref3_test in H2.
  cbn [ode3 d_comp]. unfold dx_re, dx_im, dxDC, dxQ, m_sat, i_sat, iref3_test, eff_Vref, eff_Qref in *. rewrite Hc in *.
  rewrite H1, H2. repeat split; reflexivity.
Qed.
Print Assumptions C53_unsaturated_is_PI_partial.

(** REFUTED part: the modulation applied to the bridge is not limited, and while it
    is beyond the limit it may still grow. *)
Theorem C53_modulation_limited_refuted :
  exists p e y, e_conn e = true /\ 0 < y VDC /\
  let m := m_calc p (u_of y PA) (x_of y PA) in
  let dm := cadd (cscale (Kp_GCC p) (Cx (ode1 p e y (P PA CuR)) (ode1 p e y (P PA CuI))))
                 (Cx (ode1 p e y (P PA CxR)) (ode1 p e y (P PA CxI))) in
  m_limit p < cabs m /\
  (* terminal voltage beyond what the limit allows *)
  m_limit p * (y VDC / 2) < cabs (vt_calc p (y VDC) (u_of y PA) (x_of y PA)) /\
  (* |m|^2 increasing *)
  0 < 2 * (re m * re dm + im m * im dm).
Proof.
  set (p := Prm 1 1 1 1 1 1 1 1 1 1 1 1 1 1 1 1 1 1 1 (Cx 1 2) 72).
  set (e := Env 0 0 (Cx 1 0) (Cx 0 0) (Cx 0 0) None 0 0 (PVM 1 1 1 300) true 0).
  (* u = -1, x = 3: the filter state relaxes towards 0 faster than x is wound down *)
  set (y := fun v => match v with P PA CuR => -1 | P PA CxR => 3 | VDC => 1 | XDC => 10 | _ => 0 end : R).
  assert (M : cabs (m_calc p (u_of y PA) (x_of y PA)) = 2).
  { unfold cabs. replace (cnorm2 _) with (2 * 2). apply sqrt_square; lra.
    unfold cnorm2, m_calc, cadd, cscale. cbn. ring. }
  assert (VT : cabs (vt_calc p (y VDC) (u_of y PA) (x_of y PA)) = 1).
  { unfold cabs. replace (cnorm2 _) with (1 * 1). apply sqrt_square; lra.
    unfold cnorm2, vt_calc, m_calc, cadd, cscale. cbn. field. }
  exists p, e, y. split; [reflexivity|]. split; [cbn; lra|]. cbv zeta. rewrite M, VT.
  split; [cbn; lra|]. split; [cbn; lra|].
  assert (SAT : m_sat p (u_of y PA) (x_of y PA) = true) by (unfold m_sat; rewrite M; apply rlt_iff; cbn; lra).
  cbn [ode1 d_comp]. unfold dx_re, dx_im, du_re, du_im. rewrite SAT. unfold aw, same_sign, np_sign.
  unfold eff_iref. change (e_conn e) with true. cbv iota.
  assert (E1 : u_err p (re (u_of y PA)) (re (iref1 p e y)) (re (i_of y PA)) = 10).
  { unfold u_err, iref1, ia_ref_calc. cbn. ring. }
  assert (E2 : u_err p (im (u_of y PA)) (im (iref1 p e y)) (im (i_of y PA)) = 0).
  { unfold u_err, iref1, ia_ref_calc, S1_pcc, S_ph, cscale, cmul, conj. cbn. ring. }
  rewrite E1, E2.
  assert (U1 : re (u_of y PA) = -1) by reflexivity. assert (U2 : im (u_of y PA) = 0) by reflexivity.
  assert (X1 : re (x_of y PA) = 3) by reflexivity. assert (X2 : im (x_of y PA) = 0) by reflexivity.
  rewrite U1, U2, X1, X2. change (Ki_GCC p) with 1. change (Kp_GCC p) with 1.
  unfold m_calc, cadd, cscale. cbn [re im]. rewrite U1, U2, X1, X2. change (Kp_GCC p) with 1.
  repeat match goal with |- context [rlt ?a ?b] => destruct (rlt a b) eqn:?; rb; try lra end.
  repeat match goal with |- context [req ?a ?b] => destruct (req a b) eqn:?; rb; try lra end.
Qed.
Print Assumptions C53_modulation_limited_refuted.
