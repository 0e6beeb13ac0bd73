(** C94: the first-order filter behind the 'filtered' voltage measurement. *)
From Coquelicot Require Import Coquelicot.
From Verif Require Import RBase CxField PhasorModel PVModel ODEModel PhasorProperties PhasorProperties2 CircuitProperties2 CircuitProperties3 PLLProperties.
Import RBase.
Open Scope R_scope.

(** * Specification vocabulary *)
(** the states follow the three-phase model between two instants, and are continuous
    up to and including both ends (the inputs may jump there) *)
Definition run_between (a b : R) (ode : env -> st -> var -> R) (E : R -> env) (Y : R -> st) : Prop :=
  (forall t v, a < t < b -> is_derive (fun s => Y s v) t (ode (E t) (Y t) v)) /\
  (forall t v, a <= t <= b -> continuous (fun s => Y s v) t).
(** RMS voltage at the connection point, and the filtered one *)
Definition v_rms (p : prm) (e : env) (y : st) : R :=
  sqrt ((cabs (v_calc p e PA (i_of y PA)) ^ 2 + cabs (v_calc p e PB (i_of y PB)) ^ 2 + cabs (v_calc p e PC (i_of y PC)) ^ 2) / 3) / sqrt 2.
Definition v_filtered (y : st) : R := y VRF.

(** * Proofs *)
Lemma filter_weighted p E Y a b c : a < b -> 0 < Tfilter p -> run_between a b (ode3 p) E Y ->
  exists t, a < t < b /\
  (v_filtered (Y b) - c) * exp (b / Tfilter p) - (v_filtered (Y a) - c) * exp (a / Tfilter p) =
  exp (t / Tfilter p) / Tfilter p * (v_rms p (E t) (Y t) - c) * (b - a).
Proof.
  intros Hab HT [HD HC]. set (T := Tfilter p) in *.
  set (g := fun s => (Y s VRF - c) * exp (s / T)).
  assert (D : forall t, a < t < b -> is_derive g t (exp (t / T) / T * (v_rms p (E t) (Y t) - c))).
  { intros t Ht. pose proof (HD t VRF Ht) as K. unfold g.
    assert (K2 : is_derive (fun s => exp (s / T)) t (exp (t / T) / T)).
    { auto_derive; auto. unfold Rdiv. rewrite Rmult_1_l. apply Rmult_comm. }
    assert (K1 : is_derive (fun s => Y s VRF - c) t (ode3 p (E t) (Y t) VRF)).
    { evar_last. apply (is_derive_minus (V := R_NormedModule)); [exact K|apply (is_derive_const c)].
      unfold minus, plus, opp, zero. simpl. lra. }
    evar_last. apply (is_derive_mult (fun s => Y s VRF - c) (fun s => exp (s / T)) t _ _ K1 K2).
    intros; apply Rmult_comm.
    unfold plus, mult. simpl. change (Urms_calc (v3_of p (E t) (Y t) PA) (v3_of p (E t) (Y t) PB) (v3_of p (E t) (Y t) PC)) with (v_rms p (E t) (Y t)). fold T.
    set (vr := v_rms p (E t) (Y t)). field. lra. }
  assert (Cg : forall t, a <= t <= b -> continuity_pt g t).
  { intros t Ht. apply continuity_pt_filterlim. unfold g.
    apply (continuous_mult (fun s => Y s VRF - c) (fun s => exp (s / T))).
    - apply (continuous_minus (V := R_NormedModule) (fun s => Y s VRF) (fun _ => c)); [apply HC; auto|apply continuous_const].
    - apply (ex_derive_continuous (fun s => exp (s / T))). auto_derive. auto. }
  assert (Pr : forall t, a < t < b -> derivable_pt g t).
  { intros t Ht. apply ex_derive_Reals_0. eexists; apply D; auto. }
  assert (Pr2 : forall t, a < t < b -> derivable_pt id t) by (intros; apply derivable_pt_id).
  destruct (MVT g id a b Pr Pr2 Hab) as (t & P & M).
  { intros; apply Cg; auto. } { intros; apply derivable_continuous_pt, derivable_pt_id. }
  exists t. split; auto. unfold id in M at 1 2.
  rewrite (Derive_Reals g t (Pr t P)) in M. rewrite (is_derive_unique _ _ _ (D t P)) in M.
  replace (derive_pt id t (Pr2 t P)) with 1 in M by (symmetry; apply derive_pt_eq_0, derivable_pt_lim_id).
  unfold g in M. unfold v_filtered. lra.
Qed.
Lemma run_sub a b a' b' ode E Y : a <= a' -> b' <= b -> run_between a b ode E Y -> run_between a' b' ode E Y.
Proof. intros H1 H2 [D C]. split; intros; [apply D|apply C]; lra. Qed.

(** * C94 *)
(** The filtered voltage never leaves the range of the voltage it measures: it neither
    overshoots nor undershoots. *)
Theorem C94_filter_stays_in_range :
  forall p E Y a b lo hi, 0 < Tfilter p -> run_between a b (ode3 p) E Y ->
  lo <= v_filtered (Y a) <= hi ->
  (forall t, a < t < b -> lo <= v_rms p (E t) (Y t) <= hi) ->
  forall t, a <= t <= b -> lo <= v_filtered (Y t) <= hi.
Proof.
  intros p E Y a b lo hi HT HR H0 HV t Ht. destruct (Req_dec a t) as [<-|Hne]; auto.
  assert (Hlt : a < t) by lra.
  assert (R' : run_between a t (ode3 p) E Y) by (eapply run_sub; eauto; lra).
  pose proof (exp_pos (t / Tfilter p)) as P1. pose proof (exp_pos (a / Tfilter p)) as P2.
  split.
  - destruct (filter_weighted p E Y a t lo Hlt HT R') as (s & Hs & M).
    assert (0 <= exp (s / Tfilter p) / Tfilter p * (v_rms p (E s) (Y s) - lo) * (t - a)).
    { apply Rmult_le_pos; [|lra]. apply Rmult_le_pos.
      - apply Rlt_le, Rdiv_lt_0_compat; auto. apply exp_pos.
      - assert (lo <= v_rms p (E s) (Y s) <= hi) by (apply HV; lra). lra. }
    assert (0 <= (v_filtered (Y a) - lo) * exp (a / Tfilter p)) by (apply Rmult_le_pos; lra).
    assert (0 <= (v_filtered (Y t) - lo) * exp (t / Tfilter p)) by lra.
    apply Rnot_lt_le. intros L. assert ((v_filtered (Y t) - lo) * exp (t / Tfilter p) < 0); [|lra].
    replace 0 with (0 * exp (t / Tfilter p)) by lra. apply Rmult_lt_compat_r; lra.
  - destruct (filter_weighted p E Y a t hi Hlt HT R') as (s & Hs & M).
    assert (0 <= exp (s / Tfilter p) / Tfilter p * (hi - v_rms p (E s) (Y s)) * (t - a)).
    { apply Rmult_le_pos; [|lra]. apply Rmult_le_pos.
      - apply Rlt_le, Rdiv_lt_0_compat; auto. apply exp_pos.
      - assert (lo <= v_rms p (E s) (Y s) <= hi) by (apply HV; lra). lra. }
    assert (0 <= (hi - v_filtered (Y a)) * exp (a / Tfilter p)) by (apply Rmult_le_pos; lra).
    assert (0 <= (hi - v_filtered (Y t)) * exp (t / Tfilter p)) by lra.
    apply Rnot_lt_le. intros L. assert ((hi - v_filtered (Y t)) * exp (t / Tfilter p) < 0); [|lra].
    replace 0 with (0 * exp (t / Tfilter p)) by lra. apply Rmult_lt_compat_r; lra.
Qed.
Print Assumptions C94_filter_stays_in_range.

(** After a step of the measured voltage to a constant c the filtered voltage follows
    the first-order response exactly, whatever the other states do. *)
Theorem C94_step_response :
  forall p E Y a b c, 0 < Tfilter p -> run_between a b (ode3 p) E Y ->
  (forall t, a < t < b -> v_rms p (E t) (Y t) = c) ->
  forall t, a <= t <= b ->
  v_filtered (Y t) = c + (v_filtered (Y a) - c) * exp (- (t - a) / Tfilter p).
Proof.
  intros p E Y a b c HT HR HV t Ht. destruct (Req_dec a t) as [<-|Hne].
  { replace (- (a - a) / Tfilter p) with 0 by (field; lra). rewrite exp_0. lra. }
  assert (Hlt : a < t) by lra.
  assert (R' : run_between a t (ode3 p) E Y) by (eapply run_sub; eauto; lra).
  destruct (filter_weighted p E Y a t c Hlt HT R') as (s & Hs & M).
  rewrite HV in M by lra. rewrite Rminus_eq_0, Rmult_0_r, Rmult_0_l in M.
  pose proof (exp_pos (t / Tfilter p)) as P1.
  replace (- (t - a) / Tfilter p) with (a / Tfilter p + - (t / Tfilter p)) by (field; lra).
  rewrite exp_plus, exp_Ropp.
  apply (Rmult_eq_reg_r (exp (t / Tfilter p))); [|lra].
  replace ((c + (v_filtered (Y a) - c) * (exp (a / Tfilter p) * / exp (t / Tfilter p))) * exp (t / Tfilter p))
    with (c * exp (t / Tfilter p) + (v_filtered (Y a) - c) * exp (a / Tfilter p)) by (field; lra).
  lra.
Qed.
Print Assumptions C94_step_response.

(** Detection delay of an under-voltage seen through the filter: after a step from v0
    down to c, the filtered voltage is below a threshold th between them exactly
    when more than T * ln((v0 - c)/(th - c)) seconds have passed. *)
Theorem C94_detection_delay :
  forall p E Y a b c th, 0 < Tfilter p -> run_between a b (ode3 p) E Y ->
  (forall t, a < t < b -> v_rms p (E t) (Y t) = c) -> c < th < v_filtered (Y a) ->
  forall t, a <= t <= b ->
  (v_filtered (Y t) < th <-> a + Tfilter p * ln ((v_filtered (Y a) - c) / (th - c)) < t).
Proof.
  intros p E Y a b c th HT HR HV [H1 H2] t Ht. rewrite (C94_step_response p E Y a b c HT HR HV t Ht).
  set (v0 := v_filtered (Y a)) in *. set (T := Tfilter p) in *.
  pose proof (exp_pos (- (t - a) / T)) as P1.
  assert (Q1 : 0 < (v0 - c) / (th - c)) by (apply Rdiv_lt_0_compat; lra).
  assert (K : ln ((th - c) / (v0 - c)) = - ln ((v0 - c) / (th - c))).
  { replace ((th - c) / (v0 - c)) with (/ ((v0 - c) / (th - c))) by (field; lra). apply ln_Rinv; auto. }
  assert (Q2 : 0 < (th - c) / (v0 - c)) by (apply Rdiv_lt_0_compat; lra).
  split; intros L.
  - assert (exp (- (t - a) / T) < (th - c) / (v0 - c)).
    { apply (Rmult_lt_reg_l (v0 - c)); [lra|]. replace ((v0 - c) * ((th - c) / (v0 - c))) with (th - c) by (field; lra). lra. }
    apply ln_increasing in H; auto. rewrite ln_exp, K in H.
    assert (T * (- (t - a) / T) < T * (- ln ((v0 - c) / (th - c)))) by (apply Rmult_lt_compat_l; auto).
    replace (T * (- (t - a) / T)) with (- (t - a)) in H0 by (field; lra). lra.
  - assert (H : - (t - a) / T < ln ((th - c) / (v0 - c))).
    { rewrite K. apply (Rmult_lt_reg_l T); auto. replace (T * (- (t - a) / T)) with (- (t - a)) by (field; lra). lra. }
    apply exp_increasing in H. rewrite exp_ln in H by auto.
    assert ((v0 - c) * exp (- (t - a) / T) < (v0 - c) * ((th - c) / (v0 - c))) by (apply Rmult_lt_compat_l; lra).
    replace ((v0 - c) * ((th - c) / (v0 - c))) with (th - c) in H0 by (field; lra). lra.
Qed.
Print Assumptions C94_detection_delay.

(** With a steady voltage the filtered value converges to it. *)
Theorem C94_converges :
  forall p E Y a c, 0 < Tfilter p -> (forall b, a < b -> run_between a b (ode3 p) E Y) ->
  (forall t, a < t -> v_rms p (E t) (Y t) = c) -> tends (fun t => v_filtered (Y t)) c.
Proof.
  intros p E Y a c HT HR HV eps He. set (v0 := v_filtered (Y a)). set (T := Tfilter p) in *.
  pose proof (Rabs_pos (v0 - c)) as Ha.
  exists (a + T * (Rabs (v0 - c) / eps)). intros t Ht.
  assert (Hr : 0 <= Rabs (v0 - c) / eps) by (apply Rdiv_le_0_compat; auto).
  assert (Hat : a < t). { assert (0 <= T * (Rabs (v0 - c) / eps)) by (apply Rmult_le_pos; lra). lra. }
  rewrite (C94_step_response p E Y a t c HT (HR t Hat)); [|intros; apply HV; lra|lra].
  fold v0 T. replace (c + (v0 - c) * exp (- (t - a) / T) - c) with ((v0 - c) * exp (- (t - a) / T)) by lra.
  rewrite Rabs_mult, (Rabs_pos_eq (exp _)) by apply Rlt_le, exp_pos.
  set (z := (t - a) / T).
  assert (Hz : Rabs (v0 - c) / eps < z).
  { unfold z. apply (Rmult_lt_reg_l T); auto. replace (T * ((t - a) / T)) with (t - a) by (field; lra). lra. }
  replace (- (t - a) / T) with (- z) by (unfold z; field; lra). rewrite exp_Ropp.
  assert (Hz1 : 1 + z < exp z) by (apply exp_ineq1; lra).
  assert (Rabs (v0 - c) < eps * z).
  { apply (Rmult_lt_compat_l eps) in Hz; auto. replace (eps * (Rabs (v0 - c) / eps)) with (Rabs (v0 - c)) in Hz by (field; lra). lra. }
  apply (Rmult_lt_reg_r (exp z)); [lra|]. rewrite Rmult_assoc, Rinv_l, Rmult_1_r by lra.
  assert (eps * (1 + z) < eps * exp z) by (apply Rmult_lt_compat_l; auto). lra.
Qed.
Print Assumptions C94_converges.

(** * A run that meets the hypotheses: a tripped three-phase DER on a steady grid whose
    voltage has just stepped from 1 + V to V (RMS-normalised). *)
Definition filt_env (V t : R) (m : pvm) : env :=
  Env t wbase (crect V 0) (Ub_calc (crect V 0)) (Uc_calc (crect V 0)) None 0 1 m false 0.
Definition filt_state (p : prm) (V t : R) : st := fun v => match v with
  | P k CxR => re (rot k (crect V 0)) | P k CxI => im (rot k (crect V 0))
  | VDC => 2 | WTE => wbase * t | VRF => Rabs V / sqrt 2 + exp (- t / Tfilter p) | _ => 0 end.
Lemma filt_rms p V t m y : v_rms p (filt_env V t m) y = Rabs V / sqrt 2.
Proof.
  destruct (rot_form PB (crect V 0)) as (cb & Hb & _ & Eb). destruct (rot_form PC (crect V 0)) as (cc & Hc & _ & Ec).
  cbn [rot] in Eb, Ec. unfold v_rms. cbn [v_calc e_grid filt_env e_va e_vb e_vc]. rewrite Eb, Ec, !cabs_mul, Hb, Hc, Rmult_1_r.
  replace (cabs (crect V 0)) with (Rabs V).
  2:{ unfold cabs, cnorm2, crect, cscale, cexp. cbn [re im]. rewrite cos_0, sin_0. replace (V * 1 * (V * 1) + V * 0 * (V * 0)) with (Rsqr V) by (unfold Rsqr; lra). now rewrite sqrt_Rsqr_abs. }
  replace ((Rabs V ^ 2 + Rabs V ^ 2 + Rabs V ^ 2) / 3) with (Rsqr (Rabs V)) by (unfold Rsqr; field).
  rewrite sqrt_Rsqr by apply Rabs_pos. reflexivity.
Qed.

Lemma filt_trajectory p V m : 0 < Tfilter p -> forall t v,
  is_derive (fun s => filt_state p V s v) t (ode3 p (filt_env V t m) (filt_state p V t) v).
Proof.
  intros HT t v.
  assert (Vd : vd3 p (filt_env V t m) (filt_state p V t) = 0).
  { unfold vd3, v3_of. cbn [v_calc e_grid filt_env e_va e_vb e_vc e_wgrid e_t filt_state].
    destruct (C47_pll_error V 0 wbase t (wbase * t)) as [-> _].
    replace (wbase * t + 0 - wbase * t) with 0 by lra. rewrite sin_0. lra. }
  assert (Fin : forall r, r = 0 -> (forall s, filt_state p V s v = filt_state p V t v) -> is_derive (fun s => filt_state p V s v) t r).
  { intros r -> Hc. apply (is_derive_ext (fun _ => filt_state p V t v)). intros; symmetry; auto. apply (is_derive_const (K := R_AbsRing) (filt_state p V t v)). }
  assert (Im : im (S3_pcc p (filt_env V t m) (filt_state p V t)) = 0).
  { unfold S3_pcc, sum3, cadd, S_ph, cscale, cmul, conj, i_of. cbn [re im filt_state]. lra. }
  assert (Ri : re (S3_inv p (filt_state p V t)) = 0).
  { unfold S3_inv, sum3, cadd, S_ph, cscale, cmul, conj, i_of. cbn [re im filt_state]. lra. }
  destruct v as [k [| | | | |]| | | | | | |].
  - apply Fin; [|reflexivity]. cbn [ode3 d_comp]. unfold di_re, vt3_of, v3_of, vt_calc, m_calc, cscale, cadd, i_of, u_of, x_of, v_calc.
    cbn [re im filt_state e_grid filt_env e_va e_vb e_vc].
    replace (re match k with PA => crect V 0 | PB => Ub_calc (crect V 0) | PC => Uc_calc (crect V 0) end) with (re (rot k (crect V 0))) by (destruct k; reflexivity). lra.
  - apply Fin; [|reflexivity]. cbn [ode3 d_comp]. unfold di_im, vt3_of, v3_of, vt_calc, m_calc, cscale, cadd, i_of, u_of, x_of, v_calc.
    cbn [re im filt_state e_grid filt_env e_va e_vb e_vc].
    replace (im match k with PA => crect V 0 | PB => Ub_calc (crect V 0) | PC => Uc_calc (crect V 0) end) with (im (rot k (crect V 0))) by (destruct k; reflexivity). lra.
  - apply Fin; [|reflexivity]. cbn [ode3 d_comp]. unfold dx_re, u_of. cbn [re im filt_state]. rewrite Rmult_0_r. apply aw_zero0.
  - apply Fin; [|reflexivity]. cbn [ode3 d_comp]. unfold dx_im, u_of. cbn [re im filt_state]. rewrite Rmult_0_r. apply aw_zero0.
  - apply Fin; [|reflexivity]. cbn [ode3 d_comp]. unfold du_re, u_err, u_of, i_of, eff_iref. cbn [re im filt_state e_conn filt_env].
    replace (wp p * (- 0 + 0 - 0)) with 0 by lra. apply aw_zero0.
  - apply Fin; [|reflexivity]. cbn [ode3 d_comp]. unfold du_im, u_err, u_of, i_of, eff_iref. cbn [re im filt_state e_conn filt_env].
    replace (wp p * (- 0 + 0 - 0)) with 0 by lra. apply aw_zero0.
  - apply Fin; [|reflexivity]. cbn [ode3]. rewrite Ri. unfold dVdc, eff_Ppv. cbn [e_conn filt_env]. unfold Rdiv. lra.
  - apply Fin; [|reflexivity]. cbn [ode3]. unfold dxDC, eff_Vref. cbn [e_conn filt_env].
    rewrite Rminus_eq_0, Rmult_0_r. apply aw_zero0.
  - apply Fin; reflexivity.
  - apply Fin; [|reflexivity]. cbn [ode3]. rewrite Im. unfold dxQ, eff_Qref. cbn [e_conn filt_env].
    rewrite Rminus_eq_0, Rmult_0_r. apply aw_zero0.
  - apply Fin; [|reflexivity]. cbn [ode3]. rewrite Vd. lra.
  - cbn [ode3]. rewrite Vd. unfold we_calc. cbn [filt_state].
    evar_last. apply is_derive_scal; apply (is_derive_id t). unfold one, wbase. simpl. lra.
  - cbn [ode3 filt_state].
    change (Urms_calc (v3_of p (filt_env V t m) (filt_state p V t) PA) (v3_of p (filt_env V t m) (filt_state p V t) PB) (v3_of p (filt_env V t m) (filt_state p V t) PC))
      with (v_rms p (filt_env V t m) (filt_state p V t)). rewrite filt_rms.
    set (T := Tfilter p) in *. set (c := Rabs V / sqrt 2).
    assert (K : is_derive (fun s => exp (- s / T)) t (- (1 / T) * exp (- t / T))).
    { auto_derive; auto. unfold Rdiv. lra. }
    apply (is_derive_ext (fun s => exp (- s / T) + c)). { intros; simpl; lra. }
    evar_last. apply d_shift. exact K. lra.
Qed.
Example C94_hypotheses_met : forall p m, 0 < Tfilter p ->
  (forall a b, run_between a b (ode3 p) (fun t => filt_env 1 t m) (fun t => filt_state p 1 t)) /\
  (forall t, v_rms p (filt_env 1 t m) (filt_state p 1 t) = Rabs 1 / sqrt 2) /\
  v_filtered (filt_state p 1 0) = Rabs 1 / sqrt 2 + 1.
Proof.
  intros p m HT. pose proof (filt_trajectory p 1 m HT) as D. split; [|split].
  - intros a b. split; [intros; apply D|]. intros t v _. apply (ex_derive_continuous (fun s => filt_state p 1 s v)). eexists; apply D.
  - intros; apply filt_rms.
  - unfold v_filtered. cbn [filt_state]. replace (- 0 / Tfilter p) with 0 by (field; lra). now rewrite exp_0.
Qed.
