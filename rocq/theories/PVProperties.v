(** C49 PV power, C69 maximum power point equation, C70 configured insolation. *)
From Verif Require Import RBase PVModel.

(** A module inside the range the event interface admits: temperature 250..375 K,
    insolation 0..100 (%), at least one cell in each direction. *)
Definition module_ok (m : pvm) : Prop :=
  1 <= Np m /\ 1 <= Ns m /\ 250 <= Tactual m <= 375 /\ 0 <= Sinsol m.
(** Open circuit at voltage V: the current delivered is zero or negative. *)
Definition vt (m : pvm) : R := k_boltz * Tactual m * A_ideal * Ns m / q_charge.
Definition pv_current (m : pvm) (V : R) : R := Np m * Iph_calc m - Np m * Irs * (exp (V / vt m) - 1).

Lemma vt_pos m : module_ok m -> 0 < k_boltz * Tactual m * A_ideal * Ns m /\ 0 < vt m.
Proof.
  intros (H1 & H2 & H3 & H4). unfold vt, k_boltz, A_ideal, q_charge.
  assert (0 < 138 / 10000000000000000000000000 * Tactual m * (192 / 100) * Ns m).
  { repeat apply Rmult_lt_0_compat; try lra. }
  split; auto. apply Rdiv_lt_0_compat; auto. lra.
Qed.
Lemma Iph_nonneg m : module_ok m -> 0 <= Iph_calc m.
Proof. intros (H1 & H2 & H3 & H4). unfold Iph_calc, Iscr, Kv, T0. apply Rmult_le_pos; lra. Qed.

Lemma arg_eq m V : module_ok m -> q_charge * V / (k_boltz * Tactual m * A_ideal * Ns m) = V / vt m.
Proof. intros H. destruct (vt_pos m H) as [A _]. unfold vt. assert (0 < q_charge) by (unfold q_charge; lra). set (d := k_boltz * Tactual m * A_ideal * Ns m) in *. clearbody d. field. split; lra. Qed.

(** What Ppv_calc computes whenever the exponential does not overflow. *)
Lemma Ppv_eq m V : module_ok m -> V / vt m <= 709 ->
  Ppv_calc m V = inl (Rmax 0 (pv_current m V * V) / Sbase).
Proof.
  intros H L. destruct (vt_pos m H) as [A _]. unfold Ppv_calc, diode_arg.
  destruct (req _ 0) eqn:E; rb; [lra|]. rewrite arg_eq by auto. unfold py_exp, exp_limit.
  destruct (rlt 709 _) eqn:E2; rb; [lra|]. reflexivity.
Qed.

Lemma exp_le a b : a <= b -> exp a <= exp b.
Proof. intros [H| ->]; [left; apply exp_increasing; auto|lra]. Qed.

(** Inside the admissible range and with the voltage limited by Vdcmpp_max as in
    Vdc_actual (any module whose Vdcmpp_max is at most 7 V per series cell; the
    shipped modules have at most 1.1 V), the power never raises and is never
    negative; and it is exactly the diode law clipped at zero. *)
Theorem C49_power_total :
  forall m Vmax Vbase Vdc, module_ok m -> Vmax <= 7 * Ns m ->
  exists p, Ppv_calc m (Vdc_actual Vmax Vbase Vdc) = inl p /\ 0 <= p /\
    p = Rmax 0 (pv_current m (Vdc_actual Vmax Vbase Vdc) * Vdc_actual Vmax Vbase Vdc) / 50000.
Proof.
  intros m Vmax Vb V H HV. set (W := Vdc_actual Vmax Vb V).
  assert (HW : W <= 7 * Ns m) by (unfold W, Vdc_actual; pose proof (Rmin_l Vmax (V * Vb)); lra).
  destruct (vt_pos m H) as [A B]. destruct H as (H1 & H2 & H3 & H4) eqn:EH.
  assert (L : W / vt m <= 709).
  { apply Rmult_le_reg_r with (vt m); auto. unfold Rdiv. rewrite Rmult_assoc, Rinv_l by lra. rewrite Rmult_1_r.
    apply Rle_trans with (7 * Ns m); auto. unfold vt, k_boltz, A_ideal, q_charge.
    replace (709 * (138 / 10000000000000000000000000 * Tactual m * (192 / 100) * Ns m / (1602 / 10000000000000000000000)))
      with ((709 * 138 * 192 / (1602 * 100 * 1000) * Tactual m) * Ns m) by field.
    apply Rmult_le_compat_r; lra. }
  rewrite Ppv_eq by (try rewrite <- EH; auto). eexists. split; [reflexivity|]. unfold Sbase. split; auto.
  apply Rmult_le_pos; [apply Rmax_l|lra].
Qed.
Print Assumptions C49_power_total.

(** Zero in the dark, zero at and beyond open circuit and for V <= 0, positive
    between short circuit and open circuit. *)
Theorem C49_power_zero_and_sign :
  forall m V p, module_ok m -> Ppv_calc m V = inl p ->
  (Sinsol m = 0 -> p = 0) /\
  (V <= 0 -> p = 0) /\
  (pv_current m V <= 0 -> p = 0) /\
  (0 < V -> 0 < pv_current m V -> 0 < p) /\
  (0 < V -> 0 < p -> forall V', V <= V' -> pv_current m V' <= pv_current m V).
Proof.
  intros m V p H E. destruct (vt_pos m H) as [A B].
  assert (L : V / vt m <= 709).
  { unfold Ppv_calc, diode_arg in E. destruct (req _ 0) eqn:E1; [discriminate|]. rewrite arg_eq in E by auto.
    unfold py_exp, exp_limit in E. destruct (rlt _ _) eqn:E2; [discriminate|]. rb. auto. }
  rewrite Ppv_eq in E by auto. injection E as E. 
  assert (M0 : forall x, x <= 0 -> Rmax 0 x / Sbase = 0) by (intros x Hx; rewrite Rmax_left by auto; unfold Sbase; lra).
  pose proof (Iph_nonneg m H) as HI. pose proof (exp_pos (V / vt m)) as HE.
  destruct H as (H1 & H2 & H3 & H4) eqn:EH. rewrite <- E.
  assert (IR : 0 < Irs) by (unfold Irs; lra).
  assert (Hneg : V <= 0 -> exp (V / vt m) <= 1).
  { intros. rewrite <- exp_0. apply exp_le. apply Rmult_le_reg_r with (vt m); auto.
    unfold Rdiv. rewrite Rmult_assoc, Rinv_l, Rmult_1_r, Rmult_0_l by lra. auto. }
  assert (Hpos : 0 <= V -> 1 <= exp (V / vt m)).
  { intros. rewrite <- exp_0. apply exp_le. apply Rmult_le_pos; auto. left. apply Rinv_0_lt_compat; auto. }
  assert (HVneg : V <= 0 -> 0 <= pv_current m V).
  { intros K. specialize (Hneg K). unfold pv_current.
    assert (0 <= Np m * Iph_calc m) by (apply Rmult_le_pos; lra).
    assert (0 <= Np m * Irs * (1 - exp (V / vt m))) by (apply Rmult_le_pos; [apply Rmult_le_pos; lra|lra]). lra. }
  repeat split.
  - intros S0. apply M0. destruct (Rle_lt_dec V 0) as [K|K].
    + specialize (HVneg K). nra.
    + specialize (Hpos (Rlt_le _ _ K)). unfold pv_current, Iph_calc. rewrite S0.
      replace (_ * (0 / 100)) with 0 by field.
      assert (0 <= Np m * Irs * (exp (V / vt m) - 1)) by (apply Rmult_le_pos; [apply Rmult_le_pos; lra|lra]). nra.
  - intros K. apply M0. specialize (HVneg K). nra.
  - intros K. apply M0. destruct (Rle_lt_dec V 0) as [K'|K']; [specialize (HVneg K')|]; nra.
  - intros HV HC. rewrite Rmax_right by nra. apply Rdiv_lt_0_compat; [nra|unfold Sbase; lra].
  - intros HV HP V' HVV. unfold pv_current.
    assert (exp (V / vt m) <= exp (V' / vt m)).
    { apply exp_le. apply Rmult_le_compat_r; auto. left. apply Rinv_0_lt_compat; auto. }
    assert (0 <= Np m * Irs * (exp (V' / vt m) - exp (V / vt m))) by (apply Rmult_le_pos; [apply Rmult_le_pos; lra|lra]). lra.
Qed.
Print Assumptions C49_power_zero_and_sign.

(** More sun never gives less power (same voltage and temperature). *)
Theorem C49_power_monotone_in_insolation :
  forall np ns S1 S2 T V p1 p2,
  module_ok (PVM np ns S1 T) -> S1 <= S2 -> 
  Ppv_calc (PVM np ns S1 T) V = inl p1 -> Ppv_calc (PVM np ns S2 T) V = inl p2 ->
  p1 <= p2.
Proof.
  intros np ns S1 S2 T V p1 p2 H HS E1 E2.
  assert (H' : module_ok (PVM np ns S2 T)) by (destruct H as (a & b & c & d); cbn [Np Ns Sinsol Tactual] in *; repeat split; cbn [Np Ns Sinsol Tactual]; lra).
  destruct (Rle_lt_dec V 0) as [K|K].
  { destruct (C49_power_zero_and_sign _ _ _ H E1) as (_ & A & _). destruct (C49_power_zero_and_sign _ _ _ H' E2) as (_ & B & _).
    rewrite A, B by auto. lra. }
  assert (L : V / vt (PVM np ns S1 T) <= 709).
  { unfold Ppv_calc, diode_arg in E1. destruct (req _ 0) eqn:Q1; [discriminate|]. rewrite arg_eq in E1 by auto.
    unfold py_exp, exp_limit in E1. destruct (rlt _ _) eqn:Q2; [discriminate|]. rb. auto. }
  rewrite Ppv_eq in E1 by auto. rewrite Ppv_eq in E2 by auto. injection E1 as <-. injection E2 as <-.
  apply Rmult_le_compat_r; [unfold Sbase; lra|].
  assert (C : pv_current (PVM np ns S1 T) V <= pv_current (PVM np ns S2 T) V).
  { unfold pv_current, Iph_calc. change (vt (PVM np ns S2 T)) with (vt (PVM np ns S1 T)). cbn [Np Ns Sinsol Tactual].
    destruct H as (a & b & c & d). cbn [Np Ns Sinsol Tactual] in *. unfold Iscr, Kv, T0.
    assert (0 <= np * ((803/100 + 17/10000 * (T - (27315/100 + 25))) * ((S2 - S1)/100))).
    { apply Rmult_le_pos; [lra|]. apply Rmult_le_pos; lra. } lra. }
  apply Rle_max_compat_l. apply Rmult_le_compat_r; lra.
Qed.
Print Assumptions C49_power_monotone_in_insolation.

Example C49_hypotheses_met :
  let m := PVM 11 735 100 298 in
  module_ok m /\ 650 <= 7 * Ns m /\ 0 < pv_current m 550.
Proof.
  cbv zeta. assert (H : module_ok (PVM 11 735 100 298)) by (unfold module_ok; cbn [Np Ns Sinsol Tactual]; lra).
  split; auto. split; [cbn [Ns]; lra|]. unfold pv_current, Iph_calc. cbn [Np Ns Sinsol Tactual].
  (* 550/vt = 550*1602*.. /(..) < 16 and e^16 < 3^16 *)
  assert (V : 550 / vt (PVM 11 735 100 298) <= 16).
  { unfold vt, k_boltz, A_ideal, q_charge. cbn [Np Ns Sinsol Tactual]. lra. }
  assert (E : exp 16 <= 43046721).
  { replace 16 with (1+1+1+1+1+1+1+1+1+1+1+1+1+1+1+1) by ring. rewrite !exp_plus.
    pose proof exp_le_3 as X. pose proof (exp_pos 1) as Y. set (e := exp 1) in *. clearbody e.
    assert (P2 : e * e <= 9) by nra. assert (P4 : (e*e)*(e*e) <= 81) by nra.
    set (f := (e*e)*(e*e)) in *. assert (0 <= f) by (unfold f; nra).
    assert (P8 : f * f <= 6561) by nra. assert (0 <= f*f) by nra. assert (P16 : (f*f)*(f*f) <= 43046721) by nra.
    replace (e * e * e * e * e * e * e * e * e * e * e * e * e * e * e * e) with ((f*f)*(f*f)) by (unfold f; ring). auto. }
  pose proof (exp_le _ _ V). unfold Irs, Iscr, Kv, T0. lra.
Qed.

(** * C69: a root of the maximum-power-point equation is the maximum power point *)
Theorem C69_mpp_root_maximises_power :
  forall m Vmpp, module_ok m -> mpp_equation m Vmpp = 0 -> 0 <= Vmpp ->
  (forall V, pv_current m V * V <= pv_current m Vmpp * Vmpp) /\
  (forall V p pm, Ppv_calc m V = inl p -> Ppv_calc m Vmpp = inl pm -> p <= pm).
Proof.
  intros m W H E HW. destruct (vt_pos m H) as [A B]. pose proof (Iph_nonneg m H) as HI.
  assert (HN : 1 <= Np m) by (destruct H; auto). assert (IR : 0 < Irs) by (unfold Irs; lra).
  set (c := (Iph_calc m + Irs) / Irs).
  assert (Hc : 1 <= c).
  { unfold c. apply Rmult_le_reg_r with Irs; auto. unfold Rdiv. rewrite Rmult_assoc, Rinv_l by lra. lra. }
  assert (C : forall V, pv_current m V = Np m * Irs * (c - exp (V / vt m))).
  { intros V. unfold pv_current, c. field. lra. }
  set (xs := W / vt m). assert (HX : 0 <= xs) by (apply Rmult_le_pos; auto; left; apply Rinv_0_lt_compat; auto).
  assert (R : c = exp xs * (1 + xs)).
  { unfold mpp_equation in E. rewrite arg_eq in E by auto. fold xs in E.
    assert (Q : q_charge / (k_boltz * Tactual m * A_ideal * Ns m) * W = xs).
    { unfold xs. rewrite <- (arg_eq m W H). unfold Rdiv. ring. }
    assert (E2 : Np m * Irs * (c - exp xs * (1 + xs)) = 0).
    { rewrite (Rmult_assoc (Np m * Irs * exp xs)), Q in E. rewrite <- E. unfold c. field. lra. }
    assert (0 < Np m * Irs) by (apply Rmult_lt_0_compat; lra).
    apply Rmult_integral in E2. destruct E2; lra. }
  assert (M : forall V, pv_current m V * V <= pv_current m W * W).
  { intros V. rewrite !C. fold xs. set (x := V / vt m).
    assert (EV : V = x * vt m) by (unfold x; field; lra). assert (EW : W = xs * vt m) by (unfold xs; field; lra).
    rewrite EV at 1. rewrite EW at 1.
    assert (K : (c - exp x) * x <= (c - exp xs) * xs).
    { destruct (Rle_lt_dec 0 x) as [Hx|Hx].
      - set (d := x - xs). assert (Ed : exp x = exp xs * exp d) by (unfold d; rewrite <- exp_plus; f_equal; ring).
        pose proof (exp_ineq1_le d) as I. pose proof (exp_pos xs) as P. rewrite R, Ed.
        assert (x = xs + d) by (unfold d; ring). 
        assert (x * (1 + d) <= x * exp d) by (apply Rmult_le_compat_l; auto).
        assert (F : 0 <= exp xs * (x * exp d - (xs + d + xs * d))).
        { apply Rmult_le_pos; [lra|]. nra. }
        replace (exp xs * (1 + xs) - exp xs) with (exp xs * xs) by ring.
        apply Rplus_le_reg_r with (exp xs * x * exp d - exp xs * xs * xs). nra.
      - assert (exp x < 1) by (rewrite <- exp_0; apply exp_increasing; auto).
        assert (0 <= (c - exp xs) * xs).
        { rewrite R. pose proof (exp_pos xs). replace (exp xs * (1 + xs) - exp xs) with (exp xs * xs) by ring.
          apply Rmult_le_pos; auto. apply Rmult_le_pos; lra. }
        nra. }
    assert (0 <= Np m * Irs * vt m) by (apply Rmult_le_pos; [apply Rmult_le_pos; lra|lra]).
    replace (Np m * Irs * (c - exp x) * (x * vt m)) with (Np m * Irs * vt m * ((c - exp x) * x)) by ring.
    replace (Np m * Irs * (c - exp xs) * (xs * vt m)) with (Np m * Irs * vt m * ((c - exp xs) * xs)) by ring.
    apply Rmult_le_compat_l; auto. }
  split; auto. intros V p pm E1 E2.
  assert (L : forall V p, Ppv_calc m V = inl p -> V / vt m <= 709).
  { intros V0 p0 E0. unfold Ppv_calc, diode_arg in E0. destruct (req _ 0) eqn:Q1; [discriminate|]. rewrite arg_eq in E0 by auto.
    unfold py_exp, exp_limit in E0. destruct (rlt _ _) eqn:Q2; [discriminate|]. rb. auto. }
  rewrite Ppv_eq in E1 by eauto. rewrite Ppv_eq in E2 by eauto. injection E1 as <-. injection E2 as <-.
  apply Rmult_le_compat_r; [unfold Sbase; lra|]. apply Rle_max_compat_l. apply M.
Qed.
Print Assumptions C69_mpp_root_maximises_power.

(** the voltage is unique, and it never reaches open circuit *)
Theorem C69_mpp_unique_inside_open_circuit :
  forall m V1 V2, module_ok m -> 0 <= V1 -> 0 <= V2 -> mpp_equation m V1 = 0 -> mpp_equation m V2 = 0 ->
  V1 = V2 /\ 0 <= pv_current m V1 /\ (0 < Sinsol m -> 0 < V1 /\ 0 < pv_current m V1).
Proof.
  intros m V1 V2 H P1 P2 E1 E2. destruct (vt_pos m H) as [A B]. pose proof (Iph_nonneg m H) as HI.
  assert (HN : 1 <= Np m) by (destruct H; auto). assert (IR : 0 < Irs) by (unfold Irs; lra).
  assert (F : forall V, mpp_equation m V = 0 -> exp (V / vt m) * (1 + V / vt m) = (Iph_calc m + Irs) / Irs).
  { intros W E. unfold mpp_equation in E. rewrite arg_eq in E by auto. set (xs := W / vt m) in *.
    assert (Q : q_charge / (k_boltz * Tactual m * A_ideal * Ns m) * W = xs).
    { unfold xs. rewrite <- (arg_eq m W H). unfold Rdiv. ring. }
    assert (X : Np m * Irs * ((Iph_calc m + Irs) / Irs - exp xs * (1 + xs)) = 0).
    { rewrite (Rmult_assoc (Np m * Irs * exp xs)), Q in E. rewrite <- E. field. lra. }
    assert (0 < Np m * Irs) by (apply Rmult_lt_0_compat; lra).
    apply Rmult_integral in X. destruct X; lra. }
  assert (N : forall V, 0 <= V -> 0 <= V / vt m) by (intros; apply Rmult_le_pos; auto; left; apply Rinv_0_lt_compat; auto).
  assert (ST : forall x y, 0 <= x -> x < y -> exp x * (1 + x) < exp y * (1 + y)).
  { intros x y Hx Hxy. pose proof (exp_increasing _ _ Hxy). pose proof (exp_pos x). nra. }
  assert (EQ : V1 / vt m = V2 / vt m).
  { pose proof (F _ E1). pose proof (F _ E2). destruct (Rtotal_order (V1 / vt m) (V2 / vt m)) as [K|[K|K]]; auto;
      apply ST in K; auto; lra. }
  assert (CUR : pv_current m V1 = Np m * Irs * (exp (V1 / vt m) * (V1 / vt m))).
  { unfold pv_current. pose proof (F _ E1) as K. set (x := V1 / vt m) in *.
    assert (Iph_calc m = Irs * (exp x * (1 + x)) - Irs) by (rewrite K; field; lra). nra. }
  split; [|split].
  - apply (f_equal (fun z => z * vt m)) in EQ. unfold Rdiv in EQ. rewrite !Rmult_assoc, Rinv_l in EQ by lra. lra.
  - rewrite CUR. pose proof (exp_pos (V1 / vt m)). specialize (N _ P1).
    apply Rmult_le_pos; apply Rmult_le_pos; lra.
  - intros SP. assert (IP : 0 < Iph_calc m).
    { destruct H as (a & b & c & d). unfold Iph_calc, Iscr, Kv, T0. apply Rmult_lt_0_compat; lra. }
    assert (0 < V1 / vt m).
    { destruct (N _ P1) as [K|K]; auto. pose proof (F _ E1) as G. rewrite <- K, exp_0 in G.
      assert (1 < (Iph_calc m + Irs) / Irs); [|lra]. apply Rmult_lt_reg_r with Irs; auto. unfold Rdiv. rewrite Rmult_assoc, Rinv_l by lra. lra. }
    split.
    + destruct P1 as [K|K]; auto. rewrite <- K in *. unfold Rdiv in *. lra.
    + rewrite CUR. pose proof (exp_pos (V1 / vt m)). apply Rmult_lt_0_compat; apply Rmult_lt_0_compat; lra.
Qed.
Print Assumptions C69_mpp_unique_inside_open_circuit.

(** The MPP equation really has a root for every admissible module
    (the hypotheses above are met). *)
Theorem C69_mpp_root_exists :
  forall m, module_ok m -> exists V, 0 <= V /\ mpp_equation m V = 0.
Proof.
  intros m H. destruct (vt_pos m H) as [A B]. pose proof (Iph_nonneg m H) as HI.
  assert (HN : 1 <= Np m) by (destruct H; auto). assert (IR : 0 < Irs) by (unfold Irs; lra).
  set (c := (Iph_calc m + Irs) / Irs).
  assert (Hc : 1 <= c).
  { unfold c. apply Rmult_le_reg_r with Irs; auto. unfold Rdiv. rewrite Rmult_assoc, Rinv_l by lra. lra. }
  assert (CT : continuity (fun x => exp x * (1 + x) - c)).
  { apply continuity_minus; [|apply continuity_const; intros ? ?; reflexivity].
    apply continuity_mult; [apply derivable_continuous, derivable_exp|].
    apply continuity_plus; [apply continuity_const; intros ? ?; reflexivity|apply derivable_continuous, derivable_id]. }
  destruct (IVT_cor (fun x => exp x * (1 + x) - c) 0 c CT) as [x [[X0 X1] X2]]; [lra| |].
  - cbv beta. rewrite exp_0. pose proof (exp_ineq1_le c). assert (1 + c <= exp c * (1 + c)) by nra. nra.
  - exists (x * vt m). split; [apply Rmult_le_pos; lra|].
    unfold mpp_equation. rewrite arg_eq by auto. replace (x * vt m / vt m) with x by (field; lra).
    assert (Q : q_charge / (k_boltz * Tactual m * A_ideal * Ns m) * (x * vt m) = x).
    { transitivity (q_charge * (x * vt m) / (k_boltz * Tactual m * A_ideal * Ns m)); [unfold Rdiv; ring|]. rewrite arg_eq by auto. field. lra. }
    rewrite !(Rmult_assoc (Np m * Irs * exp x)). rewrite Q.
    assert (Iph_calc m = Irs * (exp x * (1 + x)) - Irs).
    { replace (exp x * (1 + x)) with c by lra. unfold c. field. lra. }
    nra.
Qed.
Print Assumptions C69_mpp_root_exists.

(** * C70: configured insolation.
    Claim: after construction the module works with the configured insolation.
    With MPPT every module starts at 100 W/m2 (per cent) and 298.15 K instead. *)
Theorem C70_configured_insolation_refuted :
  (forall np ns S T, Sinsol (pv_init np ns S T true) = 100 /\ Tactual (pv_init np ns S T true) = 298 + 15/100 /\
     Np (pv_init np ns S T true) = np /\ Ns (pv_init np ns S T true) = ns) /\
  exists np ns S T, module_ok (PVM np ns S T) /\
    Sinsol (pv_init np ns S T true) <> S /\ Tactual (pv_init np ns S T true) <> T /\
    Iph_calc (pv_init np ns S T true) <> Iph_calc (PVM np ns S T).
Proof.
  split; [intros np ns S T; unfold pv_init, fit_MPP_poly; cbn [Np Ns Sinsol Tactual]; repeat split; lra|].
  exists 11, 735, 50, 300. unfold module_ok, pv_init, fit_MPP_poly, Iph_calc, Iscr, Kv, T0. cbn [Np Ns Sinsol Tactual]. lra.
Qed.
Print Assumptions C70_configured_insolation_refuted.

(** Without MPPT it does; and in either case the first update with the event
    values installs exactly those. *)
Theorem C70_configured_insolation_partial :
  forall np ns S T, 
  Sinsol (pv_init np ns S T false) = S /\ Tactual (pv_init np ns S T false) = T /\
  (forall mppt S' T' V, let m := fst (update_Ppv (pv_init np ns S T mppt) S' T' V) in
     Sinsol m = S' /\ Tactual m = T' /\ Np m = np /\ Ns m = ns /\
     snd (update_Ppv (pv_init np ns S T mppt) S' T' V) = Ppv_calc (PVM np ns S' T') V).
Proof.
  intros np ns S T. split; [reflexivity|]. split; [reflexivity|]. intros mppt S' T' V.
  assert (forall m, update_Ppv m S' T' V = (PVM (Np m) (Ns m) S' T', Ppv_calc (PVM (Np m) (Ns m) S' T') V)).
  { intros [a b s t]. unfold update_Ppv. cbn [Np Ns Sinsol Tactual].
    destruct (negb _ || _)%bool eqn:E; auto. rb.
    assert (s = S') by (unfold Rabs in *; destruct (Rcase_abs _); lra).
    assert (t = T') by (unfold Rabs in *; repeat destruct (Rcase_abs _); lra). subst. reflexivity. }
  rewrite H. cbv zeta. destruct mppt; cbn; auto.
Qed.
Print Assumptions C70_configured_insolation_partial.
