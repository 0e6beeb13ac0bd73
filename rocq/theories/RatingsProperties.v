(** Properties C81-C83 (ratings, per-unit conversion, external voltage), C87. *)
From Verif Require Import RBase CxField PhasorModel PVModel ODEModel PhasorProperties PhasorProperties2 RatingsModel.
Open Scope R_scope.

Lemma sqrt2_pos : 0 < sqrt 2.
Proof. apply sqrt_lt_R0. lra. Qed.
Lemma Rabs_le_inv x a : Rabs x <= a -> - a <= x <= a.
Proof. unfold Rabs. destruct (Rcase_abs x); lra. Qed.
Lemma sqrt2_sq : sqrt 2 * sqrt 2 = 2.
Proof. apply sqrt_sqrt. lra. Qed.

(** * C81 *)
(** The rated line-to-ground amplitude in volts. *)
Definition rated_amplitude (Vrms : R) : R := sqrt 2 * Vrms.
(** What the ratings have to satisfy: the externally supplied voltage (volts) is
    within 10 percent of the rated amplitude, and the inverter can produce the
    rated amplitude with the allowed duty cycle [m] at the rated and at the lowest
    DC voltage. *)
Definition feasible (standAlone : bool) (v_volts : cx) (m : R) (r : rat) : Prop :=
  (standAlone = false -> Rabs (cabs v_volts - rated_amplitude (r_Vrms r)) <= 1/10 * rated_amplitude (r_Vrms r)) /\
  rated_amplitude (r_Vrms r) <= m * (r_Vdc r / 2) /\
  rated_amplitude (r_Vrms r) <= m * (r_mppmin r / 2).

Lemma cabs_scale k z : cabs (cscale k z) = Rabs k * cabs z.
Proof.
  unfold cabs. replace (cnorm2 (cscale k z)) with ((k * k) * cnorm2 z) by (unfold cnorm2, cscale; cbn [re im]; ring).
  rewrite sqrt_mult; [|nra|apply cnorm2_nonneg]. f_equal. apply sqrt_Rsqr_abs.
Qed.

Lemma check_voltage_iff : forall sa v m r i, 0 < r_Vrms r -> initialize_inverter_ratings r = Ok i ->
  (feasible sa v m r -> check_voltage sa (initial_grid_voltage v) m r i = Ok tt) /\
  (~ feasible sa v m r -> check_voltage sa (initial_grid_voltage v) m r i = Raise ValueError).
Proof.
  intros sa v m r i Hv Hi. pose proof sqrt2_pos as S2.
  unfold initialize_inverter_ratings, py_div in Hi. destruct (req _ 0); cbn [bindR] in Hi; [discriminate|].
  match type of Hi with Ok ?x = Ok _ => assert (Ei : i = x) by congruence end. clear Hi.
  set (A := rated_amplitude (r_Vrms r)). assert (PA' : 0 < A) by (unfold A, rated_amplitude; nra).
  assert (EA : Varated i = A) by (rewrite Ei; cbn; unfold A, rated_amplitude; ring).
  assert (EN : Vanominal i = A / Vbase) by (rewrite Ei; cbn; unfold A, rated_amplitude; f_equal; ring).
  assert (G : sa = false -> (rlt (1/10) (Rabs (cabs (initial_grid_voltage v) - Vanominal i) / Vanominal i) = false <->
                              Rabs (cabs v - A) <= 1/10 * A)).
  { intros _. rewrite EN. unfold initial_grid_voltage. rewrite cabs_scale.
    replace (Rabs (1 / Vbase)) with (1 / Vbase) by (symmetry; apply Rabs_right; unfold Vbase; lra).
    replace (1 / Vbase * cabs v - A / Vbase) with ((cabs v - A) * (1 / Vbase)) by (unfold Vbase; field).
    rewrite Rabs_mult. replace (Rabs (1 / Vbase)) with (1 / Vbase) by (symmetry; apply Rabs_right; unfold Vbase; lra).
    replace (Rabs (cabs v - A) * (1 / Vbase) / (A / Vbase)) with (Rabs (cabs v - A) / A) by (unfold Vbase; field; lra).
    rewrite rlt_false. set (d := Rabs (cabs v - A)). clearbody d. split; intros H.
    - apply (Rmult_le_compat_r A) in H; [|lra]. unfold Rdiv in H. rewrite Rmult_assoc, Rinv_l in H by lra. lra.
    - apply (Rmult_le_reg_r A); [lra|]. unfold Rdiv. rewrite Rmult_assoc, Rinv_l by lra. lra. }
  unfold check_voltage, feasible, py_div. fold A. rewrite EA.
  assert (N0 : req (Vanominal i) 0 = false) by (apply req_false; rewrite EN; unfold Vbase; lra).
  rewrite N0. cbn [bindR].
  assert (S : (rlt (m * (r_Vdc r / 2)) A = false <-> A <= m * (r_Vdc r / 2)) /\ (rlt (m * (r_mppmin r / 2)) A = false <-> A <= m * (r_mppmin r / 2)))
    by (split; apply rlt_false).
  destruct S as [S1 S3].
  destruct sa; cbn [bindR].
  - destruct (rlt (m * (r_Vdc r / 2)) A) eqn:E1; destruct (rlt (m * (r_mppmin r / 2)) A) eqn:E2; rb; split; intros F; auto; exfalso;
      try (destruct F as (_ & F1 & F2); lra); apply F; repeat split; try discriminate; lra.
  - specialize (G eq_refl).
    destruct (rlt (1/10) _) eqn:E0.
    + split; intros F; auto. exfalso. destruct F as (F & _). apply G in F; auto. discriminate.
    + destruct (rlt (m * (r_Vdc r / 2)) A) eqn:E1; destruct (rlt (m * (r_mppmin r / 2)) A) eqn:E2; rb; split; intros F; auto; exfalso;
      try (destruct F as (_ & F1 & F2); lra); apply F; repeat split; try (intros _; now apply G); lra.
Qed.

(** The constructor accepts the ratings only if they are feasible, and rejects
    infeasible ones with ValueError. *)
Theorem C81_infeasible_ratings_rejected :
  forall sa v m r c, 0 < r_Vrms r -> r_n r <> 0 ->
  (forall x, initialize_DER_model sa (initial_grid_voltage v) m r c = Ok x -> feasible sa v m r) /\
  (~ feasible sa v m r -> initialize_DER_model sa (initial_grid_voltage v) m r c = Raise ValueError).
Proof.
  intros sa v m r c Hv Hn. pose proof sqrt2_pos as S2.
  assert (Hi : exists i, initialize_inverter_ratings r = Ok i).
  { unfold initialize_inverter_ratings, py_div.
    assert (N : req (r_n r * (r_Vrms r * sqrt 2 / sqrt 2)) 0 = false).
    { apply req_false. replace (r_Vrms r * sqrt 2 / sqrt 2) with (r_Vrms r) by (field; lra). intros H. apply Rmult_integral in H. lra. }
    rewrite N. cbn [bindR]. eauto. }
  destruct Hi as [i Hi]. destruct (check_voltage_iff sa v m r i Hv Hi) as [C1 C2].
  unfold initialize_DER_model. rewrite Hi. cbn [bindR]. split.
  - intros x H. destruct (Classical_Prop.classic (feasible sa v m r)) as [F|F]; auto.
    rewrite (C2 F) in H. discriminate.
  - intros F. rewrite (C2 F). reflexivity.
Qed.
Print Assumptions C81_infeasible_ratings_rejected.

(** What acceptance is good for: at any DC voltage from the lowest MPP voltage
    upwards, and at the rated one, the rated amplitude can be produced at any angle
    with a duty cycle of magnitude at most [m]. *)
Theorem C81_rated_voltage_reachable :
  forall sa v m r c x V angle, 0 < r_Vrms r -> r_n r <> 0 -> 0 < m -> 0 < r_mppmin r -> 0 < r_Vdc r ->
  initialize_DER_model sa (initial_grid_voltage v) m r c = Ok x ->
  (r_mppmin r <= V \/ V = r_Vdc r) ->
  exists d, cabs d <= m /\ cscale (V / 2) d = crect (rated_amplitude (r_Vrms r)) angle.
Proof.
  intros sa v m r c x V th Hv Hn Hm Hp Hd Hx HV. pose proof sqrt2_pos as S2.
  destruct (proj1 (C81_infeasible_ratings_rejected sa v m r c Hv Hn) x Hx) as (_ & F1 & F2).
  set (A := rated_amplitude (r_Vrms r)) in *. assert (PA' : 0 < A) by (unfold A, rated_amplitude; nra). clearbody A.
  assert (HV2 : A <= m * (V / 2) /\ 0 < V) by (destruct HV as [HV|HV]; split; subst; try lra; nra).
  destruct HV2 as [H2 H3].
  exists (crect (A / (V / 2)) th). split.
  - unfold crect. rewrite cabs_scale, cabs_cexp, Rmult_1_r, Rabs_right.
    + apply (Rmult_le_reg_r (V / 2)); [lra|]. unfold Rdiv at 1. rewrite Rmult_assoc, Rinv_l by lra. lra.
    + apply Rle_ge. apply Rlt_le. apply Rdiv_lt_0_compat; lra.
  - unfold crect, cscale. cbn [re im]. apply cx_eq; cbn [re im]; field; lra.
Qed.
Print Assumptions C81_rated_voltage_reachable.

(** Refuted for negative ratings: a negative rated voltage passes the check at any
    grid voltage. *)
Theorem C81_negative_rating_refuted :
  forall sa v m r i, r_Vrms r < 0 -> 0 <= m -> 0 <= r_Vdc r -> 0 <= r_mppmin r -> initialize_inverter_ratings r = Ok i ->
  check_voltage sa v m r i = Ok tt.
Proof.
  intros sa v m r i Hv Hm Hd Hp Hi. pose proof sqrt2_pos as S2.
  unfold initialize_inverter_ratings, py_div in Hi. destruct (req _ 0); cbn [bindR] in Hi; [discriminate|].
  match type of Hi with Ok ?x = Ok _ => assert (Ei : i = x) by congruence end. clear Hi.
  assert (EA : Varated i < 0) by (rewrite Ei; cbn; nra).
  assert (EN : Vanominal i < 0) by (rewrite Ei; cbn in *; rewrite Ei in EA; cbn in EA; unfold Vbase; lra).
  unfold check_voltage, py_div. assert (N0 : req (Vanominal i) 0 = false) by (apply req_false; lra). rewrite N0. cbn [bindR].
  assert (L1 : rlt (m * (r_Vdc r / 2)) (Varated i) = false) by (apply rlt_false; nra).
  assert (L2 : rlt (m * (r_mppmin r / 2)) (Varated i) = false) by (apply rlt_false; nra).
  rewrite L1, L2. destruct sa; cbn [bindR]; auto.
  assert (L3 : rlt (1/10) (Rabs (cabs v - Vanominal i) / Vanominal i) = false).
  { apply rlt_false. pose proof (Rabs_pos (cabs v - Vanominal i)).
    assert (/ Vanominal i < 0) by (apply Rinv_lt_0_compat; lra). unfold Rdiv. nra. }
  rewrite L3. reflexivity.
Qed.
Print Assumptions C81_negative_rating_refuted.

(** The template ratings of SolarPVDERThreePhase, at 0.96: accepted; at duty cycle
    0.9 rejected. *)
Definition rat50 : rat := Rat 50000 550 177 (13/10) 1 1 525 3.
Definition circ50 : circ_in := CircIn (2/1000) (25/1000000) (300/1000000) (Cx (19/10000) (561/10000)) (Cx 10000000 0).
Lemma sqrt2_bounds : 14142/10000 < sqrt 2 < 14143/10000.
Proof. split; [apply Rsqr_incrst_0|apply Rsqr_incrst_0]; unfold Rsqr; try rewrite sqrt2_sq; try lra; pose proof sqrt2_pos; lra. Qed.
Example C81_hypotheses_met :
  0 < r_Vrms rat50 /\ r_n rat50 <> 0 /\ feasible false (Cx 250 0) (96/100) rat50 /\ ~ feasible false (Cx 250 0) (9/10) rat50 /\
  ~ feasible false (Cx 200 0) (96/100) rat50 /\
  exists x, initialize_DER_model false (initial_grid_voltage (Cx 250 0)) (96/100) rat50 circ50 = Ok x.
Proof.
  pose proof sqrt2_bounds as B. pose proof sqrt2_pos as S2.
  assert (A : forall a, 0 <= a -> cabs (Cx a 0) = a).
  { intros a Ha. unfold cabs, cnorm2. cbn [re im]. replace (a * a + 0 * 0) with (a * a) by ring. apply sqrt_square. auto. }
  split; [cbn; lra|]. split; [cbn; lra|].
  assert (F : feasible false (Cx 250 0) (96/100) rat50).
  { unfold feasible, rated_amplitude. cbn. rewrite A by lra. split; [|lra]. intros _. rewrite Rabs_left; lra. }
  split; [exact F|]. split.
  - unfold feasible, rated_amplitude. cbn. lra.
  - split.
    + unfold feasible, rated_amplitude. cbn. rewrite A by lra. intros (H & _). specialize (H eq_refl). rewrite Rabs_left in H; lra.
    + unfold initialize_DER_model.
      assert (Hi : exists i, initialize_inverter_ratings rat50 = Ok i /\ Iarated i = 50000 / (3 * 177) * sqrt 2).
      { unfold initialize_inverter_ratings, py_div.
        assert (E : r_n rat50 * (r_Vrms rat50 * sqrt 2 / sqrt 2) = 3 * 177) by (cbn; field; lra). rewrite E.
        assert (N : req (3 * 177) 0 = false) by (apply req_false; lra). rewrite N. cbn [bindR]. eexists. split; [reflexivity|]. reflexivity. }
      destruct Hi as (i & Hi & HI). rewrite Hi. cbn [bindR].
      rewrite (proj1 (check_voltage_iff false (Cx 250 0) (96/100) rat50 i ltac:(cbn; lra) Hi) F). cbn [bindR initialize_circuit_parameters].
      unfold check_circuit_parameters, py_div, fswitching. rewrite HI. cbn [r_Vdc rat50 ci_Lf ci_C circ50].
      repeat match goal with |- context [req ?x 0] => assert (req x 0 = false) as -> by (apply req_false; lra); cbn [bindR] end.
      eexists; reflexivity.
Qed.

(** * C82: per-unit conversion *)
(** Multiplying by the bases gives back the configured values; the filter impedance
    and the line impedance agree with their resistances and inductances at nominal
    frequency. *)
Theorem C82_per_unit_values :
  forall sa va m r c i z, initialize_DER_model sa va m r c = Ok (i, z) ->
  Snominal i * Sbase = r_S r /\ Vdcnominal i * Vbase = r_Vdc r /\ Vrms_ref i * Vbase = r_Vrms r /\
  Vanominal i * Vbase = rated_amplitude (r_Vrms r) /\
  c_Rf z * Zbase = ci_Rf c /\ c_Lf z * Lbase = ci_Lf c /\ c_C z * Cbase = ci_C c /\
  c_Xf z = c_Lf z /\ c_Zf z = Cx (c_Rf z) (c_Xf z) /\
  (* the per-unit capacitance is its susceptance at nominal frequency times the base impedance *)
  c_C z = wbase * ci_C c * Zbase /\
  cscale Zbase (c_Z1 z) = ci_Z1 c /\ c_Z1 z = Cx (c_R1 z) (c_L1 z) /\
  cscale Zbase (c_Zload z) = (if sa then ci_Zload c else Cx 10000000 0) /\ re (c_Zload z) = c_Rload z /\
  (* the transformer refers the rated grid voltage to the rated DER voltage *)
  (forall a, c_a z = Some a -> sa = true /\ 20415 / 500 = a * Vanominal i).
Proof.
  intros sa va m r c i z H. pose proof sqrt2_pos as S2. pose proof PI_RGT_0 as HP.
  assert (W : 0 < wbase) by (unfold wbase; lra).
  unfold initialize_DER_model in H. destruct (initialize_inverter_ratings r) as [i0|] eqn:Hi; cbn [bindR] in H; [|discriminate].
  destruct (check_voltage sa va m r i0); cbn [bindR] in H; [|discriminate].
  destruct (initialize_circuit_parameters sa i0 c) as [z0|] eqn:Hz; cbn [bindR] in H; [|discriminate].
  destruct (check_circuit_parameters r i0 c); cbn [bindR] in H; [|discriminate].
  assert (i0 = i) by congruence. assert (z0 = z) by congruence. subst i0 z0. clear H.
  unfold initialize_inverter_ratings, py_div in Hi. destruct (req _ 0); cbn [bindR] in Hi; [discriminate|].
  match type of Hi with Ok ?x = Ok _ => assert (Ei : i = x) by congruence end. clear Hi.
  unfold initialize_circuit_parameters in Hz.
  match type of Hz with bindR ?q _ = _ => destruct q as [oa|] eqn:Ha end; cbn [bindR] in Hz; [|discriminate].
  match type of Hz with Ok ?x = Ok _ => assert (Ez : z = x) by congruence end. clear Hz.
  assert (EZ : Zbase = 5) by (unfold Zbase, Vbase, Sbase; field).
  assert (EL : Lbase <> 0) by (unfold Lbase; rewrite EZ; apply Rgt_not_eq; apply Rdiv_lt_0_compat; lra).
  assert (EC : Cbase <> 0) by (unfold Cbase; rewrite EZ; apply Rgt_not_eq; apply Rdiv_lt_0_compat; nra).
  assert (Wd : wbase = 2 * PI * 60) by reflexivity.
  rewrite Ei, Ez. cbn [Snominal Vdcnominal Vrms_ref Vanominal c_Rf c_Lf c_C c_Xf c_Zf c_Z1 c_R1 c_L1 c_Zload c_Rload c_a].
  split; [unfold Sbase; field|]. split; [unfold Vbase; field|]. split; [unfold Vbase; field; lra|].
  split; [unfold rated_amplitude, Vbase; field|].
  split; [rewrite EZ; field|]. split; [field; auto|]. split; [field; auto|].
  split; [unfold Lbase; rewrite EZ; field; lra|].
  split; [apply cx_eq; cbn [re im cscale]; rewrite EZ; field|].
  split; [unfold Cbase; rewrite EZ; field; lra|].
  split; [rewrite EZ; destruct (ci_Z1 c) as [z1 z2]; apply cx_eq; cbn [re im cscale]; field|].
  split; [destruct (ci_Z1 c) as [z1 z2]; apply cx_eq; cbn [re im cscale]; unfold Lbase; rewrite EZ, ?Wd; field; lra|].
  split; [rewrite EZ; match goal with |- cscale 5 (cscale _ ?q) = ?q => destruct q as [q1 q2] end; apply cx_eq; cbn [re im cscale]; field|].
  split; [cbn [re im cscale]; rewrite EZ; field|].
  intros a' Ea. destruct sa; [|congruence]. split; auto.
  rewrite Ei in Ha. cbn [Varated] in Ha. unfold py_div in Ha. destruct (req (r_Vrms r * sqrt 2) 0) eqn:E0; cbn [bindR] in Ha; [discriminate|].
  rb. assert (a' = Vgridrated / (r_Vrms r * sqrt 2)) by congruence. subst a'. unfold Vbase, Vgridrated. field. repeat split; try lra; intros Z; rewrite Z in E0; lra.
Qed.
Print Assumptions C82_per_unit_values.

(** The current limits: at rated voltage the rated current carries the rated power
    and the reference limit the overload factor times that, in per unit. *)
Theorem C82_rated_current :
  forall r i, initialize_inverter_ratings r = Ok i -> r_S r <> 0 ->
  r_n r * (1/2 * (Varated i * Iarated i)) = r_S r /\
  r_n r * (1/2 * (Vanominal i * iref_lim i)) = r_Iov r * Snominal i /\
  iR_grad i * r_Iov r = r_gR r * iref_lim i /\ iI_grad i * r_Iov r = r_gI r * iref_lim i.
Proof.
  intros r i Hi _. pose proof sqrt2_pos as S2. pose proof sqrt2_sq as Q.
  unfold initialize_inverter_ratings, py_div in Hi. destruct (req _ 0) eqn:E0; cbn [bindR] in Hi; [discriminate|].
  match type of Hi with Ok ?x = Ok _ => assert (Ei : i = x) by congruence end. clear Hi.
  assert (E : r_Vrms r * sqrt 2 / sqrt 2 = r_Vrms r) by (field; lra). rewrite E in *. rb.
  assert (N1 : r_n r <> 0) by (intros Z; rewrite Z in E0; lra). assert (N2 : r_Vrms r <> 0) by (intros Z; rewrite Z in E0; lra).
  rewrite Ei. cbn. unfold Ibase, Vbase, Sbase.
  set (q := sqrt 2) in *. clearbody q. split; [|split; [|split]].
  - transitivity (r_S r * (q * q) / 2); [field; auto|]. rewrite Q. field.
  - transitivity (r_Iov r * (r_S r / 50000) * (q * q) / 2); [field; auto|]. rewrite Q. field.
  - field; auto.
  - field; auto.
Qed.
Print Assumptions C82_rated_current.

(** Refuted for the load: the load inductance is taken from the line impedance. *)
Theorem C82_load_inductance_refuted :
  forall sa i c z, initialize_circuit_parameters sa i c = Ok z ->
  (c_Lload z = c_L1 z) /\
  (im (if sa then ci_Zload c else Cx 10000000 0) <> im (ci_Z1 c) -> im (c_Zload z) <> c_Lload z).
Proof.
  intros sa i c z Hz. pose proof PI_RGT_0 as HP.
  unfold initialize_circuit_parameters in Hz.
  match type of Hz with bindR ?q _ = _ => destruct q as [oa|] eqn:Ha end; cbn [bindR] in Hz; [|discriminate].
  match type of Hz with Ok ?x = Ok _ => assert (Ez : z = x) by congruence end. rewrite Ez. split; [reflexivity|].
  cbn [c_Lload c_Zload im cscale]. set (y := im (if sa then _ else _)). clearbody y. intros N E. apply N.
  assert (EZ : Zbase = 5) by (unfold Zbase, Vbase, Sbase; field).
  unfold Lbase in E. rewrite EZ in E. unfold wbase in E. apply (Rmult_eq_reg_l (1/5)); [|lra]. rewrite E. field. lra.
Qed.
Print Assumptions C82_load_inductance_refuted.

(** * C83 *)
(** Refuted: the voltage given at construction is in volts, the one given to each
    run is taken as per unit: passing the voltage the DER was accepted with to a run
    gives a PCC voltage more than 400 times the rated one. *)
Theorem C83_voltage_units_refuted :
  forall v m r c i z p e, 0 < r_Vrms r -> r_n r <> 0 ->
  initialize_DER_model false (initial_grid_voltage v) m r c = Ok (i, z) ->
  e_grid e = None -> e_va e = updated_grid_voltage v ->
  forall cur, 400 * Vanominal i < cabs (v_calc p e PA cur).
Proof.
  intros v m r c i z p e Hv Hn H He Ha cur. pose proof sqrt2_pos as S2.
  destruct (proj1 (C81_infeasible_ratings_rejected false v m r c Hv Hn) _ H) as (F & _). specialize (F eq_refl).
  destruct (C82_per_unit_values _ _ _ _ _ _ _ H) as (_ & _ & _ & EN & _).
  assert (PA' : 0 < rated_amplitude (r_Vrms r)) by (unfold rated_amplitude; nra).
  unfold v_calc. rewrite He, Ha. unfold updated_grid_voltage. unfold Vbase in EN.
  apply Rabs_le_inv in F. lra.
Qed.
Print Assumptions C83_voltage_units_refuted.
(** What holds: when the voltage passed to a run is converted with the base
    voltage, the PCC voltage is the one the DER was accepted with. *)
Theorem C83_converted_voltage_partial :
  forall v m r c i z p e, 0 < r_Vrms r -> r_n r <> 0 ->
  initialize_DER_model false (initial_grid_voltage v) m r c = Ok (i, z) ->
  e_grid e = None -> e_va e = updated_grid_voltage (cscale (1 / Vbase) v) ->
  forall cur, Rabs (cabs (v_calc p e PA cur) - Vanominal i) <= 1/10 * Vanominal i.
Proof.
  intros v m r c i z p e Hv Hn H He Ha cur. pose proof sqrt2_pos as S2.
  destruct (proj1 (C81_infeasible_ratings_rejected false v m r c Hv Hn) _ H) as (F & _). specialize (F eq_refl).
  destruct (C82_per_unit_values _ _ _ _ _ _ _ H) as (_ & _ & _ & EN & _).
  unfold v_calc. rewrite He, Ha. unfold updated_grid_voltage. rewrite cabs_scale.
  unfold Vbase in *. rewrite (Rabs_right (1/500)) by lra.
  apply Rabs_le_inv in F. apply Rabs_le. lra.
Qed.
Print Assumptions C83_converted_voltage_partial.
