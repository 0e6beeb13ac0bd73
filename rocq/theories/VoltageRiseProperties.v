(** C140: how much a DER changes the voltage at its connection point. *)
From Coquelicot Require Import Coquelicot.
From Verif Require Import RBase CxField PhasorModel PVModel ODEModel Const3Model PhasorProperties PhasorProperties2 CircuitProperties2 CircuitProperties3 PLLProperties FilterProperties BoundProofs BoundProperties SettleProofs SettleProperties SettleProperties2 EnergyProperties.
Import RBase.
Open Scope R_scope.

(** * Specification *)
(** voltage of a phase at the connection point with the DER's current, and the voltage
    there would be without any current *)
Definition with_DER (p : prm) (e : env) (y : st) (ph : phase) : cx := v_calc p e ph (i_of y ph).
Definition without_DER (p : prm) (e : env) (ph : phase) : cx := v_calc p e ph (Cx 0 0).
(** active and reactive power the DER delivers into a phase; resistance and reactance
    of the source impedance *)
Definition active (p : prm) (e : env) (y : st) (ph : phase) : R := re (S_ph (with_DER p e y ph) (i_of y ph)).
Definition reactive (p : prm) (e : env) (y : st) (ph : phase) : R := im (S_ph (with_DER p e y ph) (i_of y ph)).
Definition r_s (p : prm) (e : env) : R := re (source_impedance p e).
Definition x_s (p : prm) (e : env) : R := im (source_impedance p e).
(** sum of the squared voltages over the phases of the DER *)
Definition sum_phases (k : kind) (f : phase -> R) : R :=
  match k with SinglePhase | SingleConst => f PA | ThreePhase | ThreeConst => f PA + f PB + f PC | Balanced => 3 * f PA end.

(** * Proofs *)
Lemma thevenin p e y ph : passive p e -> with_DER p e y ph = cadd (without_DER p e ph) (cmul (source_impedance p e) (i_of y ph)).
Proof.
  intros H. unfold with_DER, without_DER. rewrite (v_calc_affine p e ph _ (Cx 0 0) H). f_equal. f_equal.
  destruct (i_of y ph) as [a b]. unfold csub, cadd, cneg. apply cx_eq; cbn [re im]; ring.
Qed.

(** The voltage changes by exactly the source impedance times the current. *)
Theorem C140_voltage_change : forall p e y ph, passive p e ->
  cabs (csub (with_DER p e y ph) (without_DER p e ph)) = cabs (source_impedance p e) * cabs (i_of y ph).
Proof.
  intros p e y ph H. rewrite <- cabs_mul, (thevenin p e y ph H). f_equal.
  destruct (cmul (source_impedance p e) (i_of y ph)) as [a b], (without_DER p e ph) as [c d]. unfold csub, cadd, cneg. apply cx_eq; cbn [re im]; ring.
Qed.
Print Assumptions C140_voltage_change.

(** The magnitude changes by at most that much. *)
Theorem C140_voltage_band : forall p e y ph, passive p e ->
  Rabs (cabs (with_DER p e y ph) - cabs (without_DER p e ph)) <= cabs (source_impedance p e) * cabs (i_of y ph).
Proof.
  intros p e y ph H. rewrite <- cabs_mul. pose proof (thevenin p e y ph H) as T.
  set (d := cmul (source_impedance p e) (i_of y ph)) in *.
  pose proof (cabs_add_le (without_DER p e ph) d) as A. rewrite <- T in A.
  pose proof (cabs_triangle_sub (with_DER p e y ph) d) as B.
  assert (Q : csub (with_DER p e y ph) d = without_DER p e ph).
  { rewrite T. destruct d as [u v], (without_DER p e ph) as [g h]. unfold csub, cadd, cneg. apply cx_eq; cbn [re im]; ring. }
  rewrite Q in B. apply Rabs_le. lra.
Qed.
Print Assumptions C140_voltage_band.

(** Exact relation of voltage and power in a phase (amplitudes, so that power is half
    the product of voltage and current). *)
Theorem C140_voltage_and_power : forall p e y ph, passive p e ->
  cabs (with_DER p e y ph) ^ 2 - cabs (without_DER p e ph) ^ 2 =
    4 * (r_s p e * active p e y ph + x_s p e * reactive p e y ph) - cabs (source_impedance p e) ^ 2 * cabs (i_of y ph) ^ 2.
Proof.
  intros p e y ph H. unfold r_s, x_s, active, reactive. rewrite (thevenin p e y ph H), !sqr_cabs.
  destruct (source_impedance p e) as [r x], (without_DER p e ph) as [g h], (i_of y ph) as [a b].
  unfold S_ph, cscale, cmul, cadd, conj. cbn [re im]. field.
Qed.
Print Assumptions C140_voltage_and_power.

(** The same for the DER as a whole, in terms of the power it reports. *)
Theorem C140_voltage_and_power_total : forall p k e y, passive p e ->
  sum_phases k (fun ph => cabs (with_DER p e y ph) ^ 2) - sum_phases k (fun ph => cabs (without_DER p e ph) ^ 2) =
    4 * (r_s p e * re (S_pcc p k e y) + x_s p e * im (S_pcc p k e y)) - cabs (source_impedance p e) ^ 2 * sum_phases k (fun ph => cabs (i_of y ph) ^ 2).
Proof.
  intros p k e y H. pose proof (C140_voltage_and_power p e y PA H) as A. pose proof (C140_voltage_and_power p e y PB H) as B. pose proof (C140_voltage_and_power p e y PC H) as C.
  unfold active, reactive, with_DER in *.
  destruct k; unfold sum_phases, S_pcc, sum3; cbn [cadd re im]; rewrite ?S_rot;
    try (unfold cadd; cbn [re im]; lra).
Qed.
Print Assumptions C140_voltage_and_power_total.

Lemma sq_le_cabs u v : cabs u ^ 2 <= cabs v ^ 2 -> cabs u <= cabs v.
Proof. intros H. pose proof (cabs_nonneg u). pose proof (cabs_nonneg v). destruct (Rle_lt_dec (cabs u) (cabs v)); [auto|nra]. Qed.
Lemma sq_lt_cabs u v : cabs u ^ 2 < cabs v ^ 2 -> cabs u < cabs v.
Proof. intros H. pose proof (cabs_nonneg u). pose proof (cabs_nonneg v). destruct (Rlt_le_dec (cabs u) (cabs v)); [auto|nra]. Qed.

(** A DER raises the voltage of a phase only if it delivers active power into the source
    resistance or reactive power into the source reactance. *)
Theorem C140_no_rise_without_power : forall p e y ph, passive p e ->
  r_s p e * active p e y ph + x_s p e * reactive p e y ph <= 0 -> cabs (with_DER p e y ph) <= cabs (without_DER p e ph).
Proof.
  intros p e y ph H K. pose proof (C140_voltage_and_power p e y ph H) as A. apply sq_le_cabs.
  pose proof (pow2_ge_0 (cabs (source_impedance p e) * cabs (i_of y ph))) as N. rewrite Rpow_mult_distr in N. lra.
Qed.
Print Assumptions C140_no_rise_without_power.

(** Absorbing reactive power behind an inductive source, without delivering active power,
    strictly lowers the voltage; so does absorbing active power behind a resistance. *)
Theorem C140_absorbing_lowers_voltage : forall p e y ph, passive p e ->
  active p e y ph <= 0 -> reactive p e y ph <= 0 -> 0 <= x_s p e ->
  (0 < x_s p e /\ reactive p e y ph < 0 \/ 0 < r_s p e /\ active p e y ph < 0) ->
  cabs (with_DER p e y ph) < cabs (without_DER p e ph).
Proof.
  intros p e y ph H Ka Kq Hx K. pose proof (C140_voltage_and_power p e y ph H) as A. apply sq_lt_cabs.
  pose proof (passive_re p e H) as Hr. fold (r_s p e) in Hr.
  pose proof (pow2_ge_0 (cabs (source_impedance p e) * cabs (i_of y ph))) as N. rewrite Rpow_mult_distr in N.
  assert (r_s p e * active p e y ph + x_s p e * reactive p e y ph < 0) by (destruct K as [[K1 K2]|[K1 K2]]; nra). lra.
Qed.
Print Assumptions C140_absorbing_lowers_voltage.

(** The power a DER can take out of the connection point is limited by the open-circuit
    voltage and the source impedance (maximum power transfer). *)
Theorem C140_power_taken_is_limited : forall p e y ph, passive p e ->
  (0 < r_s p e -> - active p e y ph <= cabs (without_DER p e ph) ^ 2 / (8 * r_s p e)) /\
  (0 < x_s p e -> - reactive p e y ph <= cabs (without_DER p e ph) ^ 2 / (8 * x_s p e)).
Proof.
  intros p e y ph H. unfold active, reactive, r_s, x_s. rewrite (thevenin p e y ph H), !sqr_cabs.
  destruct (source_impedance p e) as [r x], (without_DER p e ph) as [g h], (i_of y ph) as [a b].
  unfold S_ph, cscale, cmul, cadd, conj. cbn [re im].
  split; intros K.
  - apply Rmult_le_reg_r with (8 * r); [lra|]. unfold Rdiv at 2. rewrite Rmult_assoc, Rinv_l by lra.
    assert (0 <= (g + 2 * r * a) ^ 2 + (h + 2 * r * b) ^ 2) by (apply Rplus_le_le_0_compat; apply pow2_ge_0).
    replace (- (1 / 2 * ((g + (r * a - x * b)) * a - (h + (r * b + x * a)) * - b)) * (8 * r)) with (- (4 * r * (g * a + h * b + r * (a * a + b * b)))) by field. nra.
  - apply Rmult_le_reg_r with (8 * x); [lra|]. unfold Rdiv at 2. rewrite Rmult_assoc, Rinv_l by lra.
    assert (0 <= (g - 2 * x * b) ^ 2 + (h + 2 * x * a) ^ 2) by (apply Rplus_le_le_0_compat; apply pow2_ge_0).
    replace (- (1 / 2 * ((g + (r * a - x * b)) * - b + (h + (r * b + x * a)) * a)) * (8 * x)) with (- (4 * x * (h * a - g * b + x * (a * a + b * b)))) by field. nra.
Qed.
Print Assumptions C140_power_taken_is_limited.

(** With an imposed voltage the DER has no influence. *)
Theorem C140_imposed_voltage : forall p e y ph, e_grid e = None -> with_DER p e y ph = without_DER p e ph.
Proof. intros p e y ph H. unfold with_DER, without_DER, v_calc. rewrite H. reflexivity. Qed.
Print Assumptions C140_imposed_voltage.

(** the same network with the load impedance multiplied by s: s < 1 is more load *)
Definition scale_load (s : R) (e : env) : env :=
  Env (e_t e) (e_wgrid e) (e_va e) (e_vb e) (e_vc e)
    (option_map (fun g => Grid_ (vag g) (vbg g) (vcg g) (Z2 g) (cscale s (Zload1 g))) (e_grid e))
    (e_Qref e) (e_Vdcref e) (e_mod e) (e_conn e) (e_Vconst e).
Definition source_of (g : grid) (ph : phase) : cx := match ph with PA => vag g | PB => vbg g | PC => vcg g end.

Lemma without_form p e g ph : e_grid e = Some g -> passive p e -> 
  without_DER p e ph = cmul (cscale (1 / a_tr p) (source_of g ph)) (cdiv (Zload1 g) (cadd (grid_side p g) (Zload1 g))).
Proof.
  intros He H. unfold without_DER, v_calc, passive in *. rewrite He in *. fold (source_of g ph). destruct H as (Ha & _ & _ & Hn).
  unfold v_standalone, grid_side in *. set (vg := source_of g ph).
  rewrite !cscale_mul in *. rewrite !RtoCx_inv in * by (auto; apply Rmult_integral_contrapositive; auto).
  rewrite !RtoCx_mul in *. set (A := RtoCx (a_tr p)) in *.
  assert (HA : A <> C0) by (apply RtoCx_neq0; auto).
  assert (HAA : cmul A A <> C0).
  { unfold A. rewrite <- RtoCx_mul. apply RtoCx_neq0. apply Rmult_integral_contrapositive; auto. }
  assert (D : cadd (cmul (cmul A A) (cadd (Z1 p) (Zload1 g))) (Z2 g) <> C0).
  { intros K. apply Hn. transitivity (cmul (cinv (cmul A A)) (cadd (cmul (cmul A A) (cadd (Z1 p) (Zload1 g))) (Z2 g))); [field; auto|].
    rewrite K. change (Cx 0 0) with C0. ring. }
  assert (D2 : cadd (cadd (Z1 p) (cmul (cinv (cmul A A)) (Z2 g))) (Zload1 g) <> C0) by exact Hn.
  change (Cx 0 0) with C0. field. repeat split; auto.
  intros K. apply D. rewrite <- K. ring.
Qed.

Lemma share_mono z1 z2 s : 0 < s <= 1 -> cadd z1 z2 <> Cx 0 0 -> cadd z1 (cscale s z2) <> Cx 0 0 ->
  0 <= re z1 * re z2 + im z1 * im z2 -> cabs (cdiv (cscale s z2) (cadd z1 (cscale s z2))) <= cabs (cdiv z2 (cadd z1 z2)).
Proof.
  intros Hs H1 H2 Hc. apply sq_le_cabs. pose proof (cnorm2_pos _ H1) as P1. pose proof (cnorm2_pos _ H2) as P2.
  assert (D : forall u v, v <> Cx 0 0 -> cabs (cdiv u v) ^ 2 = cnorm2 u / cnorm2 v).
  { intros u v Hv. pose proof (cnorm2_pos _ Hv) as Pv. unfold cdiv. rewrite sqr_cabs. unfold cmul, cinv. cbn [re im].
    unfold cnorm2 in *. field. lra. }
  rewrite !D by auto. apply Rmult_le_reg_r with (cnorm2 (cadd z1 (cscale s z2)) * cnorm2 (cadd z1 z2)); [apply Rmult_lt_0_compat; auto|].
  replace (cnorm2 (cscale s z2) / cnorm2 (cadd z1 (cscale s z2)) * (cnorm2 (cadd z1 (cscale s z2)) * cnorm2 (cadd z1 z2))) with (cnorm2 (cscale s z2) * cnorm2 (cadd z1 z2)) by (field; lra).
  replace (cnorm2 z2 / cnorm2 (cadd z1 z2) * (cnorm2 (cadd z1 (cscale s z2)) * cnorm2 (cadd z1 z2))) with (cnorm2 z2 * cnorm2 (cadd z1 (cscale s z2))) by (field; lra).
  clear - Hs Hc. destruct z1 as [a b], z2 as [c d]. unfold cnorm2, cscale, cadd. cbn [re im] in *.
  set (n := c * c + d * d). set (q := a * c + b * d) in *. set (m := a * a + b * b).
  assert (Hn : 0 <= n) by (unfold n; nra). assert (Hm : 0 <= m) by (unfold m; nra).
  replace ((s * c * (s * c) + s * d * (s * d)) * ((a + c) * (a + c) + (b + d) * (b + d))) with (n * (s * s * (m + 2 * q + n))) by (unfold n, q, m; ring).
  replace ((a + s * c) * (a + s * c) + (b + s * d) * (b + s * d)) with (m + 2 * s * q + s * s * n) by (unfold n, q, m; ring).
  apply Rmult_le_compat_l; auto. assert (0 <= s * (1 - s)) by nra. assert (0 <= 1 - s * s) by nra. nra.
Qed.

(** More load lowers the open-circuit voltage and the source impedance, when the angle
    between the impedances of the grid side and of the load is at most 90 degrees (as for
    ohmic-inductive lines and loads). *)
Theorem C140_more_load : forall p e g s ph, e_grid e = Some g -> passive p e -> 0 < s <= 1 ->
  0 <= re (grid_side p g) * re (Zload1 g) + im (grid_side p g) * im (Zload1 g) ->
  passive p (scale_load s e) /\
  cabs (without_DER p (scale_load s e) ph) <= cabs (without_DER p e ph) /\
  cabs (source_impedance p (scale_load s e)) <= cabs (source_impedance p e).
Proof.
  intros p e g s ph He H Hs Hc.
  assert (H' : passive p (scale_load s e)).
  { unfold passive in *. cbn [scale_load e_grid]. rewrite He in *. cbn [option_map]. destruct H as (A1 & A2 & A3 & A4).
    change (grid_side p (Grid_ (vag g) (vbg g) (vcg g) (Z2 g) (cscale s (Zload1 g)))) with (grid_side p g). cbn [Zload1].
    repeat split; auto; [cbn [cscale re]; nra|]. intros K. apply A4. destruct (grid_side p g) as [a b], (Zload1 g) as [c d].
    unfold cadd, cscale in *. cbn [re im] in *. injection K as K1 K2. assert (a = - (s * c)) by lra. assert (b = - (s * d)) by lra. subst a b.
    assert (s * (c * c + d * d) <= 0) by nra. assert (Hcc : c * c + d * d <= 0) by nra. assert (c = 0) by nra. assert (d = 0) by nra. subst. apply cx_eq; cbn [re im]; ring. }
  split; [exact H'|].
  assert (He' : e_grid (scale_load s e) = Some (Grid_ (vag g) (vbg g) (vcg g) (Z2 g) (cscale s (Zload1 g)))) by (cbn [scale_load e_grid]; rewrite He; reflexivity).
  rewrite (without_form p e g ph He H), (without_form p _ _ ph He' H'). unfold source_impedance. rewrite He, He'.
  unfold passive in H, H'. rewrite He in H. rewrite He' in H'. destruct H as (_ & _ & _ & Hn), H' as (_ & _ & _ & Hn').
  change (grid_side p (Grid_ (vag g) (vbg g) (vcg g) (Z2 g) (cscale s (Zload1 g)))) with (grid_side p g) in *.
  change (source_of (Grid_ (vag g) (vbg g) (vcg g) (Z2 g) (cscale s (Zload1 g))) ph) with (source_of g ph).
  cbn [Zload1] in *. pose proof (share_mono _ _ s Hs Hn Hn' Hc) as M.
  assert (A : forall z1 z2, parallel z1 z2 = cmul z1 (cdiv z2 (cadd z1 z2))) by (intros; unfold parallel, cdiv; ring).
  rewrite !A, !cabs_mul. split; (apply Rmult_le_compat_l; [apply cabs_nonneg|exact M]).
Qed.
Print Assumptions C140_more_load.

(** A network on which the hypotheses hold: inductive line, ohmic-inductive load, and a DER
    that absorbs active and reactive power. *)
Definition feeder (m : pvm) : env := Env 0 377 (Cx 0 0) (Cx 0 0) (Cx 0 0) (Some (Grid_ (Cx 2 0) (Cx 2 0) (Cx 2 0) (Cx 1 2) (Cx 1 2))) 0 500 m true 0.
Definition absorbing : st := fun v => match v with P PA CiR => -1 / 4 | P PA CiI => 1 / 2 | _ => 0 end.
Example C140_hypotheses_met : forall m, let p := decay_prm in let e := feeder m in let y := absorbing in
  passive p e /\ r_s p e = 1 / 2 /\ x_s p e = 1 /\ active p e y PA < 0 /\ reactive p e y PA < 0 /\
  re (grid_side p (Grid_ (Cx 2 0) (Cx 2 0) (Cx 2 0) (Cx 1 2) (Cx 1 2))) = 1 /\ im (grid_side p (Grid_ (Cx 2 0) (Cx 2 0) (Cx 2 0) (Cx 1 2) (Cx 1 2))) = 2 /\
  without_DER p e PA = Cx 1 0 /\ cabs (with_DER p e y PA) < 1.
Proof.
  intros m p e y. subst p e y.
  assert (H : passive decay_prm (feeder m)).
  { unfold passive. cbn [feeder e_grid Zload1 decay_prm a_tr]. unfold grid_side. cbn [decay_prm Z1 a_tr Z2]. unfold cadd, cscale. cbn [re im].
    repeat split; try lra; intros K; injection K as K1 K2; lra. }
  assert (Z : source_impedance decay_prm (feeder m) = Cx (1 / 2) 1).
  { unfold source_impedance. cbn [feeder e_grid Zload1]. unfold parallel, grid_side. cbn [decay_prm Z1 a_tr Z2].
    unfold cdiv, cinv, cnorm2, cmul, cadd, cscale. cbn [re im]. apply cx_eq; cbn [re im]; field. }
  assert (W : without_DER decay_prm (feeder m) PA = Cx 1 0).
  { unfold without_DER, v_calc. cbn [feeder e_grid vag]. unfold v_standalone. cbn [decay_prm Z1 a_tr Z2 Zload1].
    unfold cdiv, cinv, cnorm2, cmul, cadd, cscale. cbn [re im]. apply cx_eq; cbn [re im]; field. }
  assert (V : with_DER decay_prm (feeder m) absorbing PA = Cx (3 / 8) 0).
  { rewrite (thevenin _ _ _ _ H), Z, W. unfold i_of. cbn [absorbing]. unfold cmul, cadd. cbn [re im]. apply cx_eq; cbn [re im]; field. }
  unfold r_s, x_s, active, reactive. rewrite Z, W, V. unfold grid_side. cbn [decay_prm Z1 a_tr Z2].
  unfold i_of. cbn [absorbing]. unfold S_ph, cscale, cmul, cadd, conj. cbn [re im].
  assert (A : cabs (Cx (3 / 8) 0) = 3 / 8).
  { unfold cabs, cnorm2. cbn [re im]. replace (3 / 8 * (3 / 8) + 0 * 0) with (Rsqr (3 / 8)) by (unfold Rsqr; ring). apply sqrt_Rsqr. lra. }
  rewrite A. split; [exact H|]. repeat split; cbn [re im]; try reflexivity; lra.
Qed.
