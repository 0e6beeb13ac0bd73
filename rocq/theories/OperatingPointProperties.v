(** C141: a DER has at most one operating point below half the short-circuit current. *)
From Coquelicot Require Import Coquelicot.
From Verif Require Import RBase CxField PhasorModel PVModel ODEModel Const3Model PhasorProperties PhasorProperties2 CircuitProperties2 CircuitProperties3 PLLProperties FilterProperties EquilibriumProperties BoundProofs BoundProperties SettleProofs SettleProperties SettleProperties2 EnergyProperties SolutionSpec LipschitzProofs RelabelProperties StartTimeProperties DeliveredProperties.
Import RBase.
Open Scope R_scope.

(** * Specification *)
(** modulation and asked current within their limits *)
Definition asked (p : prm) (k : kind) (e : env) (y : st) : cx :=
  Cx (y (p_state k) + p_gain p k * p_error p k e y) (y XQ - Kp_Q p * q_error p k e y).
Definition unsaturated (p : prm) (k : kind) (e : env) (y : st) : Prop :=
  (forall ph, has_phase k ph -> cabs (duty p y ph) <= m_limit p) /\ cabs (asked p k e y) <= iref_limit p.
(** an operating point: a state in which everything but the PLL angle stands still *)
Definition operating_point (p : prm) (k : kind) (e : env) (y : st) : Prop :=
  stationary (rhs p k) e y /\ unsaturated p k e y /\ (has_dc_link k -> y VDC <> 0).
(** open-circuit voltage (three-phase: its positive sequence) and the impedance of grid
    and filter resistance; their quotient is the short-circuit current *)
Definition open_circuit (p : prm) (k : kind) (e : env) : cx :=
  let v0 ph := v_calc p e ph (Cx 0 0) in
  match k with ThreePhase | ThreeConst => cscale (1 / 3) (cadd (cadd (v0 PA) (Uc_calc (v0 PB))) (Ub_calc (v0 PC))) | _ => v0 PA end.
Definition loop_impedance (p : prm) (e : env) : cx := cadd (source_impedance p e) (Cx (Rf p) 0).
(** current of the DER below half the short-circuit current *)
Definition below_half (p : prm) (k : kind) (e : env) (y : st) : Prop :=
  2 * cabs (loop_impedance p e) * cabs (i_of y PA) < cabs (open_circuit p k e).

(** * Proofs *)
Lemma quadratic_unique w z i i' : cadd (cmul w (conj i)) (cscale (cabs i ^ 2) z) = cadd (cmul w (conj i')) (cscale (cabs i' ^ 2) z) ->
  2 * cabs z * cabs i < cabs w -> 2 * cabs z * cabs i' < cabs w -> i = i'.
Proof.
  intros E H H'. set (d := csub i i').
  assert (K : cmul w (conj d) = cscale (- (re (cmul (cadd i i') (conj d)))) z).
  { rewrite !sqr_cabs in E. unfold d. destruct w as [w1 w2], z as [z1 z2], i as [a b], i' as [a' b']. unfold cadd, cmul, cscale, csub, cneg, conj in *. cbn [re im] in *.
    injection E as E1 E2. apply cx_eq; cbn [re im]; lra. }
  apply (f_equal cabs) in K. rewrite cabs_mul, cabs_conj, cabs_scale, Rabs_Ropp in K.
  assert (B : Rabs (re (cmul (cadd i i') (conj d))) <= (cabs i + cabs i') * cabs d).
  { eapply Rle_trans; [apply cabs_ge_re|]. rewrite cabs_mul, cabs_conj. apply Rmult_le_compat_r; [apply cabs_nonneg|apply cabs_add_le]. }
  pose proof (cabs_nonneg z) as Nz. pose proof (cabs_nonneg d) as Nd. pose proof (cabs_nonneg w) as Nw.
  assert (Z : cabs d = 0).
  { destruct (Req_dec (cabs d) 0) as [|N]; [auto|exfalso]. assert (P0 : 0 < cabs d) by lra.
    assert (C : cabs w * cabs d <= (cabs i + cabs i') * cabs d * cabs z) by (rewrite K; apply Rmult_le_compat_r; auto).
    assert (C2 : cabs w <= (cabs i + cabs i') * cabs z) by nra. nra. }
  assert (Q : re d * re d + im d * im d = 0) by (rewrite <- sqr_cabs, Z; ring).
  assert (re d = 0) by nra. assert (im d = 0) by nra. unfold d in *. destruct i as [a b], i' as [a' b']. unfold csub, cadd, cneg in *. cbn [re im] in *. apply cx_eq; cbn [re im]; lra.
Qed.

Lemma aw_rest d x : aw false d x d = 0 -> d = 0. Proof. unfold aw. auto. Qed.

Definition main (y : st) (k : kind) : cx := Cx (y (p_state k)) (y XQ).

Lemma rest_facts p k e y : sane p -> e_conn e = true -> operating_point p k e y ->
  q_error p k e y = 0 /\ p_error p k e y = 0 /\ re (S_term p k e y) = p_in p k e y /\
  forall ph, has_phase k ph -> u_of y ph = Cx 0 0 /\ i_of y ph = rot ph (main y k) /\
    across p k e y ph = cmul (Cx (Rf p) (omega p k e y * Lf p)) (i_of y ph).
Proof.
  intros (S1 & S2 & S3 & S4 & S5 & S6 & S7 & S8 & S9) Hc (Hr & (Hm & Hi) & Hv).
  assert (Sat : rlt (iref_limit p) (cabs (Cx (y (p_state k) + p_gain p k * p_error p k e y) (y XQ - Kp_Q p * q_error p k e y))) = false) by (apply rlt_false; exact Hi).
  destruct (rhs_outer p k e y) as [O1 _]. pose proof (rhs_outer_p p k e y) as O2. cbv zeta in O1, O2. rewrite Sat in O1, O2.
  rewrite (Hr XQ ltac:(discriminate)) in O1. rewrite (Hr (p_state k) ltac:(destruct k; discriminate)) in O2. rewrite EquilibriumProperties.aw_off in O1, O2.
  assert (Q : q_error p k e y = 0) by (destruct (Rmult_integral _ _ (eq_sym O1)) as [A|A]; [lra|exact A]).
  assert (PE : p_error p k e y = 0).
  { destruct (Rmult_integral _ _ (eq_sym O2)) as [A|A]; [|exact A]. exfalso. unfold p_int in A. destruct k; auto. }
  split; [exact Q|]. split; [exact PE|]. split.
  { assert (D : has_dc_link k -> re (S_term p k e y) = p_in p k e y).
    { intros Hk. pose proof (rhs_dc p k e y Hk) as D. rewrite (Hr VDC ltac:(discriminate)) in D. specialize (Hv Hk).
      assert (N : y VDC * Cdc p <> 0) by (apply Rmult_integral_contrapositive; auto).
      apply (f_equal (fun x => x * (y VDC * Cdc p))) in D. unfold Rdiv in D. rewrite Rmult_assoc, Rinv_l in D by exact N. lra. }
    destruct k; try (apply D; exact Logic.I); unfold p_error in PE; lra. }
  intros ph Hph. destruct (rhs_inner p k e y ph Hph) as (A1 & A2 & A3 & A4). cbv zeta in *.
  rewrite (proj2 (rlt_false _ _) (Hm ph Hph)) in *. rewrite EquilibriumProperties.aw_off in *.
  rewrite (Hr (P ph CxR) ltac:(discriminate)) in A1. rewrite (Hr (P ph CxI) ltac:(discriminate)) in A2.
  rewrite (Hr (P ph CuR) ltac:(discriminate)) in A3. rewrite (Hr (P ph CuI) ltac:(discriminate)) in A4.
  assert (U1 : y (P ph CuR) = 0) by (destruct (Rmult_integral _ _ (eq_sym A1)); [contradiction|auto]).
  assert (U2 : y (P ph CuI) = 0) by (destruct (Rmult_integral _ _ (eq_sym A2)); [contradiction|auto]).
  assert (IR : i_ref p k e y ph = rot ph (main y k)).
  { unfold i_ref, main. rewrite Hc, Q, PE. f_equal. apply cx_eq; cbn [re im]; ring. }
  rewrite IR, U1 in A3. rewrite IR, U2 in A4.
  split; [unfold u_of; rewrite U1, U2; reflexivity|]. split.
  { unfold i_of. destruct (Rmult_integral _ _ (eq_sym A3)) as [|B3]; [contradiction|]. destruct (Rmult_integral _ _ (eq_sym A4)) as [|B4]; [contradiction|].
    apply cx_eq; cbn [re im]; lra. }
  destruct (rhs_current p k e y ph Hph) as [C1 C2]. cbv zeta in *. rewrite (Hr (P ph CiR) ltac:(discriminate)) in C1. rewrite (Hr (P ph CiI) ltac:(discriminate)) in C2.
  apply (f_equal (fun x => x * Lf p)) in C1, C2.
  replace ((1 / Lf p * (- Rf p * y (P ph CiR) + re (across p k e y ph)) + omega p k e y * y (P ph CiI)) * Lf p) with (- Rf p * y (P ph CiR) + re (across p k e y ph) + omega p k e y * Lf p * y (P ph CiI)) in C1 by (field; auto).
  replace ((1 / Lf p * (- Rf p * y (P ph CiI) + im (across p k e y ph)) - omega p k e y * y (P ph CiR)) * Lf p) with (- Rf p * y (P ph CiI) + im (across p k e y ph) - omega p k e y * Lf p * y (P ph CiR)) in C2 by (field; auto).
  unfold i_of, cmul. cbn [re im]. apply cx_eq; cbn [re im]; lra.
Qed.

(** number of phases whose power is added up *)
Definition phases (k : kind) : R := match k with SinglePhase | SingleConst => 1 | _ => 3 end.

Lemma Ub_Uc z : Ub_calc (Uc_calc z) = z.
Proof.
  unfold Ub_calc, Uc_calc. rewrite cexp_p, cexp_m. pose proof w3_sq as W. set (w := w3) in *. clearbody w. destruct z as [a b].
  unfold cmul. apply cx_eq; cbn [re im]; [transitivity (a * (1 / 4 + w * w))|transitivity (b * (1 / 4 + w * w))]; try field; rewrite W; field.
Qed.
Lemma Uc_Ub z : Uc_calc (Ub_calc z) = z.
Proof.
  unfold Ub_calc, Uc_calc. rewrite cexp_p, cexp_m. pose proof w3_sq as W. set (w := w3) in *. clearbody w. destruct z as [a b].
  unfold cmul. apply cx_eq; cbn [re im]; [transitivity (a * (1 / 4 + w * w))|transitivity (b * (1 / 4 + w * w))]; try field; rewrite W; field.
Qed.
Lemma S_affine v z i j : cabs i = cabs j -> S_ph (cadd v (cmul z i)) i = cadd (S_ph v i) (cscale (cabs j ^ 2 / 2) z).
Proof.
  intros H. rewrite <- H, sqr_cabs. destruct v as [a b], z as [r x], i as [c d]. unfold S_ph, cscale, cmul, cadd, conj. apply cx_eq; cbn [re im]; field.
Qed.
Lemma thev p e ph i : passive p e -> v_calc p e ph i = cadd (v_calc p e ph (Cx 0 0)) (cmul (source_impedance p e) i).
Proof.
  intros H. rewrite (v_calc_affine p e ph i (Cx 0 0) H). f_equal. f_equal. destruct i as [a b]. unfold csub, cadd, cneg. apply cx_eq; cbn [re im]; ring.
Qed.

(** power at the connection point when the currents are the turned current of phase a *)
Lemma pcc_power p k e y ia : passive p e -> (forall ph, has_phase k ph -> i_of y ph = rot ph ia) ->
  S_pcc p k e y = cscale (phases k / 2) (cadd (cmul (open_circuit p k e) (conj ia)) (cscale (cabs ia ^ 2) (source_impedance p e))).
Proof.
  intros Hp Hi. set (z := source_impedance p e).
  assert (HA : i_of y PA = ia) by (apply (Hi PA); destruct k; cbn; auto).
  assert (V : forall ph i, v_calc p e ph i = cadd (v_calc p e ph (Cx 0 0)) (cmul z i)) by (intros; apply thev; auto).
  destruct k; unfold S_pcc, sum3, open_circuit, phases; cbv zeta; rewrite ?S_rot.
  - rewrite HA, (V PA ia), (S_affine _ _ ia ia eq_refl). set (w := v_calc p e PA (Cx 0 0)). clearbody w z. destruct w as [w1 w2], z as [z1 z2], ia as [i1 i2]. unfold S_ph. rewrite !sqr_cabs. unfold cscale, cmul, cadd, conj. apply cx_eq; cbn [re im]; field.
  - assert (HB : i_of y PB = Ub_calc ia) by (apply (Hi PB Logic.I)). assert (HC : i_of y PC = Uc_calc ia) by (apply (Hi PC Logic.I)).
    rewrite HA, HB, HC, (V PA ia), (V PB (Ub_calc ia)), (V PC (Uc_calc ia)), (S_affine _ _ ia ia eq_refl), (S_affine _ _ (Ub_calc ia) ia (rot_abs PB ia)), (S_affine _ _ (Uc_calc ia) ia (rot_abs PC ia)).
    set (va := v_calc p e PA (Cx 0 0)). set (vb := v_calc p e PB (Cx 0 0)). set (vc := v_calc p e PC (Cx 0 0)).
    replace (S_ph vb (Ub_calc ia)) with (S_ph (Uc_calc vb) ia) by (rewrite <- (S_rot PB); cbn [rot]; rewrite Ub_Uc; reflexivity).
    replace (S_ph vc (Uc_calc ia)) with (S_ph (Ub_calc vc) ia) by (rewrite <- (S_rot PC); cbn [rot]; rewrite Uc_Ub; reflexivity).
    set (b := Uc_calc vb). set (c := Ub_calc vc). clearbody va b c z. destruct va as [a1 a2], b as [b1 b2], c as [c1 c2], z as [z1 z2], ia as [i1 i2]. unfold S_ph. rewrite !sqr_cabs. unfold cscale, cmul, cadd, conj. apply cx_eq; cbn [re im]; field.
  - rewrite HA, (V PA ia), (S_affine _ _ ia ia eq_refl). set (w := v_calc p e PA (Cx 0 0)). clearbody w z. destruct w as [w1 w2], z as [z1 z2], ia as [i1 i2]. unfold S_ph. rewrite !sqr_cabs. unfold cscale, cmul, cadd, conj. apply cx_eq; cbn [re im]; field.
  - rewrite HA, (V PA ia), (S_affine _ _ ia ia eq_refl). set (w := v_calc p e PA (Cx 0 0)). clearbody w z. destruct w as [w1 w2], z as [z1 z2], ia as [i1 i2]. unfold S_ph. rewrite !sqr_cabs. unfold cscale, cmul, cadd, conj. apply cx_eq; cbn [re im]; field.
  - assert (HB : i_of y PB = Ub_calc ia) by (apply (Hi PB Logic.I)). assert (HC : i_of y PC = Uc_calc ia) by (apply (Hi PC Logic.I)).
    rewrite HA, HB, HC, (V PA ia), (V PB (Ub_calc ia)), (V PC (Uc_calc ia)), (S_affine _ _ ia ia eq_refl), (S_affine _ _ (Ub_calc ia) ia (rot_abs PB ia)), (S_affine _ _ (Uc_calc ia) ia (rot_abs PC ia)).
    set (va := v_calc p e PA (Cx 0 0)). set (vb := v_calc p e PB (Cx 0 0)). set (vc := v_calc p e PC (Cx 0 0)).
    replace (S_ph vb (Ub_calc ia)) with (S_ph (Uc_calc vb) ia) by (rewrite <- (S_rot PB); cbn [rot]; rewrite Ub_Uc; reflexivity).
    replace (S_ph vc (Uc_calc ia)) with (S_ph (Ub_calc vc) ia) by (rewrite <- (S_rot PC); cbn [rot]; rewrite Uc_Ub; reflexivity).
    set (b := Uc_calc vb). set (c := Ub_calc vc). clearbody va b c z. destruct va as [a1 a2], b as [b1 b2], c as [c1 c2], z as [z1 z2], ia as [i1 i2]. unfold S_ph. rewrite !sqr_cabs. unfold cscale, cmul, cadd, conj. apply cx_eq; cbn [re im]; field.
Qed.

(** power on the DC side: additionally the losses of the filter *)
Lemma term_power p k e y ia X : (forall ph, has_phase k ph -> i_of y ph = rot ph ia /\ across p k e y ph = cmul (Cx (Rf p) X) (i_of y ph)) ->
  re (S_term p k e y) = re (S_pcc p k e y) + phases k / 2 * (Rf p * cabs ia ^ 2).
Proof.
  intros H.
  assert (A : forall ph, has_phase k ph -> re (S_ph (v_term p k e y ph) (i_of y ph)) = re (S_ph (v_calc p e ph (i_of y ph)) (i_of y ph)) + Rf p * cabs ia ^ 2 / 2).
  { intros ph Hp. destruct (H ph Hp) as [H1 H2]. assert (N : cabs ia ^ 2 = cabs (i_of y ph) ^ 2) by (rewrite H1, rot_abs; reflexivity).
    rewrite N, sqr_cabs. unfold across in H2. set (i := i_of y ph) in *. clearbody i. set (v := v_calc p e ph i) in *. set (u := v_term p k e y ph) in *. clearbody u v.
    destruct u as [u1 u2], v as [v1 v2], i as [a b]. unfold csub, cadd, cneg, cmul in H2. cbn [re im] in H2. injection H2 as E1 E2.
    unfold S_ph, cscale, cmul, conj. cbn [re im]. replace u1 with (v1 + (Rf p * a - X * b)) by lra. replace u2 with (v2 + (Rf p * b + X * a)) by lra. field. }
  assert (HA : has_phase k PA) by (destruct k; cbn; auto).
  pose proof (A PA HA) as A1. destruct k; unfold S_term, S_pcc, sum3, phases; rewrite ?S_rot; cbn [cadd re]; try lra.
  - pose proof (A PB Logic.I). pose proof (A PC Logic.I). lra.
  - pose proof (A PB Logic.I). pose proof (A PC Logic.I). lra.
Qed.

(** Two operating points under the same inputs, both below half the short-circuit
    current, have the same currents, voltages, DC voltage and controller states; with the
    same PLL frequency also the same modulation. *)
Theorem C141_one_operating_point_partial : forall p k e y y', sane p -> passive p e -> e_conn e = true ->
  operating_point p k e y -> operating_point p k e y' -> below_half p k e y -> below_half p k e y' ->
  (forall ph, has_phase k ph -> i_of y ph = i_of y' ph /\ u_of y ph = u_of y' ph /\ v_calc p e ph (i_of y ph) = v_calc p e ph (i_of y' ph)) /\
  y (p_state k) = y' (p_state k) /\ y XQ = y' XQ /\ (has_dc_link k -> y VDC = y' VDC) /\ S_pcc p k e y = S_pcc p k e y' /\ (k = ThreePhase -> y VRF = y' VRF) /\
  (y XPLL = y' XPLL -> (has_dc_link k \/ e_Vconst e <> 0) -> forall ph, has_phase k ph -> v_term p k e y ph = v_term p k e y' ph /\ x_of y ph = x_of y' ph).
Proof.
  intros p k e y y' Hs Hp Hc Ho Ho' Hb Hb'.
  destruct (rest_facts p k e y Hs Hc Ho) as (Q & PE & T & F). destruct (rest_facts p k e y' Hs Hc Ho') as (Q' & PE' & T' & F').
  assert (VD : v_dc k e y = v_dc k e y') by (destruct k; cbn [v_dc]; auto; unfold p_error in PE, PE'; rewrite Hc in PE, PE'; lra).
  assert (HA : has_phase k PA) by (destruct k; cbn; auto).
  pose proof (pcc_power p k e y (main y k) Hp (fun ph H => proj1 (proj2 (F ph H)))) as SP. pose proof (pcc_power p k e y' (main y' k) Hp (fun ph H => proj1 (proj2 (F' ph H)))) as SP'.
  pose proof (term_power p k e y (main y k) _ (fun ph H => proj2 (F ph H))) as TP. pose proof (term_power p k e y' (main y' k) _ (fun ph H => proj2 (F' ph H))) as TP'.
  assert (PN : p_in p k e y = p_in p k e y') by (unfold p_in; rewrite VD; reflexivity).
  assert (QQ : im (S_pcc p k e y) = im (S_pcc p k e y')) by (unfold q_error in Q, Q'; lra).
  assert (N : 0 < phases k / 2) by (destruct k; cbn [phases]; lra).
  destruct (F PA HA) as (_ & IA & _). destruct (F' PA HA) as (_ & IA' & _). cbn [rot] in IA, IA'.
  assert (M : main y k = main y' k).
  { apply (quadratic_unique (open_circuit p k e) (loop_impedance p e)); [|rewrite <- IA; exact Hb|rewrite <- IA'; exact Hb'].
    rewrite T, SP in TP. rewrite T', SP' in TP'. rewrite SP, SP' in QQ. unfold loop_impedance.
    set (w := open_circuit p k e) in *. set (z := source_impedance p e) in *. set (n := phases k / 2) in *. set (i := main y k) in *. set (i' := main y' k) in *.
    set (a := cabs i ^ 2) in *. set (a' := cabs i' ^ 2) in *. clearbody w z n i i' a a'. destruct w as [w1 w2], z as [z1 z2], i as [i1 i2], i' as [j1 j2].
    unfold cadd, cmul, cscale, conj in *. cbn [re im] in *. apply cx_eq; cbn [re im]; apply Rmult_eq_reg_l with n; try lra. }
  assert (II : forall ph, has_phase k ph -> i_of y ph = i_of y' ph).
  { intros ph H. rewrite (proj1 (proj2 (F ph H))), (proj1 (proj2 (F' ph H))), M. reflexivity. }
  split. { intros ph H. rewrite (II ph H), (proj1 (F ph H)), (proj1 (F' ph H)). auto. }
  split. { apply (f_equal re) in M. exact M. } split. { apply (f_equal im) in M. exact M. }
  split. { intros H. destruct k; try (exfalso; exact H); exact VD. }
  split. { rewrite SP, SP', M. reflexivity. }
  split. { intros ->. pose proof (proj1 Ho VRF ltac:(discriminate)) as R1. pose proof (proj1 Ho' VRF ltac:(discriminate)) as R2. cbn [rhs ode3] in R1, R2. unfold v3_of in R1, R2.
    rewrite (II PA Logic.I), (II PB Logic.I), (II PC Logic.I) in R1. destruct Hs as (_ & _ & _ & _ & _ & _ & _ & _ & HT).
    assert (NT : 1 / Tfilter p <> 0) by (unfold Rdiv; rewrite Rmult_1_l; apply Rinv_neq_0_compat; lra).
    destruct (Rmult_integral _ _ R1) as [|G1]; [contradiction|]. destruct (Rmult_integral _ _ R2) as [|G2]; [contradiction|]. lra. }
  intros HX HV ph H.
  assert (OM : omega p k e y = omega p k e y').
  { assert (VD0 : forall z, stationary (rhs p k) e z -> omega p k e z = (wbase + z XPLL) / wbase).
    { intros z Hz. specialize (Hz XPLL ltac:(discriminate)). destruct Hs as (_ & _ & _ & _ & _ & _ & _ & K & _). unfold omega, we_calc.
      destruct k; cbn [rhs ode1 ode3 odeb odec ode3c] in Hz; (destruct (Rmult_integral _ _ Hz) as [|G]; [contradiction|]); rewrite G; unfold wbase; field; pose proof PI_RGT_0; lra. }
    rewrite (VD0 y), (VD0 y'), HX by (apply Ho || apply Ho'). reflexivity. }
  assert (VT : v_term p k e y ph = v_term p k e y' ph).
  { pose proof (proj2 (proj2 (F ph H))) as X. pose proof (proj2 (proj2 (F' ph H))) as X'. rewrite <- (II ph H), <- OM, <- X in X'. unfold across in X'. rewrite <- (II ph H) in X'.
    set (v := v_calc p e ph (i_of y ph)) in *. clearbody v. destruct (v_term p k e y ph) as [a b], (v_term p k e y' ph) as [c d], v as [g h].
    unfold csub, cadd, cneg in X'. cbn [re im] in X'. injection X' as E1 E2. apply cx_eq; cbn [re im]; lra. }
  split; [exact VT|]. unfold v_term in VT. rewrite <- VD in VT.
  assert (NZ : v_dc k e y / 2 <> 0).
  { destruct Ho as (_ & _ & HVD). destruct k; cbn [v_dc has_dc_link] in *; try (specialize (HVD Logic.I); lra); destruct HV as [HV|HV]; try contradiction; lra. }
  pose proof (proj1 (F ph H)) as U. pose proof (proj1 (F' ph H)) as U'. unfold u_of in U, U'. injection U as U1 U2. injection U' as U1' U2'.
  unfold cscale, duty in VT. cbn [re im] in VT. injection VT as E1 E2. apply Rmult_eq_reg_l in E1, E2; auto. rewrite U1, U1' in E1. rewrite U2, U2' in E2.
  unfold x_of. apply cx_eq; cbn [re im]; lra.
Qed.
Print Assumptions C141_one_operating_point_partial.

(** A DER in the dark at an imposed voltage: it may stand still without current, or with
    the short-circuit current, when the filter resistance takes all the power the grid
    gives.  The bound on the current in the theorem is therefore needed. *)
Definition dark_env : env := Env 0 wbase (Cx 1 0) (Cx 0 0) (Cx 0 0) None 0 0 (PVM 1 1 0 300) true 2.
Definition rest0 : st := fun v => match v with P PA CxR => 1 | _ => 0 end.
Definition rest1 : st := fun v => match v with P PA CiR => -1 | P PA CxI => -1 | XP => -1 | _ => 0 end.
Lemma dark_rest y a : y = rest0 /\ a = 0 \/ y = rest1 /\ a = 1 ->
  operating_point idle_prm SingleConst dark_env y /\ cabs (i_of y PA) = a.
Proof.
  intros H. set (e := dark_env).
  assert (PI0 := PI_RGT_0).
  assert (PD : forall z, p_in idle_prm SingleConst e z = 0) by (intros z; apply C139_dark; cbn; lra).
  assert (VD : vd1 idle_prm e y = 0).
  { unfold vd1. rewrite vd1_form. unfold v_calc, e. cbn [dark_env e_grid e_va e_wgrid e_t re im]. destruct H as [[-> _]|[-> _]]; cbn [rest0 rest1]; rewrite Rmult_0_r, Rminus_eq_0, sin_0; ring. }
  assert (OM : omega idle_prm SingleConst e y = 1).
  { unfold omega, we_calc. rewrite VD. destruct H as [[-> _]|[-> _]]; cbn [rest0 rest1]; unfold wbase; field; lra. }
  assert (DU : duty idle_prm y PA = Cx (1 - a) (- a)) by (destruct H as [[-> ->]|[-> ->]]; unfold duty; cbn [rest0 rest1 idle_prm Kp_GCC]; apply cx_eq; cbn [re im]; ring).
  assert (I : i_of y PA = Cx (- a) 0) by (destruct H as [[-> ->]|[-> ->]]; unfold i_of; cbn [rest0 rest1]; apply cx_eq; cbn [re im]; ring).
  assert (U : y (P PA CuR) = 0 /\ y (P PA CuI) = 0 /\ y XP = - a /\ y XQ = 0 /\ y (P PA CiR) = - a /\ y (P PA CiI) = 0 /\ y XPLL = 0) by (destruct H as [[-> ->]|[-> ->]]; cbn; repeat split; lra).
  destruct U as (U1 & U2 & U3 & U4 & U5 & U6 & U7).
  assert (A : 0 <= a <= 1) by (destruct H as [[_ ->]|[_ ->]]; lra). assert (AA : a * a = a) by (destruct H as [[_ ->]|[_ ->]]; lra).
  assert (SA : cabs (duty idle_prm y PA) <= 10).
  { rewrite DU. rewrite <- (sqrt_Rsqr 10) by lra. apply sqrt_le_1_alt. unfold cnorm2, Rsqr. cbn [re im]. nra. }
  assert (AC : across idle_prm SingleConst e y PA = Cx (- a) (- a)).
  { unfold across, v_term. rewrite DU. unfold csub, cadd, cneg, cscale, v_dc, v_calc, e. cbn [re im e_Vconst dark_env e_grid e_va]. apply cx_eq; cbn [re im]; field. }
  assert (Q : q_error idle_prm SingleConst e y = 0).
  { unfold q_error. cbn [S_pcc]. rewrite I. unfold v_calc, S_ph, cscale, cmul, conj. cbn [re im e e_conn dark_env e_grid e_va e_Qref]. ring. }
  assert (PE : p_error idle_prm SingleConst e y = 0).
  { unfold p_error. rewrite PD. cbn [S_term]. rewrite I. unfold v_term. rewrite DU. unfold S_ph, cscale, cmul, conj, v_dc. cbn [re im e dark_env e_Vconst]. nra. }
  assert (AS : asked idle_prm SingleConst e y = Cx (- a) 0).
  { unfold asked. rewrite Q, PE. cbn [p_state]. rewrite U3, U4. apply cx_eq; cbn [re im]; ring. }
  assert (CA : cabs (Cx (- a) 0) = a).
  { unfold cabs, cnorm2. cbn [re im]. replace (- a * - a + 0 * 0) with (Rsqr a) by (unfold Rsqr; ring). apply sqrt_Rsqr. lra. }
  split; [|rewrite I; exact CA]. split; [|split; [split|intros K; exfalso; exact K]].
  2: { intros ph E. cbn in E. subst ph. exact SA. }
  2: { rewrite AS, CA. cbn [idle_prm iref_limit]. lra. }
  assert (SAT : rlt (m_limit idle_prm) (cabs (duty idle_prm y PA)) = false) by (apply rlt_false; exact SA).
  intros v Hv. destruct v as [ph c| | | | | | |]; try reflexivity; try (exfalso; apply Hv; reflexivity).
  - destruct ph; try reflexivity.
    destruct (rhs_current idle_prm SingleConst e y PA eq_refl) as [B1 B2]. destruct (rhs_inner idle_prm SingleConst e y PA eq_refl) as (B3 & B4 & B5 & B6).
    cbv zeta in *. rewrite SAT in *. rewrite EquilibriumProperties.aw_off in *. rewrite OM, AC in *.
    assert (IR : i_ref idle_prm SingleConst e y PA = Cx (- a) 0) by (rewrite <- AS; reflexivity). rewrite IR in *.
    destruct c; [rewrite B1|rewrite B2|rewrite B5|rewrite B6|rewrite B3|rewrite B4] || destruct c; 
    rewrite ?B1, ?B2, ?B3, ?B4, ?B5, ?B6, ?U1, ?U2, ?U5, ?U6; cbn [re im idle_prm Lf Rf Ki_GCC wp]; lra.
  - pose proof (rhs_outer_p idle_prm SingleConst e y) as B. cbv zeta in B. cbn [p_state] in B. rewrite B, PE, !Rmult_0_r. apply aw_d0.
  - destruct (rhs_outer idle_prm SingleConst e y) as [B _]. cbv zeta in B. rewrite B, Q, !Rmult_0_r. apply aw_d0.
  - cbn [rhs odec]. rewrite VD. ring.
Qed.
(** REFUTED without the bound: two different operating points under the same inputs. *)
Theorem C141_short_circuit_refuted : exists p k e y y', sane p /\ passive p e /\ e_conn e = true /\
  operating_point p k e y /\ operating_point p k e y' /\ below_half p k e y /\ y XPLL = y' XPLL /\ i_of y PA <> i_of y' PA.
Proof.
  destruct (dark_rest rest0 0 (or_introl (Logic.conj eq_refl eq_refl))) as [O0 C0']. destruct (dark_rest rest1 1 (or_intror (Logic.conj eq_refl eq_refl))) as [O1 C1'].
  exists idle_prm, SingleConst, dark_env, rest0, rest1. split; [|split; [exact Logic.I|split; [reflexivity|split; [exact O0|split; [exact O1|split; [|split; [reflexivity|]]]]]]].
  - unfold sane. cbn [idle_prm Lf Cdc Ki_GCC wp Ki_DC Ki_P Ki_Q Ki_PLL Tfilter]. lra.
  - unfold below_half. rewrite C0', Rmult_0_r. cbn [open_circuit]. unfold v_calc. cbn [dark_env e_grid e_va]. unfold cabs, cnorm2. cbn [re im].
    apply sqrt_lt_R0. lra.
  - unfold i_of. cbn [rest0 rest1]. intros K. injection K as K. lra.
Qed.
Print Assumptions C141_short_circuit_refuted.

Example C141_hypotheses_met : sane idle_prm /\ passive idle_prm dark_env /\ operating_point idle_prm SingleConst dark_env rest0 /\ below_half idle_prm SingleConst dark_env rest0.
Proof.
  destruct (dark_rest rest0 0 (or_introl (Logic.conj eq_refl eq_refl))) as [O0 C0'].
  split; [|split; [exact Logic.I|split; [exact O0|]]].
  - unfold sane. cbn [idle_prm Lf Cdc Ki_GCC wp Ki_DC Ki_P Ki_Q Ki_PLL Tfilter]. lra.
  - unfold below_half. rewrite C0', Rmult_0_r. cbn [open_circuit]. unfold v_calc. cbn [dark_env e_grid e_va]. unfold cabs, cnorm2. cbn [re im].
    apply sqrt_lt_R0. lra.
Qed.
