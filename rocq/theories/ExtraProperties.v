(** Property C113: the optional results. *)
From Verif Require NbUtil.
From Verif Require Import RBase PhasorModel PhasorProperties PVModel ODEModel ExtraModel.

(** The instantaneous value of a phasor at angle [x]: the real part of u e^(jx). *)
Definition instant (u : cx) (x : R) : R := re (cmul u (cexp x)).

Lemma amplitude u : (forall x, Rabs (instant u x) <= cabs u) /\ exists x, instant u x = cabs u.
Proof.
  split.
  - intros x. unfold instant. assert (E : cabs (cmul u (cexp x)) = cabs u) by (rewrite cabs_mul, cabs_cexp; ring).
    rewrite <- E. destruct (cmul u (cexp x)) as [a b]. unfold cabs, cnorm2. cbn [re im].
    rewrite <- (sqrt_Rsqr_abs a). apply sqrt_le_1_alt. unfold Rsqr. nra.
  - destruct (Req_dec (cabs u) 0) as [Z|N].
    + exists 0. unfold instant, cexp. rewrite cos_0, sin_0. destruct u as [a b]. cbn [cmul re im].
      unfold cabs, cnorm2 in Z. cbn [re im] in Z. apply sqrt_eq_0 in Z; [|nra].
      unfold cabs, cnorm2. cbn [re im]. rewrite Z, sqrt_0. nra.
    + pose proof (cabs_nonneg u) as P. assert (K : cabs u * cabs u = cnorm2 u) by apply cabs_sq.
      destruct u as [a b]. set (r := cabs (Cx a b)) in *. unfold cnorm2 in K. cbn [re im] in K.
      destruct (Rlt_dec 0 b) as [B|B].
      * exists (- acos (a / r)). assert (L : -1 <= a / r <= 1).
        { split; [apply Rmult_le_reg_r with r|apply Rmult_le_reg_r with r]; try lra; unfold Rdiv; rewrite Rmult_assoc, Rinv_l, Rmult_1_r by lra; nra. }
        unfold instant, cexp. cbn [cmul re im]. rewrite cos_neg, sin_neg, cos_acos, sin_acos by lra.
        assert (E : sqrt (1 - Rsqr (a / r)) = b / r).
        { replace (1 - Rsqr (a / r)) with (Rsqr (b / r)). 
          - rewrite sqrt_Rsqr; [reflexivity|]. apply Rmult_le_pos; [lra|]. left. apply Rinv_0_lt_compat. lra.
          - unfold Rsqr. apply (Rmult_eq_reg_r (r * r)); [|nra]. field_simplify; [|lra|lra]. nra. }
        rewrite E. field_simplify; [|lra]. apply (Rmult_eq_reg_r r); [|lra]. field_simplify; [|lra]. nra.
      * exists (acos (a / r)). assert (L : -1 <= a / r <= 1).
        { split; [apply Rmult_le_reg_r with r|apply Rmult_le_reg_r with r]; try lra; unfold Rdiv; rewrite Rmult_assoc, Rinv_l, Rmult_1_r by lra; nra. }
        unfold instant, cexp. cbn [cmul re im]. rewrite cos_acos, sin_acos by lra.
        assert (E : sqrt (1 - Rsqr (a / r)) = - b / r).
        { replace (1 - Rsqr (a / r)) with (Rsqr (- b / r)). 
          - rewrite sqrt_Rsqr; [reflexivity|]. apply Rmult_le_pos; [lra|]. left. apply Rinv_0_lt_compat. lra.
          - unfold Rsqr. apply (Rmult_eq_reg_r (r * r)); [|nra]. field_simplify; [|lra|lra]. nra. }
        rewrite E. field_simplify; [|lra]. apply (Rmult_eq_reg_r r); [|lra]. field_simplify; [|lra]. nra.
Qed.

(** The line-to-line figure, of interpreted and compiled types alike, is the peak of
    the instantaneous voltage between phases a and b divided by the square root of
    two; for a balanced set it is the square root of three times the phase RMS. *)
Theorem C113_line_to_line :
  forall a b,
  NbUtil.Vabrms_calc a b = Vabrms_calc a b /\
  (forall x, Rabs (instant a x - instant b x) <= sqrt 2 * Vabrms_calc a b) /\
  (exists x, instant a x - instant b x = sqrt 2 * Vabrms_calc a b) /\
  Vabrms_calc a (Ub_calc a) = sqrt 3 * Urms_calc_1phase a.
Proof.
  intros a b. pose proof (sqrt_lt_R0 2 ltac:(lra)) as P2.
  assert (I : forall x, instant a x - instant b x = instant (csub a b) x).
  { intros x. unfold instant. destruct a as [a1 a2], b as [b1 b2]. cbn [cmul csub re im]. ring. }
  assert (V : sqrt 2 * Vabrms_calc a b = cabs (csub a b)) by (unfold Vabrms_calc; field; lra).
  destruct (amplitude (csub a b)) as [A1 [x A2]].
  split; [reflexivity|]. split; [intros y; rewrite I, V; apply A1|]. split; [exists x; now rewrite I, V|].
  unfold Vabrms_calc, Urms_calc_1phase, Ub_calc. rewrite cexp_m.
  assert (E : cabs (csub a (cmul a (Cx (- (1 / 2)) (- w3)))) = sqrt 3 * cabs a).
  { unfold cabs. rewrite <- sqrt_mult; [|lra|apply cnorm2_nonneg]. f_equal. destruct a as [p q].
    unfold cnorm2. cbn [csub cmul re im]. pose proof w3_sq. nra. }
  rewrite E. field. lra.
Qed.
Print Assumptions C113_line_to_line.

(** The per-phase powers add up to the PCC power, and switching the option on
    changes none of the other results. *)
Theorem C113_optional_results :
  forall old x, exists sa sb sc vt v,
  x_extra (update true old x) = Some (sa, sb, sc, vt, v) /\
  cadd (cadd sa sb) sc = x_S_PCC (update true old x) /\
  vt = Vabrms_calc (x_vta x) (x_vtb x) /\ v = Vabrms_calc (x_va x) (x_vb x) /\
  (let on := update true old x in let off := update false old x in
   x_S on = x_S off /\ x_S_PCC on = x_S_PCC off /\ x_Vtrms on = x_Vtrms off /\ x_Vrms on = x_Vrms off /\
   x_Irms on = x_Irms off /\ x_extra off = old).
Proof. intros old x. do 5 eexists. split; [reflexivity|]. repeat split. Qed.
Print Assumptions C113_optional_results.

Example C113_hypotheses_met : Vabrms_calc (Cx 1 0) (Cx 0 1) = 1 /\ instant (Cx 1 0) 0 - instant (Cx 0 1) 0 = 1.
Proof.
  split.
  - unfold Vabrms_calc, cabs, cnorm2. cbn [csub re im]. replace ((1 - 0) * (1 - 0) + (0 - 1) * (0 - 1)) with 2 by ring.
    field. apply Rgt_not_eq, sqrt_lt_R0. lra.
  - unfold instant, cexp. rewrite cos_0, sin_0. cbn [cmul re im]. ring.
Qed.
