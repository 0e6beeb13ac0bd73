(** C130: displayed phase angles. *)
From Coq Require Import List.
From Verif Require Import RBase PhasorModel ODEModel CxField PhasorProperties PhasorProperties2 RatingsProperties2 PhaseAngleModel.
Import ListNotations RBase.
Open Scope R_scope.

(** [phi] is the principal argument of the phasor z *)
Definition argument (z : cx) (phi : R) : Prop := - PI < phi <= PI /\ z = cscale (cabs z) (cexp phi).

Lemma cexp_inj_principal a b : - PI < a <= PI -> - PI < b <= PI -> cexp a = cexp b -> a = b.
Proof.
  intros Ha Hb H. pose proof PI_RGT_0 as P.
  assert (W : forall x y, 0 <= x <= PI -> - PI < y < 0 -> cexp x = cexp y -> False).
  { intros x y Hx Hy E. assert (x = y + 2 * PI).
    { apply cexp_inj; [lra|lra|]. rewrite E. unfold cexp. f_equal.
      - rewrite <- (cos_period y 1). f_equal. simpl. ring.
      - rewrite <- (sin_period y 1). f_equal. simpl. ring. }
    lra. }
  destruct (Rle_lt_dec 0 a) as [A|A], (Rle_lt_dec 0 b) as [B|B].
  - apply cexp_inj; auto; lra.
  - exfalso. apply (W a b); auto; lra.
  - exfalso. apply (W b a); auto; try lra.
  - assert (a + 2 * PI = b + 2 * PI); [|lra]. apply cexp_inj; [lra|lra|].
    assert (S : forall y, cexp (y + 2 * PI) = cexp y).
    { intros y. unfold cexp. f_equal; [rewrite <- (cos_period y 1)|rewrite <- (sin_period y 1)]; f_equal; simpl; ring. }
    rewrite !S. exact H.
Qed.
Lemma argument_phase z : argument z (cphase z).
Proof. split; [apply cphase_range|apply polar_rect]. Qed.
Lemma argument_unique z a b : z <> Cx 0 0 -> argument z a -> argument z b -> a = b.
Proof.
  intros Hz (Ra & Ea) (Rb & Eb). apply cexp_inj_principal; auto.
  assert (N : 0 < cabs z) by (unfold cabs; apply sqrt_lt_R0, cnorm2_pos; auto).
  rewrite Ea in Eb at 1. unfold cscale, cexp in *. cbn [re im] in *.
  assert (E1 : cabs z * cos a = cabs z * cos b) by congruence. assert (E2 : cabs z * sin a = cabs z * sin b) by congruence.
  apply Rmult_eq_reg_l in E1; [|lra]. apply Rmult_eq_reg_l in E2; [|lra]. congruence.
Qed.

(** The angles are computed exactly when the terminal and PCC voltage of phase a have been
    collected for the same instants; otherwise the call is refused. *)
Theorem C130_refused_iff_lengths_differ :
  forall three alone v,
  (length (v Inverter PA) = length (v LowSide PA) <-> exists out, time_series_phase_angle three alone v = Ok out) /\
  (length (v Inverter PA) <> length (v LowSide PA) <-> time_series_phase_angle three alone v = Raise Base.AssertionError).
Proof.
  intros three alone v. unfold time_series_phase_angle.
  destruct (Nat.eqb_spec (length (v LowSide PA)) (length (v Inverter PA))) as [E|E]; split; split; intros H; try congruence; eauto.
  - destruct H; discriminate.
Qed.
Print Assumptions C130_refused_iff_lengths_differ.

(** Every stored angle is the principal argument of the voltage at the same instant
    (the only one, unless the voltage is zero); series exist for the phases the model
    has and, on the high-voltage side, in stand-alone simulations only. *)
Theorem C130_stored_angles :
  forall three alone v out, time_series_phase_angle three alone v = Ok out ->
  forall pl ph,
  ((exists l, out pl ph = Some l) <-> (ph = PA \/ three = true) /\ ((pl = Inverter \/ pl = LowSide) \/ alone = true)) /\
  forall l, out pl ph = Some l -> length l = length (v pl ph) /\
    forall n z, nth_error (v pl ph) n = Some z -> exists phi, nth_error l n = Some phi /\ argument z phi /\
      forall phi', z <> Cx 0 0 -> argument z phi' -> phi' = phi.
Proof.
  intros three alone v out H pl ph. unfold time_series_phase_angle in H.
  destruct (Nat.eqb _ _); [|discriminate]. assert (Eo : out = fun pl ph =>
      if (match ph with PA => true | _ => three end && match pl with Inverter | LowSide => true | _ => alone end)%bool
      then Some (map cphase (v pl ph)) else None) by congruence. subst out. clear H. split.
  - split.
    + intros (l & Hl). destruct ph, three, pl, alone; cbn in Hl; try discriminate; auto.
    + intros (A & B). destruct ph, three, pl, alone; cbn; try (eexists; reflexivity);
        exfalso; destruct A as [A|A]; try discriminate; destruct B as [[B|B]|B]; discriminate.
  - intros l Hl. match type of Hl with (if ?b then _ else _) = _ => destruct b end; [|discriminate].
    assert (l = map cphase (v pl ph)) by congruence. subst l. split; [apply map_length|].
    intros n z Hn. exists (cphase z). split; [apply map_nth_error; auto|]. split; [apply argument_phase|].
    intros phi' Hz Ha. eapply argument_unique; eauto. apply argument_phase.
Qed.
Print Assumptions C130_stored_angles.

(** The plotted difference of two such series is an angle between the phasors, correct
    modulo a full turn; it is the principal one whenever both phasors lie in the right
    half plane. *)
Theorem C130_difference_partial :
  forall a b n za zb, nth_error a n = Some za -> nth_error b n = Some zb ->
  exists d, nth_error (angle_difference (map cphase a) (map cphase b)) n = Some d /\
    - (2 * PI) < d < 2 * PI /\
    cscale (cabs za * cabs zb) (cexp d) = cmul za (conj zb) /\
    (0 < re za -> 0 < re zb -> argument (cmul za (conj zb)) d).
Proof.
  intros a b n za zb Ha Hb. exists (cphase za - cphase zb). split.
  { unfold angle_difference. revert b n Ha Hb. induction a as [|x a IH]; intros [|y b] [|n] Ha Hb; try discriminate; cbn in *.
    - congruence.
    - apply IH; auto. }
  pose proof (cphase_range za) as Ra. pose proof (cphase_range zb) as Rb. pose proof PI_RGT_0 as P.
  assert (E : cscale (cabs za * cabs zb) (cexp (cphase za - cphase zb)) = cmul za (conj zb)).
  { rewrite (polar_rect za) at 3. rewrite (polar_rect zb) at 3.
    unfold crect, cscale, cexp, cmul, conj. cbn [re im]. rewrite cos_minus, sin_minus. apply cx_eq; cbn [re im]; ring. }
  split; [lra|]. split; [exact E|]. intros Pa Pb. split.
  - unfold cphase. replace (rlt 0 (re za)) with true by (symmetry; apply rlt_iff; auto).
    replace (rlt 0 (re zb)) with true by (symmetry; apply rlt_iff; auto).
    pose proof (atan_range (im za / re za)). pose proof (atan_range (im zb / re zb)). lra.
  - rewrite cabs_mul. replace (cabs (conj zb)) with (cabs zb) by (unfold cabs, cnorm2, conj; cbn [re im]; f_equal; ring).
    symmetry. exact E.
Qed.
Print Assumptions C130_difference_partial.

(** REFUTED: with the two phasors on either side of the negative real axis the plotted
    difference is off by a full turn: 3/4 of a turn forward for a quarter turn back. *)
Lemma atan_m1 : atan (-1) = - (PI / 4).
Proof. replace (-1) with (- (1)) by ring. rewrite atan_opp, atan_1. reflexivity. Qed.
Theorem C130_difference_refuted :
  exists a b, a <> Cx 0 0 /\ b <> Cx 0 0 /\
  angle_difference (map cphase [a]) (map cphase [b]) = [3 / 2 * PI] /\
  argument (cmul a (conj b)) (- (PI / 2)).
Proof.
  pose proof PI_RGT_0 as P.
  exists (Cx (-1) 1), (Cx (-1) (-1)). split; [intros H; injection H as H _; lra|]. split; [intros H; injection H as H _; lra|]. split.
  - cbn [map angle_difference combine fst snd]. unfold cphase. cbn [re im].
    replace (rlt 0 (-1)) with false by (symmetry; apply rlt_false; lra). replace (rlt (-1) 0) with true by (symmetry; apply rlt_iff; lra).
    replace (rle 0 1) with true by (symmetry; apply rle_iff; lra). replace (rle 0 (-1)) with false by (symmetry; apply rle_false; lra).
    replace (1 / -1) with (-1) by field. replace (-1 / -1) with 1 by field. rewrite atan_m1, atan_1.
    unfold angle_difference. cbn [combine map fst snd]. f_equal. field.
  - split; [lra|]. replace (cmul (Cx (-1) 1) (conj (Cx (-1) (-1)))) with (Cx 0 (-2)) by (unfold cmul, conj; apply cx_eq; cbn [re im]; ring).
    assert (A : cabs (Cx 0 (-2)) = 2).
    { unfold cabs, cnorm2. cbn [re im]. replace (0 * 0 + -2 * -2) with (2 * 2) by ring. apply sqrt_square. lra. }
    rewrite A. unfold cscale, cexp. cbn [re im]. rewrite cos_neg, sin_neg, cos_PI2, sin_PI2. apply cx_eq; cbn [re im]; ring.
Qed.
Print Assumptions C130_difference_refuted.

Example C130_hypotheses_met :
  let v := fun pl (ph : phase) => [Cx 1 0; Cx 0 (match pl with Inverter => 2 | _ => 1 end)] in
  exists out, time_series_phase_angle true true v = Ok out /\ out HighSide PC = Some [0; PI / 2].
Proof.
  cbn. eexists. split; [reflexivity|]. cbn. f_equal. unfold cphase. cbn [re im].
  replace (rlt 0 1) with true by (symmetry; apply rlt_iff; lra). replace (rlt 0 0) with false by (symmetry; apply rlt_false; lra).
  replace (0 / 1) with 0 by field. rewrite atan_0. reflexivity.
Qed.
