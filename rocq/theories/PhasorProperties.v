(** Properties C44-C48, C67, C68: phasor utilities. *)
From Coq Require Import Nsatz.
From Verif Require Import RBase PhasorModel.

(** * Trigonometric constants *)
Lemma cos_2_3 : cos (2/3 * PI) = - (1/2).
Proof.
  replace (2/3 * PI) with (2 * (PI/3)) by field. rewrite cos_2PI3. lra.
Qed.
Lemma sin_2_3 : sin (2/3 * PI) = sqrt 3 / 2.
Proof. replace (2/3 * PI) with (2 * (PI/3)) by field. rewrite sin_2PI3. lra. Qed.
Lemma cos_m2_3 : cos (- (2/3) * PI) = - (1/2).
Proof. replace (- (2/3) * PI) with (- (2/3 * PI)) by ring. rewrite cos_neg. apply cos_2_3. Qed.
Lemma sin_m2_3 : sin (- (2/3) * PI) = - (sqrt 3 / 2).
Proof. replace (- (2/3) * PI) with (- (2/3 * PI)) by ring. rewrite sin_neg. rewrite sin_2_3. auto. Qed.
Lemma cexp_4_3 : cexp (4/3 * PI) = cexp (- (2/3) * PI).
Proof.
  unfold cexp. replace (4/3 * PI) with (- (2/3) * PI + 2 * INR 1 * PI) by (simpl; field).
  rewrite cos_period, sin_period. reflexivity.
Qed.
Lemma sqrt3_sq : sqrt 3 * sqrt 3 = 3.
Proof. apply sqrt_sqrt. lra. Qed.
Definition w3 : R := sqrt 3 / 2.
Lemma w3_sq : w3 * w3 = 3/4.
Proof. unfold w3. pose proof sqrt3_sq. lra. Qed.
Lemma cexp_p : cexp (2/3 * PI) = Cx (- (1/2)) w3.
Proof. unfold cexp. rewrite cos_2_3, sin_2_3. reflexivity. Qed.
Lemma cexp_m : cexp (- (2/3) * PI) = Cx (- (1/2)) (- w3).
Proof. unfold cexp. rewrite cos_m2_3, sin_m2_3. reflexivity. Qed.
Lemma cexp_4 : cexp (4/3 * PI) = Cx (- (1/2)) (- w3).
Proof. rewrite cexp_4_3. apply cexp_m. Qed.
Lemma cos2_sin2 x : cos x * cos x + sin x * sin x = 1.
Proof. pose proof (sin2_cos2 x). unfold Rsqr in *. lra. Qed.
Lemma cnorm2_cexp x : cnorm2 (cexp x) = 1.
Proof. unfold cnorm2, cexp. simpl. apply cos2_sin2. Qed.
Lemma cnorm2_mul a b : cnorm2 (cmul a b) = cnorm2 a * cnorm2 b.
Proof. unfold cnorm2, cmul. simpl. ring. Qed.
Lemma cabs_mul a b : cabs (cmul a b) = cabs a * cabs b.
Proof. unfold cabs. rewrite cnorm2_mul, sqrt_mult; auto using cnorm2_nonneg. Qed.
Lemma cabs_cexp x : cabs (cexp x) = 1.
Proof. unfold cabs. rewrite cnorm2_cexp. apply sqrt_1. Qed.
Lemma cabs_sq a : cabs a * cabs a = cnorm2 a.
Proof. unfold cabs. apply sqrt_sqrt. apply cnorm2_nonneg. Qed.
Lemma cabs_nonneg a : 0 <= cabs a.
Proof. apply sqrt_pos. Qed.

(** nsatz after naming the constants 1/2 and 1/3 *)
Lemma half_eq : 2 * / 2 = 1. Proof. field. Qed.
Lemma third_eq : 3 * / 3 = 1. Proof. field. Qed.
Lemma w3_sq4 : 4 * (w3 * w3) = 3.
Proof. pose proof w3_sq. lra. Qed.
Ltac nz :=
  unfold Rdiv in *;
  pose proof half_eq as HALF; pose proof third_eq as THIRD;
  set (h2 := / 2) in *; set (h3 := / 3) in *; clearbody h2 h3; nsatz.

(** * C44 *)
Theorem C44_balanced_set :
  forall u : cx,
  cabs (Ub_calc u) = cabs u /\ cabs (Uc_calc u) = cabs u /\
  cadd (cadd u (Ub_calc u)) (Uc_calc u) = Cx 0 0 /\
  (forall r phi, u = crect r phi ->
     Ub_calc u = crect r (phi - 120 * PI / 180) /\ Uc_calc u = crect r (phi + 120 * PI / 180)).
Proof.
  intros u. unfold Ub_calc, Uc_calc. rewrite !cabs_mul, !cabs_cexp, Rmult_1_r. repeat split.
  - rewrite cexp_p, cexp_m. apply cx_eq; cbn [re im cadd cmul]; field.
  - subst u. replace (phi - 120 * PI / 180) with (phi + - (2/3) * PI) by field.
    apply cx_eq; unfold crect, cexp, cscale, cmul; cbn [re im]; rewrite ?cos_plus, ?sin_plus; ring.
  - subst u. replace (phi + 120 * PI / 180) with (phi + 2/3 * PI) by field.
    apply cx_eq; unfold crect, cexp, cscale, cmul; cbn [re im]; rewrite ?cos_plus, ?sin_plus; ring.
Qed.
Print Assumptions C44_balanced_set.

(** * C45 *)
Theorem C45_dq0_then_abc :
  forall a b c wt ud uq u0, abc_to_dq0 a b c wt = (ud, uq, u0) -> dq0_to_abc ud uq u0 wt = (a, b, c).
Proof.
  intros a b c wt ud uq u0 H. unfold abc_to_dq0 in H. rewrite cexp_p, cexp_m in H.
  unfold cexp in H. rewrite cos_neg, sin_neg in H. cbn [re im cscale cmul cadd RtoCx] in H.
  injection H as <- <- <-. unfold dq0_to_abc.
  replace (wt - 2/3 * PI) with (wt + - (2/3) * PI) by ring.
  rewrite !cos_plus, !sin_plus, cos_2_3, sin_2_3, cos_m2_3, sin_m2_3. fold w3.
  pose proof w3_sq4 as W. pose proof (cos2_sin2 wt) as T.
  set (C := cos wt) in *. set (D := sin wt) in *. set (w := w3) in *. clearbody C D w.
  f_equal; [f_equal|]; nz.
Qed.
Print Assumptions C45_dq0_then_abc.

Theorem C45_abc_then_dq0 :
  forall ud uq u0 wt a b c, dq0_to_abc ud uq u0 wt = (a, b, c) -> abc_to_dq0 a b c wt = (ud, uq, u0).
Proof.
  intros ud uq u0 wt a b c H. unfold dq0_to_abc in H.
  replace (wt - 2/3 * PI) with (wt + - (2/3) * PI) in H by ring.
  rewrite !cos_plus, !sin_plus, cos_2_3, sin_2_3, cos_m2_3, sin_m2_3 in H. fold w3 in H.
  injection H as <- <- <-.
  unfold abc_to_dq0. rewrite cexp_p, cexp_m.
  unfold cexp. rewrite cos_neg, sin_neg. cbn [re im cscale cmul cadd RtoCx].
  pose proof w3_sq4 as W. pose proof (cos2_sin2 wt) as T.
  set (C := cos wt) in *. set (D := sin wt) in *. set (w := w3) in *. clearbody C D w.
  f_equal; [f_equal|]; nz.
Qed.
Print Assumptions C45_abc_then_dq0.

(** * C46 *)
Definition csum3 (x y z : cx) := cadd (cadd x y) z.
(** phasor_to_symmetrical is inverted by the standard synthesis equations *)
Theorem C46_components_reconstruct :
  forall a b c u0 u1 u2, phasor_to_symmetrical a b c = (u0, u1, u2) ->
  let al := crect 1 (120 * PI / 180) in
  a = csum3 u0 u1 u2 /\
  b = csum3 u0 (cmul (cmul al al) u1) (cmul al u2) /\
  c = csum3 u0 (cmul al u1) (cmul (cmul al al) u2).
Proof.
  intros a b c u0 u1 u2 H. cbv zeta. unfold crect.
  replace (120 * PI / 180) with (2/3 * PI) by field. rewrite cexp_p.
  unfold phasor_to_symmetrical in H. rewrite cexp_p, cexp_4 in H. injection H as <- <- <-.
  pose proof w3_sq4 as W. set (w := w3) in *. clearbody w. destruct a as [a1 a2], b as [b1 b2], c as [c1 c2].
  unfold csum3. cbn [re im cscale cmul cadd].
  repeat split; apply cx_eq; cbn [re im cscale cmul cadd]; nz.
Qed.
Print Assumptions C46_components_reconstruct.

(** a balanced positive-sequence set has only a positive-sequence component *)
Theorem C46_balanced_is_positive_sequence :
  forall u, phasor_to_symmetrical u (Ub_calc u) (Uc_calc u) = (Cx 0 0, u, Cx 0 0) /\
    phasor_to_positive_sequence u (Ub_calc u) (Uc_calc u) = (u, Ub_calc u, Uc_calc u).
Proof.
  intros u.
  assert (E : phasor_to_symmetrical u (Ub_calc u) (Uc_calc u) = (Cx 0 0, u, Cx 0 0)).
  { unfold phasor_to_symmetrical, Ub_calc, Uc_calc. rewrite cexp_p, cexp_4, cexp_m.
    pose proof w3_sq4 as W. set (w := w3) in *. clearbody w. destruct u as [u1 u2].
    cbn [re im cscale cmul cadd]. f_equal; [f_equal|]; apply cx_eq; cbn [re im cscale cmul cadd]; nz. }
  split; auto. unfold phasor_to_positive_sequence. rewrite E. unfold Ub_calc, Uc_calc. rewrite cexp_4_3. reflexivity.
Qed.
Print Assumptions C46_balanced_is_positive_sequence.

(** The sequence sets (as returned by the three functions) add up to the phasors
    ... *)
Definition C46_claim : Prop :=
  forall a b c a0 b0 c0 a1 b1 c1 a2 b2 c2,
  phasor_to_zero_sequence a b c = (a0, b0, c0) ->
  phasor_to_positive_sequence a b c = (a1, b1, c1) ->
  phasor_to_negative_sequence a b c = (a2, b2, c2) ->
  a = csum3 a0 a1 a2 /\ b = csum3 b0 b1 b2 /\ c = csum3 c0 c1 c2.
(** ... is false: phasor_to_negative_sequence rotates phases b and c the wrong
    way.  Witness: only phase a energised. *)
Theorem C46_sequence_sets_refuted : ~ C46_claim.
Proof.
  intros H.
  destruct (phasor_to_zero_sequence (Cx 1 0) (Cx 0 0) (Cx 0 0)) as [[a0 b0] c0] eqn:E0.
  destruct (phasor_to_positive_sequence (Cx 1 0) (Cx 0 0) (Cx 0 0)) as [[a1 b1] c1] eqn:E1.
  destruct (phasor_to_negative_sequence (Cx 1 0) (Cx 0 0) (Cx 0 0)) as [[a2 b2] c2] eqn:E2.
  destruct (H _ _ _ _ _ _ _ _ _ _ _ _ E0 E1 E2) as (_ & Hb & _).
  unfold phasor_to_zero_sequence, phasor_to_positive_sequence, phasor_to_negative_sequence, phasor_to_symmetrical in *.
  rewrite ?cexp_p, ?cexp_4 in *. injection E0 as <- <- <-. injection E1 as <- <- <-. injection E2 as <- <- <-.
  unfold csum3 in Hb. apply (f_equal im) in Hb. cbn [re im cscale cmul cadd] in Hb.
  assert (w3 = 0) by lra. pose proof w3_sq. rewrite H0 in *. lra.
Qed.
Print Assumptions C46_sequence_sets_refuted.

(** Phase a always adds up; all three do when there is no negative sequence. *)
Theorem C46_sequence_sets_partial :
  forall a b c a0 b0 c0 a1 b1 c1 a2 b2 c2,
  phasor_to_zero_sequence a b c = (a0, b0, c0) ->
  phasor_to_positive_sequence a b c = (a1, b1, c1) ->
  phasor_to_negative_sequence a b c = (a2, b2, c2) ->
  a = csum3 a0 a1 a2 /\
  (a2 = Cx 0 0 -> b = csum3 b0 b1 b2 /\ c = csum3 c0 c1 c2) /\
  b2 = Ub_calc a2 /\ c2 = Uc_calc a2.
Proof.
  intros a b c a0 b0 c0 a1 b1 c1 a2 b2 c2 E0 E1 E2.
  destruct (phasor_to_symmetrical a b c) as [[u0 u1] u2] eqn:E.
  destruct (C46_components_reconstruct _ _ _ _ _ _ E) as (Ra & Rb & Rc).
  unfold phasor_to_zero_sequence, phasor_to_positive_sequence, phasor_to_negative_sequence in *. rewrite E in *.
  injection E0 as <- <- <-. injection E1 as <- <- <-. injection E2 as <- <- <-.
  split; [auto|]. split; [|unfold Ub_calc, Uc_calc; rewrite cexp_4_3; auto].
  intros Z. subst u2. rewrite Rb, Rc. unfold crect.
  replace (120 * PI / 180) with (2/3 * PI) by field. rewrite cexp_p, cexp_4. clear.
  pose proof w3_sq4 as W. set (w := w3) in *. clearbody w. destruct u0 as [p q], u1 as [r s].
  unfold csum3. split; apply cx_eq; cbn [re im cscale cmul cadd]; nz.
Qed.
Print Assumptions C46_sequence_sets_partial.

Example C46_hypotheses_met :
  exists u0 u1 u2, phasor_to_symmetrical (Cx 1 0) (Cx 0 0) (Cx 0 0) = (u0, u1, u2) /\ re u2 = 1/3 /\ re u1 = 1/3.
Proof. do 3 eexists. split; [reflexivity|]. simpl. lra. Qed.
