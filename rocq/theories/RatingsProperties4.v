(** Property C87: validate_model compares two correct power calculations. *)
From Verif Require Import RBase CxField PhasorModel PVModel ODEModel PhasorProperties PhasorProperties2 RatingsModel RatingsProperties RatingsProperties2 RatingsProperties3.
From Verif Require CircuitProperties3.
Open Scope R_scope.

(** RMS power of one phase is the power of the phasors. *)
Lemma rms_is_phasor v i : Cx (rms_P v i) (rms_Q v i) = S_ph v i.
Proof.
  assert (S2 : sqrt 2 * sqrt 2 = 2) by (apply sqrt_sqrt; lra). assert (N2 : sqrt 2 <> 0) by (intros Z; rewrite Z in S2; lra).
  assert (E : S_ph v i = cscale (cabs v * cabs i / 2) (cexp (cphase v - cphase i))).
  { rewrite (polar_rect v) at 1. rewrite (polar_rect i) at 1. unfold S_ph, crect, cscale, cexp, cmul, conj. cbn [re im].
    rewrite cos_minus, sin_minus. apply cx_eq; cbn [re im]; field. }
  rewrite E. unfold rms_P, rms_Q, cscale, cexp. cbn [re im].
  assert (K : cabs v / sqrt 2 * (cabs i / sqrt 2) = cabs v * cabs i / 2).
  { replace 2 with (sqrt 2 * sqrt 2) at 3 by exact S2. field. exact N2. }
  rewrite K. reflexivity.
Qed.

(** Power delivered by a set of phases: the sum over the phases the model has. *)
Definition delivered (three : bool) (v i : phase -> cx) : cx :=
  if three then total_power v i else power (v PA) (i PA).
Definition is3 (ty : vtype) : bool := match ty with VSingle => false | _ => true end.

(** Single-phase and full three-phase models: whatever the voltages and currents,
    both methods report the power delivered at the inverter terminals, so the two
    errors printed are zero. *)
Theorem C87_terminal_power_partial :
  forall ty Rf Xf vt v i, ty <> VThreeOther ->
  let r := validate_model ty Rf Xf vt v i in
  Cx (Pt_phasor r) (Qt_phasor r) = delivered (is3 ty) vt i /\ Cx (Pt_RMS r) (Qt_RMS r) = delivered (is3 ty) vt i.
Proof.
  intros ty Rf Xf vt v i Hty r. unfold r, validate_model. cbn [Pt_phasor Qt_phasor Pt_RMS Qt_RMS].
  assert (E : forall k, rms_P (vt k) (i k) = re (power (vt k) (i k)) /\ rms_Q (vt k) (i k) = im (power (vt k) (i k))).
  { intros k. pose proof (rms_is_phasor (vt k) (i k)) as H. change (S_ph (vt k) (i k)) with (power (vt k) (i k)) in H.
    split; [exact (f_equal re H) | exact (f_equal im H)]. }
  destruct ty; [| |contradiction]; cbn [is3 delivered S_total].
  - rewrite (proj1 (E PA)), (proj2 (E PA)). split; reflexivity.
  - rewrite !(proj1 (E _)), !(proj2 (E _)). split; reflexivity.
Qed.
Print Assumptions C87_terminal_power_partial.

(** Refuted for the other three-phase models (balanced, Numba, constant Vdc, no
    voltage filter): the RMS figure covers phase a only, so for a balanced set
    carrying power it is a third of the delivered power. *)
Lemma total_rot a b : total_power (fun k => rot k a) (fun k => rot k b) = cscale 3 (power a b).
Proof.
  unfold total_power, power. cbn [rot]. unfold Ub_calc, Uc_calc. rewrite cexp_m, cexp_p. pose proof w3_sq as W.
  destruct a as [a1 a2], b as [b1 b2].
  pose proof (f_equal (Rmult (a1 * b1)) W). pose proof (f_equal (Rmult (a2 * b2)) W). pose proof (f_equal (Rmult (a1 * b2)) W). pose proof (f_equal (Rmult (a2 * b1)) W).
  unfold cscale, cadd, cmul, conj. apply cx_eq; cbn [re im]; lra.
Qed.
Theorem C87_other_three_phase_refuted :
  forall Rf Xf a v b, let r := validate_model VThreeOther Rf Xf (fun k => rot k a) v (fun k => rot k b) in
  Cx (Pt_phasor r) (Qt_phasor r) = delivered true (fun k => rot k a) (fun k => rot k b) /\
  Cx (Pt_RMS r) (Qt_RMS r) = cscale (1/3) (delivered true (fun k => rot k a) (fun k => rot k b)) /\
  (power a b <> Cx 0 0 -> Pt_RMS r <> Pt_phasor r \/ Qt_RMS r <> Qt_phasor r).
Proof.
  intros Rf Xf a v b r. unfold r, validate_model. cbn [Pt_phasor Qt_phasor Pt_RMS Qt_RMS delivered S_total].
  assert (T : sum3 (fun k => S_ph (rot k a) (rot k b)) = cscale 3 (power a b)) by (rewrite <- total_rot; reflexivity).
  rewrite T, total_rot. cbn [rot]. pose proof (rms_is_phasor a b) as E. change (S_ph a b) with (power a b) in E.
  pose proof (f_equal re E) as E1. pose proof (f_equal im E) as E2. cbn [re im] in E1, E2. rewrite E1, E2.
  destruct (power a b) as [s1 s2]. unfold cscale. cbn [re im]. split; [reflexivity|]. split; [apply cx_eq; cbn [re im]; field|].
  intros N. destruct (Req_EM_T s1 0) as [Z1|Z1]; [|left; lra]. right. intros Z2. apply N. apply cx_eq; cbn [re im]; lra.
Qed.
Print Assumptions C87_other_three_phase_refuted.

(** Filter power: when the current obeys the filter's impedance in every phase, both
    methods report the power the filter consumes. *)
Lemma sq2 : sqrt 2 * sqrt 2 = 2. Proof. apply sqrt_sqrt; lra. Qed.
Lemma Urms_sq a b c : Urms_calc a b c ^ 2 = (cnorm2 a + cnorm2 b + cnorm2 c) / 6.
Proof.
  unfold Urms_calc. pose proof sq2 as S2. assert (N2 : sqrt 2 <> 0) by (intros Z; rewrite Z in S2; lra).
  assert (E : forall z, cabs z ^ 2 = cnorm2 z) by (intros; rewrite <- cabs_sq; ring). rewrite !E.
  pose proof (cnorm2_nonneg a). pose proof (cnorm2_nonneg b). pose proof (cnorm2_nonneg c).
  set (q := (cnorm2 a + cnorm2 b + cnorm2 c) / 3). assert (Q : 0 <= q) by (unfold q; lra).
  transitivity (sqrt q * sqrt q / (sqrt 2 * sqrt 2)); [field; exact N2|]. rewrite S2, sqrt_sqrt by exact Q. unfold q. field.
Qed.
Theorem C87_filter_power :
  forall ty Rf Xf vt v i, (forall k, csub (vt k) (v k) = cmul (Cx Rf Xf) (i k)) ->
  let r := validate_model ty Rf Xf vt v i in
  Pf_phasor r = Pf_RMS r /\ Qf_phasor r = Qf_RMS r /\
  Cx (Pf_RMS r) (Qf_RMS r) = delivered (is3 ty) (fun k => csub (vt k) (v k)) i.
Proof.
  intros ty Rf Xf vt v i H r.
  assert (D : forall k, csub (S_ph (vt k) (i k)) (S_ph (v k) (i k)) = cscale (cnorm2 (i k) / 2) (Cx Rf Xf)).
  { intros k. transitivity (S_ph (csub (vt k) (v k)) (i k)).
    - unfold S_ph, csub, cscale, cmul, conj. apply cx_eq; cbn [re im]; ring.
    - rewrite H. unfold S_ph, cnorm2, cscale, cmul, conj. apply cx_eq; cbn [re im]; field. }
  assert (D' : forall k, power (csub (vt k) (v k)) (i k) = cscale (cnorm2 (i k) / 2) (Cx Rf Xf)).
  { intros k. rewrite <- D. unfold power, S_ph, csub, cscale, cmul, conj. apply cx_eq; cbn [re im]; ring. }
  assert (D1 : forall k, re (S_ph (vt k) (i k)) - re (S_ph (v k) (i k)) = cnorm2 (i k) / 2 * Rf) by (intros k; exact (f_equal re (D k))).
  assert (D2 : forall k, im (S_ph (vt k) (i k)) - im (S_ph (v k) (i k)) = cnorm2 (i k) / 2 * Xf) by (intros k; exact (f_equal im (D k))).
  unfold r, validate_model. cbn [Pf_phasor Qf_phasor Pf_RMS Qf_RMS].
  destruct ty; cbn [is3 delivered S_total nph Irms_of]; rewrite Urms_sq; unfold total_power; rewrite ?D'; unfold sum3, cadd, cscale; cbn [re im];
    (split; [|split]).
  - rewrite D1. field.
  - rewrite D2. field.
  - apply cx_eq; cbn [re im]; field.
  - pose proof (D1 PA). pose proof (D1 PB). pose proof (D1 PC). lra.
  - pose proof (D2 PA). pose proof (D2 PB). pose proof (D2 PC). lra.
  - apply cx_eq; cbn [re im]; field.
  - pose proof (D1 PA). pose proof (D1 PB). pose proof (D1 PC). lra.
  - pose proof (D2 PA). pose proof (D2 PB). pose proof (D2 PC). lra.
  - apply cx_eq; cbn [re im]; field.
Qed.
Print Assumptions C87_filter_power.

Example C87_hypotheses_met :
  exists Rf Xf vt v i, (forall k, csub (vt k) (v k) = cmul (Cx Rf Xf) (i k)) /\
  (let r := validate_model VThreeFull Rf Xf vt v i in Pt_phasor r = 3 /\ Pf_RMS r = 3/2) /\ power (vt PA) (i PA) <> Cx 0 0.
Proof.
  exists 1, 1, (fun k => rot k (Cx 2 1)), (fun k => rot k (Cx 1 0)), (fun k => rot k (Cx 1 0)).
  assert (F : forall k, csub (rot k (Cx 2 1)) (rot k (Cx 1 0)) = cmul (Cx 1 1) (rot k (Cx 1 0))).
  { intros k. rewrite rot_sub. destruct (CircuitProperties3.rot_form k (Cx 1 0)) as (c & _ & Hc & _). rewrite !Hc. unfold csub, cmul. apply cx_eq; cbn [re im]; ring. }
  split; [exact F|]. split.
  - cbv zeta. destruct (C87_terminal_power_partial VThreeFull 1 1 (fun k => rot k (Cx 2 1)) (fun k => rot k (Cx 1 0)) (fun k => rot k (Cx 1 0))) as [A _]; [discriminate|].
    destruct (C87_filter_power VThreeFull 1 1 _ _ _ F) as (_ & _ & B). cbv zeta in A, B. cbn [is3 delivered] in A, B. rewrite total_rot in A.
    assert (B' : total_power (fun k => csub (rot k (Cx 2 1)) (rot k (Cx 1 0))) (fun k => rot k (Cx 1 0)) = Cx (3/2) (3/2)).
    { transitivity (total_power (fun k => rot k (csub (Cx 2 1) (Cx 1 0))) (fun k => rot k (Cx 1 0))).
      - unfold total_power. rewrite !rot_sub. reflexivity.
      - rewrite total_rot. unfold power, csub, cscale, cmul, conj. apply cx_eq; cbn [re im]; field. }
    rewrite B' in B. split.
    + pose proof (f_equal re A) as A1. cbn [re] in A1. rewrite A1. unfold power, cscale, cmul, conj. cbn [re im]. field.
    + exact (f_equal re B).
  - cbn [rot]. unfold power, cscale, cmul, conj. cbn [re im]. intros Z. apply (f_equal re) in Z. cbn in Z. lra.
Qed.
