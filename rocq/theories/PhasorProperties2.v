(** Properties C47, C48, C67, C68: time-domain signals, RMS values, angles. *)
From Verif Require Import RBase PhasorModel PhasorProperties.

(** * Polar form *)
Lemma cabs_atan x y : x <> 0 -> sqrt (x * x + y * y) = Rabs x * sqrt (1 + (y / x) * (y / x)).
Proof.
  intros H. rewrite <- sqrt_Rsqr_abs, <- sqrt_mult.
  - f_equal. unfold Rsqr. field. auto.
  - apply Rle_0_sqr.
  - nra.
Qed.
Lemma cos_atan x : cos (atan x) = / sqrt (1 + x * x).
Proof. rewrite cos_atan. unfold Rsqr, Rdiv. ring. Qed.
Lemma sin_atan x : sin (atan x) = x / sqrt (1 + x * x).
Proof. rewrite sin_atan. unfold Rsqr. reflexivity. Qed.

Theorem polar_rect z : z = crect (cabs z) (cphase z).
Proof.
  destruct z as [x y]. unfold crect, cscale, cexp, cabs, cphase, cnorm2. cbn [re im].
  assert (P : forall k, 0 < sqrt (1 + k * k)) by (intros; apply sqrt_lt_R0; nra).
  destruct (rlt 0 x) eqn:E1; rb.
  - rewrite cabs_atan by lra. rewrite cos_atan, sin_atan, Rabs_pos_eq by lra.
    specialize (P (y / x)). set (r := sqrt (1 + y / x * (y / x))) in *. clearbody r.
    apply cx_eq; cbn [re im]; field; lra.
  - destruct (rlt x 0) eqn:E2; rb.
    + assert (A : cos (atan (y/x) + PI) = - cos (atan (y/x)) /\ sin (atan (y/x) + PI) = - sin (atan (y/x))).
      { rewrite neg_cos, neg_sin. auto. }
      assert (B : cos (atan (y/x) - PI) = - cos (atan (y/x)) /\ sin (atan (y/x) - PI) = - sin (atan (y/x))).
      { unfold Rminus. rewrite cos_plus, sin_plus, cos_neg, sin_neg, cos_PI, sin_PI. lra. }
      rewrite cabs_atan by lra. rewrite Rabs_left by lra.
      specialize (P (y / x)).
      destruct (rle 0 y); (apply cx_eq; cbn [re im]);
        rewrite ?(proj1 A), ?(proj2 A), ?(proj1 B), ?(proj2 B), cos_atan || rewrite ?(proj1 A), ?(proj2 A), ?(proj1 B), ?(proj2 B), sin_atan;
        set (r := sqrt (1 + y / x * (y / x))) in *; clearbody r; field; lra.
    + assert (x = 0) by lra. subst x. replace (0 * 0 + y * y) with (y * y) by ring.
      destruct (rlt 0 y) eqn:E3; rb; [|destruct (rlt y 0) eqn:E4; rb].
      * rewrite sqrt_square by lra. rewrite cos_PI2, sin_PI2. apply cx_eq; cbn [re im]; ring.
      * replace (y * y) with ((- y) * (- y)) by ring. rewrite sqrt_square by lra.
        rewrite cos_neg, sin_neg, cos_PI2, sin_PI2. apply cx_eq; cbn [re im]; ring.
      * assert (y = 0) by lra. subst y. replace (0 * 0) with 0 by ring. rewrite sqrt_0. apply cx_eq; cbn [re im]; ring.
Qed.

Lemma atan_range x : - (PI/2) < atan x < PI/2.
Proof. pose proof (atan_bound x). lra. Qed.
Lemma cphase_range z : - PI < cphase z <= PI.
Proof.
  pose proof PI_RGT_0. unfold cphase. pose proof (atan_range (im z / re z)) as A.
  destruct (rlt 0 (re z)) eqn:E1; rb; [lra|]. destruct (rlt (re z) 0) eqn:E2; rb.
  - destruct (rle 0 (im z)) eqn:E3; rb.
    + assert (im z / re z <= 0).
      { unfold Rdiv. assert (/ re z < 0) by (apply Rinv_lt_0_compat; auto). nra. }
      assert (atan (im z / re z) <= 0).
      { destruct (Req_dec (im z / re z) 0) as [->|N]; [rewrite atan_0; lra|].
        rewrite <- atan_0. left. apply atan_increasing. lra. }
      lra.
    + assert (0 < im z / re z).
      { unfold Rdiv. assert (/ re z < 0) by (apply Rinv_lt_0_compat; auto). nra. }
      assert (0 < atan (im z / re z)) by (rewrite <- atan_0; apply atan_increasing; lra).
      lra.
  - destruct (rlt 0 (im z)); [lra|]. destruct (rlt (im z) 0); lra.
Qed.

(** the instantaneous value of a phasor r.e^(j phi) is r.sin(w t + phi) *)
Lemma time_sin u w t : phasor_to_time_1phase u w t = re u * sin (w * t) + im u * cos (w * t).
Proof.
  unfold phasor_to_time_1phase. rewrite (polar_rect u) at 3 4. unfold crect, cscale, cexp. cbn [re im].
  replace (w * t + cphase u - PI / 2) with (- (PI/2 - (w * t + cphase u))) by ring.
  rewrite cos_neg, cos_shift, sin_plus. ring.
Qed.
Lemma time_rect r phi w t : phasor_to_time_1phase (crect r phi) w t = r * sin (w * t + phi).
Proof. rewrite time_sin, sin_plus. unfold crect, cscale, cexp. cbn [re im]. ring. Qed.

(** * C47 *)
(** PLL input for a balanced set of peak V and phase p, three-phase and
    single-phase DERs. *)
Theorem C47_pll_error :
  forall V p w t wte, let u := crect V p in
  vd_three_phase u (Ub_calc u) (Uc_calc u) w t wte = V * sin (w * t + p - wte) /\
  vd_single_phase u w t wte = V * sin (w * t + p - wte).
Proof.
  intros V p w t wte. cbv zeta. destruct (C44_balanced_set (crect V p)) as (_ & _ & _ & H).
  destruct (H V p eq_refl) as [Eb Ec].
  split.
  - unfold vd_three_phase, phasor_to_time. rewrite Eb, Ec, !time_rect.
    set (th := w * t + p).
    replace (w * t + (p - 120 * PI / 180)) with (th + - (2/3) * PI) by (unfold th; field).
    replace (w * t + (p + 120 * PI / 180)) with (th + 2/3 * PI) by (unfold th; field).
    clearbody th. unfold abc_to_dq0. rewrite cexp_p, cexp_m. unfold cexp. rewrite cos_neg, sin_neg.
    cbn [re im cscale cmul cadd RtoCx].
    rewrite sin_minus, !sin_plus, cos_2_3, sin_2_3, cos_m2_3, sin_m2_3. fold w3.
    pose proof w3_sq4 as W. set (a := w3) in *. clearbody a.
    set (S1 := sin th). set (C1 := cos th). set (S2 := sin wte). set (C2 := cos wte). clearbody S1 C1 S2 C2. nz.
  - unfold vd_single_phase.
    assert (E : cmul (crect V p) (cexp (- (PI/2))) = crect V (p - PI/2)).
    { unfold crect, cscale, cexp, cmul. cbn [re im]. rewrite cos_minus, sin_minus, cos_neg, sin_neg, cos_PI2, sin_PI2.
      apply cx_eq; cbn [re im]; ring. }
    rewrite E, !time_rect. unfold alpha_beta_to_d_q, cexp, cmul. cbn [re im fst].
    rewrite cos_neg, sin_neg. replace (w * t + (p - PI/2)) with (w * t + p - PI/2) by ring.
    rewrite (sin_minus (w*t+p) wte), (sin_minus (w * t + p) (PI/2)), cos_PI2, sin_PI2. ring.
Qed.
Print Assumptions C47_pll_error.

(** Lock point: no error, the PLL runs at 60 Hz plus its integrator state; ahead
    of / behind the lock point the frequency is raised / lowered. *)
Theorem C47_lock_point :
  forall V p w t wte Kp x, 0 < V -> 0 < Kp ->
  let u := crect V p in let vd := vd_three_phase u (Ub_calc u) (Uc_calc u) w t wte in
  let e := w * t + p - wte in
  (e = 0 -> vd = 0 /\ we_calc Kp vd x = 2 * PI * 60 + x) /\
  (0 < e < PI -> 0 < vd /\ 2 * PI * 60 + x < we_calc Kp vd x) /\
  (- PI < e < 0 -> vd < 0 /\ we_calc Kp vd x < 2 * PI * 60 + x).
Proof.
  intros V p w t wte Kp x HV HK. cbv zeta. rewrite (proj1 (C47_pll_error V p w t wte)).
  set (e := w * t + p - wte). clearbody e. unfold we_calc. repeat split.
  - subst. rewrite sin_0. ring.
  - subst. rewrite sin_0. ring.
  - apply Rmult_lt_0_compat; auto. apply sin_gt_0; lra.
  - assert (0 < Kp * (V * sin e)) by (repeat apply Rmult_lt_0_compat; auto; apply sin_gt_0; lra). lra.
  - assert (0 < V * sin (- e)) by (apply Rmult_lt_0_compat; auto; apply sin_gt_0; lra). rewrite sin_neg in *. lra.
  - assert (0 < Kp * (V * sin (- e))) by (repeat apply Rmult_lt_0_compat; auto; apply sin_gt_0; lra). rewrite sin_neg in *. lra.
Qed.
Print Assumptions C47_lock_point.

Example C47_hypotheses_met : let e := 377 * 1 + 1 - 377 in 0 < e < PI.
Proof. cbv zeta. pose proof PI_4. pose proof PI2_3_2. unfold PI2 in *. lra. Qed.

(** * C48 *)
(** RMS of one phasor *)
Definition rms (u : cx) : R := cabs u / sqrt 2.
Theorem C48_rms_measurements :
  forall a b c,
  let lo := Urms_min_calc a b c in let av := Urms_calc a b c in
  0 <= lo /\ lo <= av /\
  (lo = rms a \/ lo = rms b \/ lo = rms c) /\ lo <= rms a /\ lo <= rms b /\ lo <= rms c /\
  av * av = (rms a * rms a + rms b * rms b + rms c * rms c) / 3 /\
  (av <= rms a \/ av <= rms b \/ av <= rms c) /\
  (cabs b = cabs a -> cabs c = cabs a -> lo = rms a /\ av = rms a) /\
  Urms_calc a a a = Urms_calc_1phase a.
Proof.
  intros a b c. cbv zeta. unfold Urms_min_calc, Urms_calc, Urms_calc_1phase, rms.
  pose proof (cabs_nonneg a) as Ha. pose proof (cabs_nonneg b) as Hb. pose proof (cabs_nonneg c) as Hc.
  set (x := cabs a) in *. set (y := cabs b) in *. set (z := cabs c) in *. clearbody x y z.
  assert (Hs : 0 < sqrt 2) by (apply sqrt_lt_R0; lra).
  assert (Hi : 0 < / sqrt 2) by (apply Rinv_0_lt_compat; auto).
  assert (D : forall p q, p <= q -> p / sqrt 2 <= q / sqrt 2) by (intros; apply Rmult_le_compat_r; lra).
  assert (Hq : 0 <= (x^2 + y^2 + z^2)/3) by nra.
  pose proof (sqrt_pos ((x^2 + y^2 + z^2)/3)) as Hr. pose proof (sqrt_sqrt _ Hq) as Hrr.
  set (r := sqrt ((x^2 + y^2 + z^2)/3)) in *.
  assert (Hm : let m := Rmin (Rmin x y) z in 0 <= m /\ m <= x /\ m <= y /\ m <= z /\ (m = x \/ m = y \/ m = z)).
  { cbv zeta. unfold Rmin. destruct (Rle_dec x y); [destruct (Rle_dec x z)|destruct (Rle_dec y z)]; repeat split; auto; lra. }
  cbv zeta in Hm. set (m := Rmin (Rmin x y) z) in *. destruct Hm as (M0 & Mx & My & Mz & Me).
  assert (Mr : m <= r) by (apply Rsqr_incr_0; unfold Rsqr; nra).
  assert (Rx : r <= x \/ r <= y \/ r <= z).
  { destruct (Rle_dec r x); auto. destruct (Rle_dec r y); auto. destruct (Rle_dec r z); auto. exfalso. nra. }
  split; [apply Rmult_le_pos; lra|]. split; [auto|].
  split; [destruct Me as [->|[->| ->]]; auto|]. split; [auto|]. split; [auto|]. split; [auto|].
  split.
  { replace (r / sqrt 2 * (r / sqrt 2)) with (r * r * (/ sqrt 2 * / sqrt 2)) by (field; lra).
    rewrite Hrr. field. lra. }
  split; [destruct Rx as [|[|]]; auto|].
  split.
  - intros -> ->. assert (r = x) by (apply Rsqr_inj; unfold Rsqr; nra). assert (m = x) by (destruct Me as [|[|]]; auto).
    rewrite H, H0. auto.
  - f_equal. replace ((x^2 + x^2 + x^2)/3) with (x * x) by field. apply sqrt_square. auto.
Qed.
Print Assumptions C48_rms_measurements.

(** sinusoidal meaning: for a phasor u the mean square of its waveform over half
    a period apart is rms^2: u(t)^2 + u(t+T/4)^2 = 2 rms(u)^2 *)
Theorem C48_rms_of_waveform :
  forall u w t, 0 < w ->
  (phasor_to_time_1phase u w t)^2 + (phasor_to_time_1phase u w (t + PI / (2 * w)))^2 = 2 * rms u * rms u.
Proof.
  intros u w t Hw. rewrite !time_sin. replace (w * (t + PI / (2 * w))) with (w * t + PI/2) by (field; lra).
  rewrite sin_plus, cos_plus, cos_PI2, sin_PI2. unfold rms.
  assert (Hs : 0 < sqrt 2) by (apply sqrt_lt_R0; lra).
  replace (2 * (cabs u / sqrt 2) * (cabs u / sqrt 2)) with (cabs u * cabs u * (2 / (sqrt 2 * sqrt 2))) by (field; lra).
  rewrite sqrt_sqrt by lra. rewrite cabs_sq. unfold cnorm2. pose proof (cos2_sin2 (w * t)) as T.
  set (C := cos (w * t)) in *. set (D := sin (w * t)) in *. clearbody C D.
  replace (_ + _) with ((re u * re u + im u * im u) * (C * C + D * D)) by ring. rewrite T. field.
Qed.
Print Assumptions C48_rms_of_waveform.

(** * C67: relative phase *)
Lemma py_mod_spec x m : 0 < m -> 0 <= py_mod x m < m /\ exists k : Z, x = py_mod x m + IZR k * m.
Proof.
  intros Hm. unfold py_mod. destruct (base_Int_part (x / m)) as [A B].
  set (k := Int_part (x / m)) in *. assert (E : x = x / m * m) by (field; lra).
  split; [|exists k; ring].
  set (q := x / m) in *. clearbody q k. subst x. split; nra.
Qed.
Theorem C67_relative_phase :
  forall u v, let d := relative_phase_calc u v false in
  0 <= d < 2 * PI /\
  relative_phase_calc u v true = d * 180 / PI /\
  cscale (cabs u * cabs v) (cexp d) = cmul u (conj v).
Proof.
  intros u v. cbv zeta. unfold relative_phase_calc. pose proof PI_RGT_0 as HP.
  destruct (py_mod_spec (degrees (cphase u - cphase v)) 360) as [R [k E]]; [lra|].
  set (m := py_mod _ 360) in *. clearbody m. unfold radians, degrees in *. split; [|split].
  - split; [apply Rmult_le_pos; [nra|lra]|]. unfold Rdiv. nra.
  - field. lra.
  - assert (Em : m * PI / 180 = cphase u - cphase v - 2 * IZR k * PI).
    { apply (f_equal (fun z => z * PI / 180)) in E. field_simplify in E; [|lra]. field_simplify. lra. }
    rewrite Em.
    assert (Ec : cexp (cphase u - cphase v - 2 * IZR k * PI) = cexp (cphase u - cphase v)).
    { unfold cexp. destruct k as [|n|n].
      - replace (cphase u - cphase v - 2 * IZR 0 * PI) with (cphase u - cphase v) by (simpl; ring). auto.
      - replace (IZR (Zpos n)) with (INR (Pos.to_nat n)) by (rewrite INR_IZR_INZ, positive_nat_Z; auto).
        rewrite <- (cos_period (cphase u - cphase v - 2 * INR (Pos.to_nat n) * PI) (Pos.to_nat n)).
        rewrite <- (sin_period (cphase u - cphase v - 2 * INR (Pos.to_nat n) * PI) (Pos.to_nat n)).
        f_equal; f_equal; ring.
      - replace (IZR (Zneg n)) with (- INR (Pos.to_nat n)) by (rewrite INR_IZR_INZ, positive_nat_Z; auto).
        rewrite <- (cos_period (cphase u - cphase v) (Pos.to_nat n)).
        rewrite <- (sin_period (cphase u - cphase v) (Pos.to_nat n)).
        f_equal; f_equal; ring. }
    rewrite Ec. rewrite (polar_rect u) at 3. rewrite (polar_rect v) at 3.
    unfold crect, cscale, cexp, cmul, conj. cbn [re im]. rewrite cos_minus, sin_minus.
    apply cx_eq; cbn [re im]; ring.
Qed.
Print Assumptions C67_relative_phase.

(** * C68: limit_complex *)
Theorem C68_limit_complex :
  forall z low high, low < high -> 0 <= high ->
  exists y, limit_complex z low high = Ok y /\
    cabs y <= high /\
    (0 <= low -> low <= cabs y) /\
    (low <= cabs z <= high -> y = z) /\
    (exists k, 0 <= k /\ cabs y = k /\ y = cscale k (cexp (cphase z))).
Proof.
  intros z low high Hlh Hh. unfold limit_complex.
  assert (E : rlt low high = true) by (apply rlt_iff; auto). rewrite E. eexists. split; [reflexivity|].
  pose proof (cabs_nonneg z) as Hz. set (r := Rmin (Rmax (cabs z) low) high).
  assert (Hr : 0 <= r /\ r <= high /\ (low <= r) /\ (low <= cabs z <= high -> r = cabs z)).
  { unfold r, Rmin, Rmax. destruct (Rle_dec (cabs z) low); [destruct (Rle_dec low high)|destruct (Rle_dec (cabs z) high)]; repeat split; intros; lra. }
  destruct Hr as (H0 & H1 & H2 & H3).
  assert (A : cabs (crect r (cphase z)) = r).
  { unfold cabs, crect, cscale, cexp, cnorm2. cbn [re im].
    replace (r * cos (cphase z) * (r * cos (cphase z)) + r * sin (cphase z) * (r * sin (cphase z))) with
      (r * r * (cos (cphase z) * cos (cphase z) + sin (cphase z) * sin (cphase z))) by ring.
    rewrite cos2_sin2, Rmult_1_r. apply sqrt_square. auto. }
  rewrite A. split; [auto|]. split; [auto|]. split.
  - intros K. rewrite (H3 K). symmetry. apply polar_rect.
  - exists r. auto.
Qed.
Print Assumptions C68_limit_complex.
Example C68_hypotheses_met : -1 < 1 /\ 0 <= 1.
Proof. lra. Qed.

(** the series version acts on every sample like limit_complex *)
Theorem C68_time_series :
  forall zs low high,
  (low < high -> exists ys, limit_complex_time_series zs low high = Ok ys /\ length ys = length zs /\
     forall n z, nth_error zs n = Some z -> exists y, nth_error ys n = Some y /\ limit_complex z low high = Ok y) /\
  (high <= low -> limit_complex_time_series zs low high = Raise Base.AssertionError).
Proof.
  intros zs low high. unfold limit_complex_time_series, limit_complex. split; intros H.
  - assert (E : rlt low high = true) by (apply rlt_iff; auto). rewrite E. cbn zeta. eexists. split; [reflexivity|].
    set (f := fun z => Cx (Rmin (Rmax (cabs z) low) high * cos (cphase z)) (Rmin (Rmax (cabs z) low) high * sin (cphase z))).
    assert (M : zip_with (fun r p => Cx (r * cos p) (r * sin p)) (zip_with Rmin (zip_with Rmax (map cabs zs) (np_full (length (map cabs zs)) low)) (np_full (length (map cabs zs)) high)) (map cphase zs) = map f zs).
    { unfold np_full. induction zs as [|z zs IH]; [reflexivity|]. cbn [map length repeat zip_with]. f_equal. exact IH. }
    rewrite M. split; [apply map_length|]. intros n z Hn. exists (f z). split; [now apply map_nth_error|].
    unfold f, crect, cscale, cexp. reflexivity.
  - assert (E : rlt low high = false) by (apply rlt_false; auto). now rewrite E.
Qed.
Print Assumptions C68_time_series.
