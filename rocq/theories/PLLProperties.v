(** C88: the phase-locked loop synchronises with a steady grid. *)
From Coq Require Import Classical Ranalysis5.
From Coquelicot Require Import Coquelicot.
From Verif Require Import RBase CxField PhasorModel PVModel ODEModel Const3Model PhasorProperties PhasorProperties2 CircuitProperties2.
Import RBase.
Open Scope R_scope.

(** * Specification vocabulary *)
(** a trajectory of a model from the instant T0 on (T0 itself excluded: an event
    may step the voltage there) *)
Definition trajectory_after (T0 : R) (ode : env -> st -> var -> R) (E : R -> env) (Y : R -> st) : Prop :=
  forall t v, T0 < t -> is_derive (fun s => Y s v) t (ode (E t) (Y t) v).
(** a real function tends to l as time goes on *)
Definition tends (f : R -> R) (l : R) : Prop :=
  forall eps, 0 < eps -> exists T, forall t, T < t -> Rabs (f t - l) < eps.
(** from T0 on the voltage at the connection point is the steady phasor V at angle
    ph of a grid of frequency w (rad/s) *)
Definition steady1 (p : prm) (T0 V ph w : R) (E : R -> env) (Y : R -> st) : Prop :=
  forall t, T0 < t -> e_t (E t) = t /\ e_wgrid (E t) = w /\
    v_calc p (E t) PA (i_of (Y t) PA) = crect V ph.
Definition steady3 (p : prm) (T0 V ph w : R) (E : R -> env) (Y : R -> st) : Prop :=
  forall t, T0 < t -> e_t (E t) = t /\ e_wgrid (E t) = w /\
    v_calc p (E t) PA (i_of (Y t) PA) = crect V ph /\
    v_calc p (E t) PB (i_of (Y t) PB) = Ub_calc (crect V ph) /\
    v_calc p (E t) PC (i_of (Y t) PC) = Uc_calc (crect V ph).
(** angle of the grid minus angle of the PLL, and the PLL frequency *)
Definition phase_error (w ph : R) (Y : R -> st) (t : R) : R := w * t + ph - Y t WTE.
Definition pll_freq (p : prm) (V w ph : R) (Y : R -> st) (t : R) : R :=
  2 * PI * 60 + Y t XPLL + Kp_PLL p * (V * sin (phase_error w ph Y t)).
(** "energy" of the loop *)
Definition pll_energy (p : prm) (V w ph : R) (Y : R -> st) (t : R) : R :=
  (Y t XPLL - (w - 2 * PI * 60)) ^ 2 / 2 + Ki_PLL p * V * (1 - cos (phase_error w ph Y t)).

(** * Calculus *)
Lemma mvt f df a b : a < b -> (forall t, a <= t <= b -> is_derive f t (df t)) ->
  exists c, a <= c <= b /\ f b - f a = df c * (b - a).
Proof.
  intros H D. destruct (MVT_gen f a b df) as (c & Hc & E).
  - intros x Hx. rewrite Rmin_left, Rmax_right in Hx by lra. apply D; lra.
  - intros x Hx. rewrite Rmin_left, Rmax_right in Hx by lra. apply continuity_pt_filterlim.
    apply (ex_derive_continuous f). exists (df x). apply D; lra.
  - rewrite Rmin_left, Rmax_right in Hc by lra. eauto.
Qed.
Lemma d_shift (f : R -> R) t l c : is_derive f t l -> is_derive (fun s => f s + c) t l.
Proof.
  intros D. pose proof (is_derive_plus (V := R_NormedModule) f (fun _ => c) t l 0 D (is_derive_const c t)) as K.
  unfold plus in K. simpl in K. rewrite Rplus_0_r in K. exact K.
Qed.
Lemma sin_lip a b : Rabs (sin a - sin b) <= Rabs (a - b).
Proof.
  destruct (Rtotal_order a b) as [H|[->|H]].
  - destruct (mvt sin cos a b H) as (c & _ & E). intros; apply is_derive_sin.
    rewrite Rabs_minus_sym, E, (Rabs_minus_sym a b), Rabs_mult. rewrite <- (Rmult_1_l (Rabs (b - a))) at 2.
    apply Rmult_le_compat_r; [apply Rabs_pos|]. apply Rabs_le. pose proof (COS_bound c). lra.
  - rewrite !Rminus_eq_0, Rabs_R0. lra.
  - destruct (mvt sin cos b a H) as (c & _ & E). intros; apply is_derive_sin.
    rewrite E, Rabs_mult. rewrite <- (Rmult_1_l (Rabs (a - b))) at 2.
    apply Rmult_le_compat_r; [apply Rabs_pos|]. apply Rabs_le. pose proof (COS_bound c). lra.
Qed.

(** a bounded-below non-increasing quantity drops by c only finitely often *)
Lemma finitely_often (f : R -> R) (Q : R -> Prop) T0 h c :
  0 < c -> 0 < h -> (forall t, T0 < t -> 0 <= f t) ->
  (forall s t, T0 < s -> s <= t -> f t <= f s) ->
  (forall t, T0 < t -> Q t -> f (t + h) <= f t - c) ->
  exists T, T0 <= T /\ forall t, T < t -> ~ Q t.
Proof.
  intros Hc Hh Hp Hm Hd.
  set (A := fun z => exists t, T0 < t /\ z = - f t).
  assert (B : bound A). { exists 0. intros z (t & Ht & ->). specialize (Hp t Ht). lra. }
  assert (N : exists z, A z). { exists (- f (T0 + 1)), (T0 + 1). split; [lra|auto]. }
  destruct (completeness A B N) as (m & Hub & Hl).
  assert (K : exists T, T0 < T /\ m - c < - f T).
  { apply NNPP. intros K. assert (is_upper_bound A (m - c)).
    { intros z (t & Ht & ->). apply Rnot_lt_le. intros L. apply K. exists t. auto. }
    specialize (Hl _ H). lra. }
  destruct K as (T & HT & K). exists T. split; [lra|]. intros t Ht HQ.
  assert (H1 : f (t + h) <= f t - c) by (apply Hd; auto; lra).
  assert (H2 : f t <= f T) by (apply Hm; lra).
  assert (H3 : - f (t + h) <= m) by (apply Hub; exists (t + h); split; [lra|auto]). lra.
Qed.

(** * The loop: d = phase error, x = integrator offset
       d' = - x - kp V sin d,   x' = ki V sin d *)
Section Loop.
Variables (kp ki T0 : R) (d x : R -> R).
Hypothesis Hkp : 0 < kp.
Hypothesis Hki : 0 < ki.
Hypothesis Dd : forall t, T0 < t -> is_derive d t (- x t - kp * sin (d t)).
Hypothesis Dx : forall t, T0 < t -> is_derive x t (ki * sin (d t)).
Let W t := x t ^ 2 / 2 + ki * (1 - cos (d t)).

Lemma W_derive t : T0 < t -> is_derive W t (- (kp * ki * sin (d t) ^ 2)).
Proof.
  intros Ht. unfold W.
  pose proof (d_sq x t _ (Dx t Ht)) as A.
  assert (B : is_derive (fun s => cos (d s)) t ((- x t - kp * sin (d t)) * - sin (d t))).
  { apply (is_derive_comp cos d). apply is_derive_cos. auto. }
  pose proof (d_lin _ _ t (1/2) (- ki) _ _ A B) as C.
  apply (is_derive_ext (fun s => (1 / 2 * (x s * x s) + - ki * cos (d s)) + ki)).
  { intros s. simpl. lra. }
  evar_last. apply d_shift. exact C. simpl. lra.
Qed.
Lemma W_mono s t : T0 < s -> s <= t -> W t <= W s.
Proof.
  intros Hs Hst. destruct (Req_dec s t) as [->|N]; [lra|].
  destruct (mvt W (fun t => - (kp * ki * sin (d t) ^ 2)) s t) as (c & Hc & E); [lra|intros; apply W_derive; lra|].
  assert (0 <= kp * ki * sin (d c) ^ 2 * (t - s)).
  { apply Rmult_le_pos; [|lra]. apply Rmult_le_pos; [nra|apply pow2_ge_0]. }
  lra.
Qed.
Lemma W_pos t : 0 <= W t.
Proof. unfold W. pose proof (COS_bound (d t)). pose proof (pow2_ge_0 (x t)). nra. Qed.
Lemma x_bound s t : T0 < s -> s <= t -> Rabs (x t) <= sqrt (2 * W s).
Proof.
  intros Hs Ht. pose proof (W_mono s t Hs Ht) as H. rewrite <- (sqrt_Rsqr_abs (x t)). apply sqrt_le_1_alt.
  unfold W in H at 1. pose proof (COS_bound (d t)). unfold Rsqr. nra.
Qed.

(** the sine of the error tends to 0 *)
Lemma sin_tends : tends (fun t => sin (d t)) 0.
Proof.
  intros eps He. set (s := T0 + 1). set (L := sqrt (2 * W s) + kp + 1).
  assert (HL : 0 < L). { unfold L. pose proof (sqrt_pos (2 * W s)). lra. }
  set (h := eps / (2 * L)). assert (Hh : 0 < h). { unfold h. apply Rdiv_lt_0_compat; lra. }
  destruct (finitely_often W (fun t => eps <= Rabs (sin (d t))) s h (kp * ki * (eps/2)^2 * h)) as (T & HT & K).
  - assert (0 < (eps / 2) ^ 2) by (apply pow_lt; lra). apply Rmult_lt_0_compat; auto. apply Rmult_lt_0_compat; auto. apply Rmult_lt_0_compat; auto.
  - auto.
  - intros; apply W_pos.
  - intros a b Ha Hab. apply W_mono; unfold s in *; lra.
  - intros t Ht HQ.
    destruct (mvt W (fun t => - (kp * ki * sin (d t) ^ 2)) t (t + h)) as (c & Hc & E);
      [lra|intros; apply W_derive; unfold s in *; lra|].
    assert (Hs : eps / 2 <= Rabs (sin (d c))).
    { destruct (Req_dec c t) as [->|N]; [lra|].
      destruct (mvt d (fun t => - x t - kp * sin (d t)) t c) as (b & Hb & Eb); [lra|intros; apply Dd; unfold s in *; lra|].
      assert (Hd : Rabs (- x b - kp * sin (d b)) <= L).
      { pose proof (x_bound s b ltac:(unfold s; lra) ltac:(unfold s in *; lra)) as Hx.
        pose proof (SIN_bound (d b)) as Sb. pose proof (Rabs_triang (- x b) (- kp * sin (d b))) as Tr.
        replace (- x b - kp * sin (d b)) with (- x b + - kp * sin (d b)) by lra.
        rewrite Rabs_Ropp, Rabs_mult in Tr. rewrite (Rabs_left (- kp)) in Tr by lra.
        assert (Rabs (sin (d b)) <= 1) by (apply Rabs_le; lra). unfold L. nra. }
      pose proof (sin_lip (d t) (d c)) as SL. rewrite (Rabs_minus_sym (d t)), Eb, Rabs_mult, (Rabs_pos_eq (c - t)) in SL by lra.
      pose proof (Rabs_triang (sin (d t) - sin (d c)) (sin (d c))) as Tr.
      replace (sin (d t) - sin (d c) + sin (d c)) with (sin (d t)) in Tr by lra.
      assert (Rabs (- x b - kp * sin (d b)) * (c - t) <= L * h).
      { apply Rmult_le_compat; try lra. apply Rabs_pos. }
      assert (L * h = eps / 2) by (unfold h; field; lra). lra. }
    assert ((eps/2)^2 <= sin (d c) ^ 2).
    { rewrite <- (pow2_abs (sin (d c))). apply pow_incr. lra. }
    assert (kp * ki * (eps/2)^2 * h <= kp * ki * sin (d c) ^ 2 * h).
    { apply Rmult_le_compat_r; [lra|]. apply Rmult_le_compat_l; [nra|auto]. }
    replace (t + h - t) with h in E by lra. lra.
  - exists T. intros t Ht. rewrite Rminus_0_r. apply Rnot_le_lt. apply K. auto.
Qed.

(** any interval of length PI contains a zero of the cosine *)
Lemma cos_zero_in a : exists b, a <= b <= a + PI /\ cos b = 0.
Proof.
  pose proof PI_RGT_0 as HP.
  set (k := up ((a - PI/2) / PI)). exists (IZR k * PI + PI / 2).
  destruct (archimed ((a - PI/2) / PI)) as [H1 H2]. fold k in H1, H2.
  assert (E : a - PI/2 = (a - PI/2) / PI * PI) by (field; lra).
  split.
  - split; [|].
    + assert ((a - PI/2) / PI * PI <= IZR k * PI) by (apply Rmult_le_compat_r; lra). lra.
    + assert (IZR k * PI <= ((a - PI/2) / PI + 1) * PI) by (apply Rmult_le_compat_r; lra). lra.
  - apply cos_eq_0_1. exists k. auto.
Qed.

Lemma d_cont t : T0 < t -> continuity_pt d t.
Proof. intros H. apply continuity_pt_filterlim. apply (ex_derive_continuous d). eexists. apply Dd. auto. Qed.

Lemma ivt_d a b v : T0 < a -> a < b -> (d a < v < d b \/ d b < v < d a) -> exists c, a <= c <= b /\ d c = v.
Proof.
  intros Ha Hab [H|H].
  - destruct (IVT_interv (fun t => d t - v) a b) as (c & Hc & E); try lra.
    + intros z Hz. apply continuity_pt_minus. apply d_cont; lra. apply continuity_pt_const. intros ? ?; auto.
    + exists c. split; [auto|lra].
  - destruct (IVT_interv (fun t => v - d t) a b) as (c & Hc & E); try lra.
    + intros z Hz. apply continuity_pt_minus. apply continuity_pt_const. intros ? ?; auto. apply d_cont; lra.
    + exists c. split; [auto|lra].
Qed.

(** the integrator offset tends to 0 *)
Lemma x_tends : tends x 0.
Proof.
  intros eps He. pose proof PI_RGT_0 as HP.
  set (h := 4 * PI / eps). assert (Hh : 0 < h) by (unfold h; apply Rdiv_lt_0_compat; lra).
  set (s := Rmin (1/2) (eps / (2 * (ki * h + kp)))).
  assert (Hk : 0 < ki * h + kp) by nra.
  assert (Hs : 0 < s). { unfold s. apply Rmin_glb_lt; [lra|]. apply Rdiv_lt_0_compat; lra. }
  assert (Hs1 : s <= 1/2) by apply Rmin_l.
  assert (Hs2 : (ki * h + kp) * s <= eps / 2).
  { apply Rle_trans with ((ki * h + kp) * (eps / (2 * (ki * h + kp)))).
    apply Rmult_le_compat_l; [lra|apply Rmin_r]. right. field. lra. }
  destruct (sin_tends s Hs) as (T & HT). set (T' := Rmax T T0). exists T'.
  intros t Ht. assert (Ht1 : T < t /\ T0 < t).
  { pose proof (Rmax_l T T0). pose proof (Rmax_r T T0). fold T' in H, H0. lra. }
  destruct Ht1 as [Ht1 Ht2]. rewrite Rminus_0_r. apply Rnot_le_lt. intros Hx.
  assert (Sin : forall c, t <= c -> - s < sin (d c) < s).
  { intros c Hc. specialize (HT c ltac:(lra)). rewrite Rminus_0_r in HT. apply Rabs_def2 in HT. lra. }
  assert (NoCos : forall c, t <= c -> cos (d c) <> 0).
  { intros c Hc E. pose proof (sin2_cos2 (d c)) as Q. unfold Rsqr in Q. rewrite E in Q. specialize (Sin c Hc). nra. }
  assert (Xc : forall c, t <= c <= t + h -> Rabs (x c - x t) <= ki * s * h).
  { intros c Hc. destruct (Req_dec c t) as [->|N].
    - rewrite Rminus_eq_0, Rabs_R0. apply Rmult_le_pos; [apply Rmult_le_pos|]; lra.
    - destruct (mvt x (fun t => ki * sin (d t)) t c) as (b & Hb & E); [lra|intros; apply Dx; lra|].
      rewrite E, Rabs_mult, Rabs_mult, (Rabs_pos_eq ki), (Rabs_pos_eq (c - t)) by lra.
      apply Rmult_le_compat; try lra. apply Rmult_le_pos; [lra|apply Rabs_pos].
      apply Rmult_le_compat_l; [lra|]. apply Rlt_le, Rabs_def1; apply Sin; lra. }
  destruct (mvt d (fun t => - x t - kp * sin (d t)) t (t + h)) as (c & Hc & E); [lra|intros; apply Dd; lra|].
  replace (t + h - t) with h in E by lra. specialize (Xc c Hc). pose proof (Sin c ltac:(lra)) as Sc.
  apply Rabs_le_between in Xc.
  assert (Hkps : - (kp * s) <= kp * sin (d c) <= kp * s) by (split; nra).
  assert (Hm : h * (eps / 2) = 2 * PI) by (unfold h; field; lra).
  destruct (Rle_lt_dec 0 (x t)) as [X|X].
  - rewrite Rabs_pos_eq in Hx by lra.
    assert (Y : - x c - kp * sin (d c) <= - (eps / 2)) by lra.
    assert (d (t + h) - d t <= - (2 * PI)) by (rewrite E; nra).
    destruct (cos_zero_in (d (t + h) + PI/2)) as (v & Hv & Cv).
    destruct (ivt_d t (t + h) v) as (c' & Hc' & Ev); [lra|lra|right; lra|].
    apply (NoCos c'); [lra|]. rewrite Ev. auto.
  - rewrite Rabs_left in Hx by lra.
    assert (Y : eps / 2 <= - x c - kp * sin (d c)) by lra.
    assert (2 * PI <= d (t + h) - d t) by (rewrite E; nra).
    destruct (cos_zero_in (d t + PI/2)) as (v & Hv & Cv).
    destruct (ivt_d t (t + h) v) as (c' & Hc' & Ev); [lra|lra|left; lra|].
    apply (NoCos c'); [lra|]. rewrite Ev. auto.
Qed.

(** no cycle slip, and convergence to the right angle, from below the barrier *)
Section Barrier.
Variable s : R.
Hypothesis Hs : T0 < s.
Hypothesis HW : W s < 2 * ki.
Hypothesis Hd0 : - PI < d s < PI.
Lemma no_slip t : s <= t -> - PI < d t < PI.
Proof.
  intros Ht. apply NNPP. intros N.
  assert (No : forall c, s <= c -> cos (d c) <> -1).
  { intros c Hc E. pose proof (W_mono s c Hs Hc) as M. unfold W in M at 1. rewrite E in M.
    pose proof (pow2_ge_0 (x c)). lra. }
  destruct (Req_dec s t) as [->|Ne]; [tauto|].
  assert (K : d t <= - PI \/ PI <= d t) by lra.
  pose proof (No t Ht) as Nt.
  destruct K as [K|K].
  - destruct (Req_dec (d t) (- PI)) as [Q|Q]; [apply Nt; rewrite Q, cos_neg, cos_PI; auto|].
    destruct (ivt_d s t (- PI)) as (c & Hc & E); [lra|lra|right; lra|].
    apply (No c); [lra|]. rewrite E, cos_neg. apply cos_PI.
  - destruct (Req_dec (d t) PI) as [Q|Q]; [apply Nt; rewrite Q, cos_PI; auto|].
    destruct (ivt_d s t PI) as (c & Hc & E); [lra|lra|left; lra|].
    apply (No c); [lra|]. rewrite E. apply cos_PI.
Qed.
Lemma d_tends : tends d 0.
Proof.
  intros eps He. pose proof PI_RGT_0 as HP.
  set (e := Rmin eps (PI/2)). assert (He1 : 0 < e) by (apply Rmin_glb_lt; lra).
  assert (He2 : e <= eps) by apply Rmin_l. assert (He3 : e <= PI/2) by apply Rmin_r.
  assert (Ce : 0 <= cos e < 1).
  { split. apply cos_ge_0; lra. rewrite <- cos_0. apply cos_decreasing_1; lra. }
  (* cos d >= -1 + mu *)
  set (mu := 2 - W s / ki).
  assert (Hmu : 0 < mu).
  { unfold mu. assert (W s / ki < 2); [|lra]. apply Rmult_lt_reg_r with ki; auto.
    replace (W s / ki * ki) with (W s) by (field; lra). lra. }
  assert (Hc : forall t, s <= t -> -1 + mu <= cos (d t)).
  { intros t Ht. pose proof (W_mono s t Hs Ht) as M. unfold W in M at 1. pose proof (pow2_ge_0 (x t)) as Px.
    assert (1 - cos (d t) <= W s / ki); [|unfold mu; lra].
    apply Rmult_le_reg_l with ki; auto. replace (ki * (W s / ki)) with (W s) by (field; lra). lra. }
  (* sin^2 = (1-cos)(1+cos) >= (1 - cos e) mu when |d| >= e *)
  set (q := sqrt ((1 - cos e) * mu)).
  assert (Hq0 : 0 < (1 - cos e) * mu) by (apply Rmult_lt_0_compat; lra).
  destruct (sin_tends q (sqrt_lt_R0 _ Hq0)) as (T & HT).
  exists (Rmax T s). intros t Ht.
  assert (Ht1 : T < t /\ s < t). { pose proof (Rmax_l T s). pose proof (Rmax_r T s). lra. }
  destruct Ht1 as [Ht1 Ht2]. rewrite Rminus_0_r.
  apply Rnot_le_lt. intros N.
  pose proof (no_slip t ltac:(lra)) as B. specialize (HT t Ht1). rewrite Rminus_0_r in HT.
  assert (C : cos (d t) <= cos e).
  { destruct (Rle_lt_dec 0 (d t)) as [P0|P0].
    - rewrite Rabs_pos_eq in N by lra. apply cos_decr_1; lra.
    - rewrite Rabs_left in N by lra. rewrite <- (cos_neg (d t)). apply cos_decr_1; lra. }
  specialize (Hc t ltac:(lra)).
  pose proof (sin2_cos2 (d t)) as Q. unfold Rsqr in Q.
  assert (S2 : (1 - cos e) * mu <= sin (d t) * sin (d t)).
  { replace (sin (d t) * sin (d t)) with ((1 - cos (d t)) * (1 + cos (d t))) by lra.
    apply Rmult_le_compat; lra. }
  apply sqrt_le_1_alt in S2. fold q in S2. change (sin (d t) * sin (d t)) with (Rsqr (sin (d t))) in S2.
  rewrite sqrt_Rsqr_abs in S2. lra.
Qed.
End Barrier.
End Loop.

(** * C88 for the five systems of equations *)
Definition pll_run (p : prm) (T0 V ph w : R) (E : R -> env) (Y : R -> st) : Prop :=
  (trajectory_after T0 (ode1 p) E Y /\ steady1 p T0 V ph w E Y) \/
  (trajectory_after T0 (ode3 p) E Y /\ steady3 p T0 V ph w E Y) \/
  (trajectory_after T0 (odeb p) E Y /\ steady1 p T0 V ph w E Y) \/
  (trajectory_after T0 (odec p) E Y /\ steady1 p T0 V ph w E Y) \/
  (trajectory_after T0 (ode3c p) E Y /\ steady3 p T0 V ph w E Y).

Lemma pll_equations p T0 V ph w E Y : pll_run p T0 V ph w E Y -> forall t, T0 < t ->
  is_derive (fun s => Y s XPLL) t (Ki_PLL p * (V * sin (phase_error w ph Y t))) /\
  is_derive (fun s => Y s WTE) t (pll_freq p V w ph Y t).
Proof.
  intros H t Ht. unfold pll_freq, phase_error.
  assert (K : exists vd, vd = V * sin (w * t + ph - Y t WTE) /\
    is_derive (fun s => Y s XPLL) t (Ki_PLL p * vd) /\ is_derive (fun s => Y s WTE) t (we_calc (Kp_PLL p) vd (Y t XPLL))).
  { destruct H as [[H St]|[[H St]|[[H St]|[[H St]|[H St]]]]]; pose proof (H t XPLL Ht) as D1; pose proof (H t WTE Ht) as D2;
      destruct (St t Ht) as (Et & Ew & Ev); cbn [ode1 ode3 odeb odec ode3c] in D1, D2; eexists; (split; [|split; [exact D1|exact D2]]).
    - unfold vd1. rewrite Et, Ew, Ev. apply C47_pll_error.
    - unfold vd3, v3_of. destruct Ev as (Ea & Eb & Ec). rewrite Et, Ew, Ea, Eb, Ec. apply C47_pll_error.
    - unfold vdb, vb_of, rot. rewrite Et, Ew, Ev. apply C47_pll_error.
    - unfold vd1. rewrite Et, Ew, Ev. apply C47_pll_error.
    - unfold vd3, v3_of. destruct Ev as (Ea & Eb & Ec). rewrite Et, Ew, Ea, Eb, Ec. apply C47_pll_error. }
  destruct K as (vd & -> & D1 & D2). split; [exact D1|].
  evar_last; [exact D2|]. unfold we_calc. lra.
Qed.

Section C88.
Variables (p : prm) (T0 V ph w : R) (E : R -> env) (Y : R -> st).
Hypothesis HV : 0 < V.
Hypothesis HKp : 0 < Kp_PLL p.
Hypothesis HKi : 0 < Ki_PLL p.
Hypothesis HR : pll_run p T0 V ph w E Y.
Let d := phase_error w ph Y.
Let x t := Y t XPLL - (w - 2 * PI * 60).
Lemma loop_d t : T0 < t -> is_derive d t (- x t - Kp_PLL p * V * sin (d t)).
Proof.
  intros Ht. destruct (pll_equations _ _ _ _ _ _ _ HR t Ht) as [_ D].
  unfold d at 1, phase_error. apply (is_derive_ext (fun s => (w * s + (-1) * Y s WTE) + ph)).
  { intros s. simpl. lra. }
  evar_last. apply d_shift.
  apply (d_lin (fun s => s) (fun s => Y s WTE) t w (-1) 1 (pll_freq p V w ph Y t)); [apply (is_derive_id t)|exact D].
  unfold x, pll_freq. fold d. lra.
Qed.
Lemma loop_x t : T0 < t -> is_derive x t (Ki_PLL p * V * sin (d t)).
Proof.
  intros Ht. destruct (pll_equations _ _ _ _ _ _ _ HR t Ht) as [D _].
  unfold x. apply (is_derive_ext (fun s => Y s XPLL + (- (w - 2 * PI * 60)))).
  { intros s. simpl. lra. }
  evar_last. apply d_shift. exact D. unfold d. lra.
Qed.
Lemma pos_kp : 0 < Kp_PLL p * V. Proof. apply Rmult_lt_0_compat; auto. Qed.
Lemma pos_ki : 0 < Ki_PLL p * V. Proof. apply Rmult_lt_0_compat; auto. Qed.
Lemma energy_W t : pll_energy p V w ph Y t = x t ^ 2 / 2 + Ki_PLL p * V * (1 - cos (d t)).
Proof. reflexivity. Qed.
Lemma pll_tends : tends (fun t => sin (d t)) 0 /\ tends x 0.
Proof.
  split; [apply (sin_tends (Kp_PLL p * V) (Ki_PLL p * V) T0 d x)|apply (x_tends (Kp_PLL p * V) (Ki_PLL p * V) T0 d x)];
  auto using pos_kp, pos_ki, loop_d, loop_x.
Qed.
Lemma pll_mono s t : T0 < s -> s <= t -> pll_energy p V w ph Y t <= pll_energy p V w ph Y s /\
  Rabs (x t) <= sqrt (2 * pll_energy p V w ph Y s).
Proof.
  intros Hs Ht. split.
  - apply (W_mono (Kp_PLL p * V) (Ki_PLL p * V) T0 d x); auto using pos_kp, pos_ki, loop_d, loop_x.
  - apply (x_bound (Kp_PLL p * V) (Ki_PLL p * V) T0 d x); auto using pos_kp, pos_ki, loop_d, loop_x.
Qed.
Lemma pll_phase s : T0 < s -> pll_energy p V w ph Y s < 2 * (Ki_PLL p * V) -> - PI < d s < PI ->
  (forall t, s <= t -> - PI < d t < PI) /\ tends d 0.
Proof.
  intros Hs HW Hd. split.
  - intros t Ht. apply (no_slip (Kp_PLL p * V) (Ki_PLL p * V) T0 d x) with (s := s); auto using pos_kp, pos_ki, loop_d, loop_x.
  - apply (d_tends (Kp_PLL p * V) (Ki_PLL p * V) T0 d x) with (s := s); auto using pos_kp, pos_ki, loop_d, loop_x.
Qed.
End C88.

Lemma tends_plus f g a b : tends f a -> tends g b -> tends (fun t => f t + g t) (a + b).
Proof.
  intros F G eps He. destruct (F (eps/2)) as (T1 & H1); [lra|]. destruct (G (eps/2)) as (T2 & H2); [lra|].
  exists (Rmax T1 T2). intros t Ht. pose proof (Rmax_l T1 T2). pose proof (Rmax_r T1 T2).
  specialize (H1 t ltac:(lra)). specialize (H2 t ltac:(lra)).
  replace (f t + g t - (a + b)) with ((f t - a) + (g t - b)) by lra.
  eapply Rle_lt_trans; [apply Rabs_triang|]. lra.
Qed.
Lemma tends_scal f a c : tends f a -> tends (fun t => c * f t) (c * a).
Proof.
  intros F eps He. destruct (F (eps / (Rabs c + 1))) as (T & H).
  { apply Rdiv_lt_0_compat; auto. pose proof (Rabs_pos c). lra. }
  exists T. intros t Ht. specialize (H t Ht). rewrite <- Rmult_minus_distr_l, Rabs_mult.
  pose proof (Rabs_pos c) as Pc. apply Rle_lt_trans with ((Rabs c + 1) * Rabs (f t - a) - Rabs (f t - a)); [lra|].
  assert ((Rabs c + 1) * Rabs (f t - a) < eps).
  { apply Rlt_le_trans with ((Rabs c + 1) * (eps / (Rabs c + 1))); [apply Rmult_lt_compat_l; lra|right; field; lra]. }
  pose proof (Rabs_pos (f t - a)). lra.
Qed.
Lemma tends_ext f g a : (forall t, f t = g t) -> tends f a -> tends g a.
Proof. intros H F eps He. destruct (F eps He) as (T & K). exists T. intros t Ht. rewrite <- H. auto. Qed.

(** ** Frequency: from every state, the frequency of the PLL angle converges to the
    frequency of the grid, and its integrator to the offset from 60 Hz *)
Theorem C88_frequency_locks :
  forall p T0 V ph w E Y, 0 < V -> 0 < Kp_PLL p -> 0 < Ki_PLL p -> pll_run p T0 V ph w E Y ->
  (forall t, T0 < t -> is_derive (fun s => Y s WTE) t (pll_freq p V w ph Y t)) /\
  tends (pll_freq p V w ph Y) w /\
  tends (fun t => Y t XPLL) (w - 2 * PI * 60) /\
  tends (fun t => sin (phase_error w ph Y t)) 0.
Proof.
  intros p T0 V ph w E Y HV HKp HKi HR. destruct (pll_tends p T0 V ph w E Y HV HKp HKi HR) as [A B]. cbv zeta in A, B.
  split; [intros; eapply pll_equations; eauto|].
  assert (X : tends (fun t => Y t XPLL) (w - 2 * PI * 60)).
  { intros eps He. destruct (B eps He) as (T & K). exists T. intros t Ht. specialize (K t Ht). rewrite Rminus_0_r in K. auto. }
  split; [|auto].
  replace w with (2 * PI * 60 + (w - 2 * PI * 60) + (Kp_PLL p * V) * 0) at 2 by lra.
  apply (tends_ext (fun t => (2 * PI * 60 + Y t XPLL) + (Kp_PLL p * V) * sin (phase_error w ph Y t))).
  { intros t. unfold pll_freq. lra. }
  apply (tends_plus (fun t => 2 * PI * 60 + Y t XPLL) (fun t => (Kp_PLL p * V) * sin (phase_error w ph Y t))).
  - apply (tends_plus (fun _ => 2 * PI * 60)); auto. intros eps He. exists 0. intros. rewrite Rminus_eq_0, Rabs_R0. auto.
  - apply (tends_scal (fun t => sin (phase_error w ph Y t))). auto.
Qed.
Print Assumptions C88_frequency_locks.

(** ** Excursions: the energy never grows, so neither does the bound on the
    frequency offset held by the integrator *)
Theorem C88_excursion_bounded :
  forall p T0 V ph w E Y, 0 < V -> 0 < Kp_PLL p -> 0 < Ki_PLL p -> pll_run p T0 V ph w E Y ->
  forall s t, T0 < s -> s <= t ->
  pll_energy p V w ph Y t <= pll_energy p V w ph Y s /\
  Rabs (Y t XPLL - (w - 2 * PI * 60)) <= sqrt (2 * pll_energy p V w ph Y s) /\
  Rabs (pll_freq p V w ph Y t - w) <= sqrt (2 * pll_energy p V w ph Y s) + Kp_PLL p * V.
Proof.
  intros p T0 V ph w E Y HV HKp HKi HR s t Hs Ht.
  destruct (pll_mono p T0 V ph w E Y HV HKp HKi HR s t Hs Ht) as [A B]. cbv zeta in A, B. repeat split; auto.
  unfold pll_freq. pose proof (SIN_bound (phase_error w ph Y t)) as Sb. pose proof (pos_kp p V HV HKp) as K.
  replace (2 * PI * 60 + Y t XPLL + Kp_PLL p * (V * sin (phase_error w ph Y t)) - w)
    with ((Y t XPLL - (w - 2 * PI * 60)) + Kp_PLL p * V * sin (phase_error w ph Y t)) by lra.
  eapply Rle_trans; [apply Rabs_triang|]. apply Rplus_le_compat; auto.
  rewrite Rabs_mult, (Rabs_pos_eq (Kp_PLL p * V)) by lra.
  assert (Rabs (sin (phase_error w ph Y t)) <= 1) by (apply Rabs_le; lra). nra.
Qed.
Print Assumptions C88_excursion_bounded.

(** ** Phase: from every state below the energy barrier 2 Ki V the error stays within
    half a turn (no cycle slip) and converges to zero *)
Theorem C88_phase_locks :
  forall p T0 V ph w E Y s, 0 < V -> 0 < Kp_PLL p -> 0 < Ki_PLL p -> pll_run p T0 V ph w E Y ->
  T0 < s -> pll_energy p V w ph Y s < 2 * (Ki_PLL p * V) -> - PI < phase_error w ph Y s < PI ->
  (forall t, s <= t -> - PI < phase_error w ph Y t < PI) /\ tends (phase_error w ph Y) 0.
Proof. intros p T0 V ph w E Y s HV HKp HKi HR Hs He Hd. apply (pll_phase p T0 V ph w E Y HV HKp HKi HR s Hs He Hd). Qed.
Print Assumptions C88_phase_locks.

(** at the frequency of the grid every initial angle except opposition locks *)
Theorem C88_phase_locks_at_grid_frequency :
  forall p T0 V ph w E Y s, 0 < V -> 0 < Kp_PLL p -> 0 < Ki_PLL p -> pll_run p T0 V ph w E Y ->
  T0 < s -> Y s XPLL = w - 2 * PI * 60 -> - PI < phase_error w ph Y s < PI ->
  tends (phase_error w ph Y) 0.
Proof.
  intros p T0 V ph w E Y s HV HKp HKi HR Hs Hx Hd. apply (C88_phase_locks p T0 V ph w E Y s); auto.
  unfold pll_energy. rewrite Hx, Rminus_eq_0. pose proof (pos_ki p V HV HKi).
  assert (-1 < cos (phase_error w ph Y s)); [|nra].
  rewrite <- cos_PI. destruct (Rle_lt_dec 0 (phase_error w ph Y s)).
  - apply cos_decreasing_1; lra.
  - rewrite <- (cos_neg (phase_error w ph Y s)). apply cos_decreasing_1; lra.
Qed.
Print Assumptions C88_phase_locks_at_grid_frequency.

(** ** A locked PLL stays exactly locked *)
Theorem C88_locked_stays_locked :
  forall p T0 V ph w E Y s, 0 < V -> 0 < Kp_PLL p -> 0 < Ki_PLL p -> pll_run p T0 V ph w E Y ->
  T0 < s -> phase_error w ph Y s = 0 -> Y s XPLL = w - 2 * PI * 60 ->
  forall t, s <= t -> Y t WTE = w * t + ph /\ Y t XPLL = w - 2 * PI * 60 /\ pll_freq p V w ph Y t = w.
Proof.
  intros p T0 V ph w E Y s HV HKp HKi HR Hs Hd Hx t Ht.
  pose proof (pos_ki p V HV HKi) as Pk. pose proof PI_RGT_0 as HP.
  assert (E0 : pll_energy p V w ph Y s = 0) by (unfold pll_energy; rewrite Hd, Hx, cos_0; lra).
  destruct (C88_excursion_bounded p T0 V ph w E Y HV HKp HKi HR s t Hs Ht) as (A & _).
  destruct (C88_phase_locks p T0 V ph w E Y s HV HKp HKi HR Hs) as [B _]; [lra|lra|]. specialize (B t Ht).
  rewrite E0 in A. unfold pll_energy in A.
  pose proof (COS_bound (phase_error w ph Y t)) as C. pose proof (pow2_ge_0 (Y t XPLL - (w - 2 * PI * 60))) as D.
  assert (X : (Y t XPLL - (w - 2 * PI * 60)) = 0) by nra.
  assert (Q : cos (phase_error w ph Y t) = 1) by nra.
  assert (Z : phase_error w ph Y t = 0).
  { destruct (Rtotal_order (phase_error w ph Y t) 0) as [K|[K|K]]; auto; exfalso.
    - assert (cos (- phase_error w ph Y t) < cos 0) by (apply cos_decreasing_1; lra). rewrite cos_neg, cos_0 in H. lra.
    - assert (cos (phase_error w ph Y t) < cos 0) by (apply cos_decreasing_1; lra). rewrite cos_0 in H. lra. }
  unfold pll_freq. rewrite Z, sin_0. unfold phase_error in Z. repeat split; lra.
Qed.
Print Assumptions C88_locked_stays_locked.

(** * The hypotheses are met: a disconnected, idle single-phase DER on a steady
    external voltage, its PLL at angle e0 from the grid *)
Definition idle_env (V ph w t : R) (m : pvm) : env :=
  Env t w (crect V ph) (crect V ph) (crect V ph) None 0 1 m false 0.
Definition idle_state (V ph w e0 t : R) : st := fun v => match v with
  | P PA CxR => re (crect V ph) | P PA CxI => im (crect V ph)
  | VDC => 2 | XPLL => w - 2 * PI * 60 | WTE => w * t + ph - e0 | _ => 0 end.
Lemma aw_zero0 b a x : aw b a x 0 = 0.
Proof. unfold aw. destruct b; auto. destruct (same_sign a x); auto. Qed.
Lemma idle_trajectory p V ph w e0 m T0 : sin e0 = 0 ->
  trajectory_after T0 (ode1 p) (fun t => idle_env V ph w t m) (fun t => idle_state V ph w e0 t) /\
  steady1 p T0 V ph w (fun t => idle_env V ph w t m) (fun t => idle_state V ph w e0 t).
Proof.
  intros He. split; [|intros t _; repeat split].
  intros t v _.
  assert (Vd : vd1 p (idle_env V ph w t m) (idle_state V ph w e0 t) = 0).
  { unfold vd1. cbn [v_calc e_grid idle_env e_va e_wgrid e_t idle_state].
    destruct (C47_pll_error V ph w t (w * t + ph - e0)) as [_ ->].
    replace (w * t + ph - (w * t + ph - e0)) with e0 by lra. rewrite He. lra. }
  assert (Const : forall c, (forall s, idle_state V ph w e0 s v = c) -> is_derive (fun s => idle_state V ph w e0 s v) t 0).
  { intros c Hc. apply (is_derive_ext (fun _ => c)). intros; auto. apply (is_derive_const (K := R_AbsRing) c). }
  assert (Fin : forall r, r = 0 -> (exists c, forall s, idle_state V ph w e0 s v = c) -> is_derive (fun s => idle_state V ph w e0 s v) t r).
  { intros r -> (c & Hc). eapply Const; eauto. }
  assert (Im : im (S1_pcc p (idle_env V ph w t m) (idle_state V ph w e0 t)) = 0).
  { unfold S1_pcc, S_ph, cscale, cmul, conj, i_of. cbn [re im idle_state]. lra. }
  assert (Ri : re (S1_inv p (idle_state V ph w e0 t)) = 0).
  { unfold S1_inv, S_ph, cscale, cmul, conj, i_of. cbn [re im idle_state]. lra. }
  destruct v as [[| |] [| | | | |]| | | | | | |]; try (apply Fin; [reflexivity|eexists; intros ?; cbn [idle_state]; reflexivity]).
  - apply Fin; [|eexists; intros ?; cbn [idle_state]; reflexivity]. cbn [ode1 d_comp]. unfold di_re, vt_calc, m_calc, cscale, cadd, i_of, u_of, x_of, v_calc.
    cbn [re im idle_state e_grid idle_env e_va]. lra.
  - apply Fin; [|eexists; intros ?; cbn [idle_state]; reflexivity]. cbn [ode1 d_comp]. unfold di_im, vt_calc, m_calc, cscale, cadd, i_of, u_of, x_of, v_calc.
    cbn [re im idle_state e_grid idle_env e_va]. lra.
  - apply Fin; [|eexists; intros ?; cbn [idle_state]; reflexivity]. cbn [ode1 d_comp]. unfold dx_re, u_of. cbn [re im idle_state]. rewrite Rmult_0_r. apply aw_zero0.
  - apply Fin; [|eexists; intros ?; cbn [idle_state]; reflexivity]. cbn [ode1 d_comp]. unfold dx_im, u_of. cbn [re im idle_state]. rewrite Rmult_0_r. apply aw_zero0.
  - apply Fin; [|eexists; intros ?; cbn [idle_state]; reflexivity]. cbn [ode1 d_comp]. unfold du_re, u_err, u_of, i_of, eff_iref. cbn [re im idle_state e_conn idle_env].
    replace (wp p * (- 0 + 0 - 0)) with 0 by lra. apply aw_zero0.
  - apply Fin; [|eexists; intros ?; cbn [idle_state]; reflexivity]. cbn [ode1 d_comp]. unfold du_im, u_err, u_of, i_of, eff_iref. cbn [re im idle_state e_conn idle_env].
    replace (wp p * (- 0 + 0 - 0)) with 0 by lra. apply aw_zero0.
  - apply Fin; [|eexists; intros ?; cbn [idle_state]; reflexivity]. cbn [ode1]. rewrite Ri. unfold dVdc, eff_Ppv. cbn [e_conn idle_env]. unfold Rdiv. lra.
  - apply Fin; [|eexists; intros ?; cbn [idle_state]; reflexivity]. cbn [ode1]. unfold dxDC, eff_Vref. cbn [e_conn idle_env].
    rewrite Rminus_eq_0, Rmult_0_r. apply aw_zero0.
  - apply Fin; [|eexists; intros ?; cbn [idle_state]; reflexivity]. cbn [ode1]. rewrite Im. unfold dxQ, eff_Qref. cbn [e_conn idle_env].
    rewrite Rminus_eq_0, Rmult_0_r. apply aw_zero0.
  - apply Fin; [|eexists; intros ?; cbn [idle_state]; reflexivity]. cbn [ode1]. rewrite Vd. lra.
  - cbn [ode1]. rewrite Vd. unfold we_calc. cbn [idle_state].
    apply (is_derive_ext (fun s => w * s + (ph - e0))). { intros s. simpl. lra. }
    evar_last. apply d_shift. apply is_derive_scal; apply (is_derive_id t).
    unfold one. simpl. lra.
Qed.
Example C88_hypotheses_met : forall p m,
  pll_run p 0 1 0 400 (fun t => idle_env 1 0 400 t m) (fun t => idle_state 1 0 400 0 t) /\
  phase_error 400 0 (fun t => idle_state 1 0 400 0 t) 1 = 0.
Proof.
  intros p m. split; [left; apply idle_trajectory; apply sin_0|]. unfold phase_error. cbn [idle_state]. lra.
Qed.

(** The barrier cannot be dropped: in exact opposition the error signal is zero and
    the PLL keeps running at the grid frequency, half a turn off, for ever. *)
Theorem C88_opposition_never_locks :
  forall (p : prm) (m : pvm), exists E Y, pll_run p 0 1 0 (2 * PI * 60) E Y /\
  (forall t, Y t XPLL = 0) /\ (forall t, phase_error (2 * PI * 60) 0 Y t = PI) /\
  ~ tends (phase_error (2 * PI * 60) 0 Y) 0.
Proof.
  intros p m. pose proof PI_RGT_0 as HP.
  exists (fun t => idle_env 1 0 (2 * PI * 60) t m), (fun t => idle_state 1 0 (2 * PI * 60) PI t).
  assert (Ep : forall t, phase_error (2 * PI * 60) 0 (fun t => idle_state 1 0 (2 * PI * 60) PI t) t = PI).
  { intros t. unfold phase_error. cbn [idle_state]. lra. }
  split; [left; apply idle_trajectory; apply sin_PI|]. split; [intros t; cbn [idle_state]; lra|]. split; [auto|].
  intros K. destruct (K PI HP) as (T & HT). specialize (HT (T + 1) ltac:(lra)). rewrite Ep, Rminus_0_r, Rabs_pos_eq in HT by lra. lra.
Qed.
Print Assumptions C88_opposition_never_locks.
