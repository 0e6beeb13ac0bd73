(** C129, C95: the current follows references that settle; a disconnected DER stops
    delivering power. *)
From Coquelicot Require Import Coquelicot.
From Verif Require Import RBase CxField PhasorModel PVModel ODEModel Const3Model PhasorProperties PhasorProperties2 CircuitProperties2 CircuitProperties3 PLLProperties FilterProperties BoundProofs BoundProperties SettleProofs SettleProperties EquilibriumProperties EnergyProperties.
Import RBase.
Open Scope R_scope.

Lemma tends_to_zero_iff (f : R -> R) : (forall t, 0 <= f t) -> (tends f 0 <-> forall eps, 0 < eps -> exists T, forall t, T < t -> f t < eps).
Proof.
  intros P; split; intros H eps He; destruct (H eps He) as [T HT]; exists T; intros t Ht; specialize (HT t Ht).
  - rewrite Rminus_0_r, Rabs_pos_eq in HT by auto. exact HT.
  - rewrite Rminus_0_r, Rabs_pos_eq by auto. exact HT.
Qed.

(** * C129: the reference, the voltage required to hold the current and the DC voltage
    need not be constant: it is enough that they settle. *)
Theorem C129_follows_settling_reference : forall p k Vd G ph E Y T0 i0 h0,
  0 < Lf p -> 0 < Rf p -> 0 < Kp_GCC p -> 0 < Ki_GCC p -> 0 < wp p -> Ki_GCC p < Kp_GCC p * wp p -> 0 < Vd -> 0 <= G ->
  has_phase k ph ->
  (forall t v, T0 < t -> is_derive (fun s => Y s v) t (rhs p k (E t) (Y t) v)) ->
  (forall t, T0 < t ->
     passive p (E t) /\ cabs (source_impedance p (E t)) <= G /\ Rabs (omega p k (E t) (Y t)) <= G /\
     cabs (duty p (Y t) ph) <= m_limit p) ->
  tends (fun t => cabs (csub (i_ref p k (E t) (Y t) ph) i0)) 0 ->
  tends (fun t => cabs (csub (holding p (E t) ph (omega p k (E t) (Y t)) i0) h0)) 0 ->
  tends (fun t => v_dc k (E t) (Y t)) Vd ->
  tends (fun t => cabs (csub (i_of (Y t) ph) i0)) 0.
Proof.
  intros p k Vd G ph E Y T0 i0 h0 HL HR HKp HKi Hw Hg HV HG Hph HD Hall Tr Th Tv.
  destruct (C129_current_settles p k Vd G HL HR HKp HKi Hw Hg HV HG) as (C & l & HC & Hl & S).
  set (x0 := cscale (2 / Vd) h0).
  assert (Hm : 0 <= m_limit p).
  { destruct (Hall (T0 + 1) ltac:(lra)) as (_ & _ & _ & H). pose proof (cabs_nonneg (duty p (Y (T0 + 1)) ph)). lra. }
  apply tends_to_zero_iff; [intros; apply cabs_nonneg|]. intros eps He.
  (* tolerance for the disturbances *)
  assert (Hd : exists d, 0 < d /\ C * (d ^ 2 + d ^ 2) < eps ^ 2 / 2).
  { assert (P : 0 < eps ^ 2 / (8 * C)) by (apply Rdiv_lt_0_compat; [apply pow_lt; auto|lra]).
    exists (sqrt (eps ^ 2 / (8 * C))). split; [apply sqrt_lt_R0; auto|]. rewrite pow2_sqrt by lra.
    assert (0 < eps ^ 2) by (apply pow_lt; auto). replace (C * (eps ^ 2 / (8 * C) + eps ^ 2 / (8 * C))) with (eps ^ 2 / 4) by (field; lra). lra. }
  destruct Hd as (d & Hd & Hde).
  destruct (Tr d Hd) as [T1 H1]. destruct (Th (d / 2) ltac:(lra)) as [T2 H2].
  destruct (Tv (d / (m_limit p + 1)) ltac:(apply Rdiv_lt_0_compat; lra)) as [T3 H3].
  set (a := Rmax (Rmax T1 T2) (Rmax T3 T0) + 1).
  assert (Ha : T1 < a /\ T2 < a /\ T3 < a /\ T0 < a).
  { unfold a. pose proof (Rmax_l (Rmax T1 T2) (Rmax T3 T0)). pose proof (Rmax_r (Rmax T1 T2) (Rmax T3 T0)).
    pose proof (Rmax_l T1 T2). pose proof (Rmax_r T1 T2). pose proof (Rmax_l T3 T0). pose proof (Rmax_r T3 T0). lra. }
  assert (Poff : 0 <= off (Y a) ph i0 x0).
  { unfold off. pose proof (pow2_ge_0 (cabs (csub (i_of (Y a) ph) i0))). pose proof (pow2_ge_0 (cabs (u_of (Y a) ph))). pose proof (pow2_ge_0 (cabs (csub (x_of (Y a) ph) x0))). lra. }
  set (M := C * off (Y a) ph i0 x0 + 1). assert (HM : 0 < M) by (unfold M; pose proof (Rmult_le_pos C _ (Rlt_le _ _ HC) Poff); lra).
  set (q := eps ^ 2 / 2). assert (Hq : 0 < q) by (unfold q; pose proof (pow_lt eps 2 He); lra).
  exists (Rmax a (a + - ln (q / M) / l)). intros t Ht.
  assert (Hta : a < t) by (eapply Rle_lt_trans; [apply Rmax_l|exact Ht]).
  assert (Htb : a + - ln (q / M) / l < t) by (eapply Rle_lt_trans; [apply Rmax_r|exact Ht]).
  assert (El : exp (- l * (t - a)) < q / M).
  { rewrite <- (exp_ln (q / M)) by (apply Rdiv_lt_0_compat; lra). apply exp_increasing.
    apply (Rmult_lt_compat_l l) in Htb; [|lra]. replace (l * (a + - ln (q / M) / l)) with (l * a - ln (q / M)) in Htb by (field; lra). lra. }
  assert (B : off (Y t) ph i0 x0 <= C * (exp (- l * (t - a)) * off (Y a) ph i0 x0 + (d ^ 2 + d ^ 2))).
  { apply (S ph E Y a (t + 1) i0 h0 d d Hph); try lra.
    - split; [intros s v Hs; apply HD; lra|]. intros s v Hs. apply (ex_derive_continuous (V := R_NormedModule) (fun r => Y r v)). eexists. apply HD. lra.
    - intros s Hs. destruct (Hall s ltac:(lra)) as (K1 & K2 & K3 & K4). cbv zeta.
      specialize (H1 s ltac:(lra)). specialize (H2 s ltac:(lra)). specialize (H3 s ltac:(lra)).
      rewrite Rminus_0_r, Rabs_pos_eq in H1, H2 by apply cabs_nonneg.
      split; [auto|]. split; [auto|]. split; [auto|]. split; [auto|]. split; [lra|].
      assert (Rabs (v_dc k (E s) (Y s) - Vd) * (m_limit p + 1) <= d).
      { apply (Rmult_lt_compat_r (m_limit p + 1)) in H3; [|lra]. replace (d / (m_limit p + 1) * (m_limit p + 1)) with d in H3 by (field; lra). lra. }
      pose proof (Rabs_pos (v_dc k (E s) (Y s) - Vd)). lra. }
  assert (F : off (Y t) ph i0 x0 < eps ^ 2).
  { assert (M * exp (- l * (t - a)) < q).
    { apply (Rmult_lt_compat_l M) in El; auto. replace (M * (q / M)) with q in El by (field; lra). exact El. }
    assert (C * off (Y a) ph i0 x0 * exp (- l * (t - a)) <= M * exp (- l * (t - a))) by (apply Rmult_le_compat_r; [left; apply exp_pos|unfold M; lra]).
    unfold q in *. lra. }
  assert (Hi : cabs (csub (i_of (Y t) ph) i0) ^ 2 < eps ^ 2).
  { unfold off in F. pose proof (pow2_ge_0 (cabs (u_of (Y t) ph))). pose proof (pow2_ge_0 (cabs (csub (x_of (Y t) ph) x0))). lra. }
  apply Rnot_le_lt. intros Q. pose proof (pow_incr eps (cabs (csub (i_of (Y t) ph) i0)) 2 ltac:(split; lra)). lra.
Qed.
Print Assumptions C129_follows_settling_reference.

(** * C95: the output of a disconnected DER vanishes *)
Lemma cabs_add_le z1 z2 : cabs (cadd z1 z2) <= cabs z1 + cabs z2.
Proof.
  replace (cadd z1 z2) with (csub z1 (cscale (-1) z2)) by (destruct z1 as [a b], z2 as [c d]; unfold csub, cscale, cadd; apply cx_eq; cbn [re im]; ring).
  eapply Rle_trans; [apply cabs_triangle_sub|]. rewrite cabs_scale, Rabs_left by lra. lra.
Qed.
Lemma cabs_conj z : cabs (conj z) = cabs z.
Proof. unfold cabs, cnorm2, conj. cbn [re im]. f_equal. ring. Qed.
Lemma cabs_S v i : cabs (S_ph v i) = cabs v * cabs i / 2.
Proof. unfold S_ph. rewrite cabs_scale, cabs_mul, cabs_conj, Rabs_pos_eq by lra. lra. Qed.
Lemma cabs_rot ph z : cabs (rot ph z) = cabs z.
Proof. apply rot_abs. Qed.

(** While disconnected, with a modulator that is not saturated, a passive network
    behind the connection point, an open-circuit voltage and a DC voltage that settle,
    every phase current and the power at the connection point tend to zero. *)
Theorem C95_output_vanishes : forall p k Vd G E Y T0 (v0 : phase -> cx),
  0 < Lf p -> 0 < Rf p -> 0 < Kp_GCC p -> 0 < Ki_GCC p -> 0 < wp p -> Ki_GCC p < Kp_GCC p * wp p -> 0 < Vd -> 0 <= G ->
  (forall t v, T0 < t -> is_derive (fun s => Y s v) t (rhs p k (E t) (Y t) v)) ->
  (forall t, T0 < t -> e_conn (E t) = false /\
     passive p (E t) /\ cabs (source_impedance p (E t)) <= G /\ Rabs (omega p k (E t) (Y t)) <= G /\
     forall ph, has_phase k ph -> cabs (duty p (Y t) ph) <= m_limit p) ->
  (forall ph, has_phase k ph -> tends (fun t => cabs (csub (v_calc p (E t) ph (Cx 0 0)) (v0 ph))) 0) ->
  tends (fun t => v_dc k (E t) (Y t)) Vd ->
  (forall ph, has_phase k ph -> tends (fun t => cabs (i_of (Y t) ph)) 0) /\
  tends (fun t => cabs (S_pcc p k (E t) (Y t))) 0.
Proof.
  intros p k Vd G E Y T0 v0 HL HR HKp HKi Hw Hg HV HG HD Hall Hv Tv.
  assert (Ci : forall ph, has_phase k ph -> tends (fun t => cabs (i_of (Y t) ph)) 0).
  { intros ph Hph.
    assert (K : tends (fun t => cabs (csub (i_of (Y t) ph) (Cx 0 0))) 0).
    { apply (C129_follows_settling_reference p k Vd G ph E Y T0 (Cx 0 0) (v0 ph)); auto.
      - intros t Ht. destruct (Hall t Ht) as (_ & A & B & C & D). auto.
      - intros eps He. exists T0. intros t Ht. destruct (Hall t Ht) as (A & _). unfold i_ref. rewrite A.
        replace (csub (Cx 0 0) (Cx 0 0)) with (Cx 0 0) by (unfold csub; apply cx_eq; cbn [re im]; ring).
        replace (cabs (Cx 0 0)) with 0 by (unfold cabs, cnorm2; cbn [re im]; replace (0 * 0 + 0 * 0) with 0 by ring; symmetry; apply sqrt_0).
        rewrite Rminus_0_r, Rabs_R0. exact He.
      - intros eps He. destruct (Hv ph Hph eps He) as [T HT]. exists T. intros t Ht. specialize (HT t Ht).
        replace (holding p (E t) ph (omega p k (E t) (Y t)) (Cx 0 0)) with (v_calc p (E t) ph (Cx 0 0)); [exact HT|].
        unfold holding, cadd, cmul. apply cx_eq; cbn [re im]; ring. }
    intros eps He. destruct (K eps He) as [T HT]. exists T. intros t Ht. specialize (HT t Ht).
    replace (i_of (Y t) ph) with (csub (i_of (Y t) ph) (Cx 0 0)); [exact HT|].
    unfold csub. destruct (i_of (Y t) ph) as [a b]. apply cx_eq; cbn [re im]; ring. }
  split; [exact Ci|].
  (* one phase: |v| is bounded and |i| vanishes *)
  assert (Sp : forall ph, has_phase k ph -> forall eps, 0 < eps -> exists T, forall t, T < t ->
             cabs (v_calc p (E t) ph (i_of (Y t) ph)) * cabs (i_of (Y t) ph) / 2 < eps).
  { intros ph Hph eps He. set (B := cabs (v0 ph) + 1 + G).
    assert (HB : 1 <= B) by (unfold B; pose proof (cabs_nonneg (v0 ph)); lra).
    destruct (Hv ph Hph 1 ltac:(lra)) as [T1 H1].
    destruct (Ci ph Hph (Rmin 1 (eps / B))) as [T2 H2]. { apply Rmin_glb_lt; [lra|apply Rdiv_lt_0_compat; lra]. }
    exists (Rmax T0 (Rmax T1 T2)). intros t Ht.
    assert (L : T0 < t /\ T1 < t /\ T2 < t).
    { pose proof (Rmax_l T0 (Rmax T1 T2)). pose proof (Rmax_r T0 (Rmax T1 T2)). pose proof (Rmax_l T1 T2). pose proof (Rmax_r T1 T2). lra. }
    destruct L as (L0 & L1 & L2). specialize (H1 t L1). specialize (H2 t L2).
    rewrite Rminus_0_r, Rabs_pos_eq in H1, H2 by apply cabs_nonneg.
    destruct (Hall t L0) as (_ & P & Zb & _). pose proof (Rmin_l 1 (eps / B)). pose proof (Rmin_r 1 (eps / B)).
    set (iv := i_of (Y t) ph) in *. pose proof (cabs_nonneg iv) as Pi. pose proof (cabs_nonneg (source_impedance p (E t))) as Pz.
    assert (Vb : cabs (v_calc p (E t) ph iv) <= B).
    { rewrite (v_calc_affine p (E t) ph iv (Cx 0 0) P). eapply Rle_trans; [apply cabs_add_le|]. rewrite cabs_mul.
      replace (csub iv (Cx 0 0)) with iv by (unfold csub; destruct iv as [a b]; apply cx_eq; cbn [re im]; ring).
      assert (cabs (v_calc p (E t) ph (Cx 0 0)) <= cabs (v0 ph) + 1).
      { replace (v_calc p (E t) ph (Cx 0 0)) with (cadd (v0 ph) (csub (v_calc p (E t) ph (Cx 0 0)) (v0 ph))).
        - eapply Rle_trans; [apply cabs_add_le|]. lra.
        - destruct (v0 ph) as [a b], (v_calc p (E t) ph (Cx 0 0)) as [c d]. unfold cadd, csub. apply cx_eq; cbn [re im]; ring. }
      assert (cabs (source_impedance p (E t)) * cabs iv <= G * 1) by (apply Rmult_le_compat; lra). unfold B. lra. }
    assert (cabs iv * B < eps).
    { apply Rlt_le_trans with (eps / B * B); [apply Rmult_lt_compat_r; lra|]. right. field. lra. }
    assert (cabs (v_calc p (E t) ph iv) * cabs iv <= B * cabs iv) by (apply Rmult_le_compat_r; auto). nra. }
  apply tends_to_zero_iff; [intros; apply cabs_nonneg|]. intros eps He.
  assert (Sum : (forall ph, has_phase k ph) -> exists T, forall t, T < t -> forall f g : phase -> cx,
             (forall ph, f ph = v_calc p (E t) ph (i_of (Y t) ph)) -> (forall ph, g ph = i_of (Y t) ph) ->
             cabs (sum3 (fun ph => S_ph (f ph) (g ph))) < eps).
  { intros Hp. destruct (Sp PA (Hp PA) (eps / 3) ltac:(lra)) as [Ta Ha]. destruct (Sp PB (Hp PB) (eps / 3) ltac:(lra)) as [Tb Hb]. destruct (Sp PC (Hp PC) (eps / 3) ltac:(lra)) as [Tc Hc].
    exists (Rmax Ta (Rmax Tb Tc)). intros t Ht f g Hf Hgg.
    pose proof (Rmax_l Ta (Rmax Tb Tc)). pose proof (Rmax_r Ta (Rmax Tb Tc)). pose proof (Rmax_l Tb Tc). pose proof (Rmax_r Tb Tc).
    specialize (Ha t ltac:(lra)). specialize (Hb t ltac:(lra)). specialize (Hc t ltac:(lra)).
    unfold sum3. eapply Rle_lt_trans; [apply cabs_add_le|]. eapply Rle_lt_trans; [apply Rplus_le_compat_r, cabs_add_le|].
    rewrite !cabs_S, !Hf, !Hgg. lra. }
  destruct k; cbn [S_pcc].
  - destruct (Sp PA eq_refl eps He) as [T HT]. exists T. intros t Ht. rewrite cabs_S. auto.
  - destruct (Sum ltac:(intros; exact I)) as [T HT]. exists T. intros t Ht. apply (HT t Ht); reflexivity.
  - destruct (Sp PA eq_refl (eps / 3) ltac:(lra)) as [T HT]. exists T. intros t Ht. specialize (HT t Ht).
    unfold sum3. eapply Rle_lt_trans; [apply cabs_add_le|]. eapply Rle_lt_trans; [apply Rplus_le_compat_r, cabs_add_le|].
    rewrite !cabs_S, !cabs_rot. lra.
  - destruct (Sp PA eq_refl eps He) as [T HT]. exists T. intros t Ht. rewrite cabs_S. auto.
  - destruct (Sum ltac:(intros; exact I)) as [T HT]. exists T. intros t Ht. apply (HT t Ht); reflexivity.
Qed.
Print Assumptions C95_output_vanishes.
(** Non-vacuity: the disconnected DER of C123 with a current that is not zero. *)
Example C95_output_vanishes_met : forall m,
  let p := decay_prm in let E := fault_env m false 0 in let Y := decay_run in
  0 < Lf p /\ 0 < Rf p /\ 0 < Kp_GCC p /\ 0 < Ki_GCC p /\ 0 < wp p /\ Ki_GCC p < Kp_GCC p * wp p /\
  (forall t v, 0 < t -> is_derive (fun s => Y s v) t (rhs p SinglePhase (E t) (Y t) v)) /\
  (forall t, 0 < t -> e_conn (E t) = false /\ passive p (E t) /\ cabs (source_impedance p (E t)) <= 1 /\
     Rabs (omega p SinglePhase (E t) (Y t)) <= 1 /\ forall ph, has_phase SinglePhase ph -> cabs (duty p (Y t) ph) <= m_limit p) /\
  (forall ph, has_phase SinglePhase ph -> tends (fun t => cabs (csub (v_calc p (E t) ph (Cx 0 0)) (Cx 0 0))) 0) /\
  tends (fun t => v_dc SinglePhase (E t) (Y t)) 2 /\ cabs (i_of (Y 0) PA) <> 0.
Proof.
  intros m p E Y. destruct (C129_hypotheses_met m) as (H1 & H2 & H3 & H4 & H5 & H6 & _).
  split; [exact H1|]. split; [exact H2|]. split; [exact H3|]. split; [exact H4|]. split; [exact H5|]. split; [exact H6|].
  assert (Z : cabs (Cx 0 0) = 0) by (unfold cabs, cnorm2; cbn [re im]; replace (0 * 0 + 0 * 0) with 0 by ring; apply sqrt_0).
  split.
  { intros t v Ht. destruct (decay_run_ok m (t + 1)) as [D _]; [lra|]. apply D. lra. }
  split.
  { intros t Ht. split; [reflexivity|]. split; [exact I|]. split; [cbn [source_impedance E fault_env e_grid]; rewrite Z; lra|]. split.
    - unfold omega, vd1, v_calc, E, fault_env. cbn [e_grid e_va e_wgrid e_t].
      destruct (C47_pll_error 0 0 0 t (Y t WTE)) as [_ H]. replace (crect 0 0) with (Cx 0 0) in H by (unfold crect, cscale; apply cx_eq; cbn [re im]; ring).
      rewrite H. unfold we_calc, Y, decay_run. cbn [fault_state]. unfold Rdiv.
      match goal with |- Rabs ?q <= 1 => replace q with 0 by ring end. rewrite Rabs_R0. lra.
    - intros ph Hph. cbn in Hph. subst ph. unfold duty, Y, decay_run. cbn [fault_state p decay_prm Kp_GCC m_limit].
      replace (Cx (1 * (-2 * exp (- t)) + 2 * exp (- t)) (1 * 0 + 0)) with (Cx 0 0) by (apply cx_eq; cbn [re im]; ring). rewrite Z. lra. }
  split.
  { intros ph Hph eps He. cbn in Hph. subst ph. exists 0. intros t _. unfold v_calc, E, fault_env. cbn [e_grid e_va].
    replace (csub (Cx 0 0) (Cx 0 0)) with (Cx 0 0) by (unfold csub; apply cx_eq; cbn [re im]; ring). rewrite Z, Rminus_0_r, Rabs_R0. exact He. }
  split.
  { intros eps He. exists 0. intros t _. replace (v_dc SinglePhase (E t) (Y t)) with 2 by reflexivity. rewrite Rminus_eq_0, Rabs_R0. exact He. }
  unfold i_of, Y, decay_run. cbn [fault_state]. unfold cabs, cnorm2. cbn [re im]. rewrite Ropp_0, exp_0.
  assert (0 < sqrt (1 * 1 + 0 * 0)) by (apply sqrt_lt_R0; lra). lra.
Qed.

(** * C95 for all five systems of equations *)
Theorem C95_isolated_all_models :
  forall p k e y q v m w, e_conn e = false -> rhs p k (with_refs e q v m) y w = rhs p k e y w.
Proof.
  intros p k e y q v m w Hc. destruct e as [t wg va vb vc g Qr Vr md cn Vc]. cbn [e_conn] in Hc. subst cn.
  destruct k; destruct w as [[| |] [| | | | |]| | | | | | |]; reflexivity.
Qed.
Print Assumptions C95_isolated_all_models.

(** error signal of the PLL *)
Definition pll_error (p : prm) (k : kind) (e : env) (y : st) : R :=
  match k with SinglePhase | SingleConst => vd1 p e y | ThreePhase | ThreeConst => vd3 p e y | Balanced => vdb p e y end.

Lemma S_ph_0 v : S_ph v (Cx 0 0) = Cx 0 0.
Proof. unfold S_ph, cscale, cmul, conj. cbn [re im]. apply cx_eq; cbn [re im]; lra. Qed.
Lemma rot_0 ph : rot ph (Cx 0 0) = Cx 0 0.
Proof. destruct (rot_form ph (Cx 0 0)) as (c & _ & Hc & _). rewrite Hc. unfold cmul. apply cx_eq; cbn [re im]; ring. Qed.
Lemma no_current_no_power p k e y : (forall ph, has_phase k ph -> i_of y ph = Cx 0 0) ->
  S_pcc p k e y = Cx 0 0 /\ S_term p k e y = Cx 0 0.
Proof.
  intros H. assert (Z : cadd (cadd (Cx 0 0) (Cx 0 0)) (Cx 0 0) = Cx 0 0) by (unfold cadd; apply cx_eq; cbn [re im]; ring).
  destruct k; cbn [S_pcc S_term]; unfold sum3;
    try (rewrite (H PA eq_refl)); try (rewrite (H PA I), (H PB I), (H PC I)); rewrite ?rot_0, !S_ph_0; auto.
Qed.

(** The equilibria of a disconnected DER are exactly the states with zero current and
    controller error in every phase, the inverter at the open-circuit voltage, the PLL
    in step (and the voltage filter of the three-phase model settled); they deliver
    no power. *)
Theorem C95_equilibria_all_models :
  forall p k e y, Lf p <> 0 -> Ki_GCC p <> 0 -> wp p <> 0 -> Ki_PLL p <> 0 -> Tfilter p <> 0 -> e_conn e = false ->
  (forall ph, has_phase k ph -> cabs (duty p y ph) <= m_limit p) ->
  (stationary (rhs p k) e y <->
     (forall ph, has_phase k ph -> i_of y ph = Cx 0 0 /\ u_of y ph = Cx 0 0 /\ v_term p k e y ph = v_calc p e ph (Cx 0 0)) /\
     pll_error p k e y = 0 /\
     (k = ThreePhase -> y VRF = Urms_calc (v_calc p e PA (Cx 0 0)) (v_calc p e PB (Cx 0 0)) (v_calc p e PC (Cx 0 0)))) /\
  (stationary (rhs p k) e y -> S_pcc p k e y = Cx 0 0 /\ S_term p k e y = Cx 0 0).
Proof.
  intros p k e y HL HG HW HP HT Hc Hm.
  assert (Q : forall sat d x, d = 0 -> aw sat d x d = 0) by (intros sat d x ->; unfold aw; destruct sat; [destruct (same_sign 0 x)|]; reflexivity).
  assert (Ir : forall ph, i_ref p k e y ph = Cx 0 0) by (intros; unfold i_ref; rewrite Hc; reflexivity).
  (* one phase *)
  assert (Ph : forall ph, has_phase k ph ->
     ((forall c, rhs p k e y (P ph c) = 0) <-> i_of y ph = Cx 0 0 /\ u_of y ph = Cx 0 0 /\ v_term p k e y ph = v_calc p e ph (Cx 0 0))).
  { intros ph Hph. destruct (rhs_current p k e y ph Hph) as [I1 I2]. destruct (rhs_inner p k e y ph Hph) as (X1 & X2 & U1 & U2).
    cbv zeta in *. rewrite Ir in U1, U2. cbn [re im] in U1, U2.
    assert (NS : rlt (m_limit p) (cabs (duty p y ph)) = false) by (apply rlt_false; auto). rewrite NS in X1, X2, U1, U2. cbn [aw] in X1, X2, U1, U2.
    split.
    - intros H. rewrite (H CxR) in X1. rewrite (H CxI) in X2. rewrite (H CuR) in U1. rewrite (H CuI) in U2. rewrite (H CiR) in I1. rewrite (H CiI) in I2.
      symmetry in X1, X2, U1, U2. apply mul0 in X1; auto. apply mul0 in X2; auto. apply mul0 in U1; auto. apply mul0 in U2; auto.
      assert (Ei : i_of y ph = Cx 0 0) by (unfold i_of; apply cx_eq; cbn [re im]; lra).
      split; [exact Ei|]. split; [unfold u_of; apply cx_eq; cbn [re im]; lra|].
      unfold across in I1, I2. rewrite Ei in I1, I2. unfold i_of in Ei.
      assert (E1 : y (P ph CiR) = 0) by congruence. assert (E2 : y (P ph CiI) = 0) by congruence. rewrite E1, E2 in I1, I2.
      assert (HLi : 1 / Lf p <> 0) by (unfold Rdiv; rewrite Rmult_1_l; apply Rinv_neq_0_compat; auto).
      assert (J1 : re (csub (v_term p k e y ph) (v_calc p e ph (Cx 0 0))) = 0) by (apply (mul0 (1 / Lf p)); auto; lra).
      assert (J2 : im (csub (v_term p k e y ph) (v_calc p e ph (Cx 0 0))) = 0) by (apply (mul0 (1 / Lf p)); auto; lra).
      unfold csub in J1, J2. cbn [re im] in J1, J2. apply cx_eq2; lra.
    - intros (Ei & Eu & Ev). pose proof Ei as Ei0. unfold i_of in Ei0. pose proof Eu as Eu0. unfold u_of in Eu0.
      assert (E1 : y (P ph CiR) = 0) by congruence. assert (E2 : y (P ph CiI) = 0) by congruence.
      assert (E3 : y (P ph CuR) = 0) by congruence. assert (E4 : y (P ph CuI) = 0) by congruence.
      unfold across in I1, I2. rewrite Ei, Ev, E1, E2 in I1, I2. unfold csub in I1, I2. cbn [re im] in I1, I2.
      rewrite E1, E3 in U1. rewrite E2, E4 in U2. rewrite E3 in X1. rewrite E4 in X2.
      intros [| | | | |]; first [rewrite I1|rewrite I2|rewrite X1|rewrite X2|rewrite U1|rewrite U2]; ring. }
  assert (Pl : rhs p k e y XPLL = Ki_PLL p * pll_error p k e y) by (destruct k; reflexivity).
  assert (NP : stationary (rhs p k) e y -> forall ph, has_phase k ph -> i_of y ph = Cx 0 0 /\ u_of y ph = Cx 0 0 /\ v_term p k e y ph = v_calc p e ph (Cx 0 0)).
  { intros H ph Hph. apply (Ph ph Hph). intros c. apply H. discriminate. }
  split; [|intros H; apply no_current_no_power; intros ph Hph; apply (NP H ph Hph)].
  split.
  - intros H. split; [exact (NP H)|]. split.
    + assert (E : Ki_PLL p * pll_error p k e y = 0) by (rewrite <- Pl; apply H; discriminate). apply mul0 in E; auto.
    + intros Ek. pose proof (NP H) as N. pose proof (H VRF ltac:(discriminate)) as V. subst k.
      destruct (N PA I) as (A & _). destruct (N PB I) as (B & _). destruct (N PC I) as (D & _).
      cbn [rhs ode3] in V. unfold v3_of in V. rewrite A, B, D in V.
      apply mul0 in V; [lra|]. unfold Rdiv. rewrite Rmult_1_l. apply Rinv_neq_0_compat. auto.
  - intros (H1 & H2 & H3).
    destruct (no_current_no_power p k e y) as [S1 S2]; [intros ph Hph; apply (H1 ph Hph)|].
    destruct (rhs_outer p k e y) as [O1 [K O2]]. cbv zeta in O1, O2.
    assert (Qe : q_error p k e y = 0) by (unfold q_error; rewrite Hc, S1; cbn [im]; ring).
    assert (Pe : p_error p k e y = 0).
    { unfold p_error, p_in. rewrite Hc, S2. destruct k; cbn [re]; ring. }
    assert (EQ : rhs p k e y XQ = 0) by (rewrite O1; apply Q; rewrite Qe; ring).
    assert (EP : rhs p k e y (p_state k) = 0) by (rewrite O2; apply Q; rewrite Pe; ring).
    assert (ED : rhs p k e y VDC = 0).
    { destruct k; try reflexivity; rewrite rhs_dc by exact I; unfold p_in; rewrite Hc, S2; cbn [re]; unfold Rdiv; ring. }
    assert (EL : rhs p k e y XPLL = 0) by (rewrite Pl, H2; ring).
    assert (EV : rhs p k e y VRF = 0).
    { destruct k; try reflexivity. destruct (H1 PA I) as (A & _). destruct (H1 PB I) as (B & _). destruct (H1 PC I) as (D & _).
      cbn [rhs ode3]. unfold v3_of. rewrite A, B, D, (H3 eq_refl). ring. }
    intros v Hv. destruct v as [ph c| | | | | | |]; auto; try congruence.
    + destruct k; cbn [has_phase] in *;
        try (apply (Ph ph I); apply (H1 ph I)); destruct ph; try reflexivity; apply (Ph PA eq_refl); apply (H1 PA eq_refl).
    + destruct k; cbn [p_state] in EP; auto.
    + destruct k; cbn [p_state] in EP; auto.
Qed.
Print Assumptions C95_equilibria_all_models.

(** * C96: three-phase model with constant DC voltage *)
Theorem C96_three_phase_constant_Vdc :
  forall p e y, sane p -> e_conn e = true -> (forall k, mod_ok p y k) ->
  cur_ok p (Cx (y XP + Kp_P p * (Ppv_of p e (e_Vconst e) - re (S_term p ThreeConst e y))) (y XQ - Kp_Q p * (e_Qref e - im (S_pcc p ThreeConst e y)))) ->
  let v k := v_calc p e k (i_of y k) in
  stationary (ode3c p) e y <->
  (im (S_pcc p ThreeConst e y) = e_Qref e /\                       (* reactive power at its set point *)
   re (S_term p ThreeConst e y) = Ppv_of p e (e_Vconst e) /\       (* all the PV power is converted *)
   (i_of y PA = Cx (y XP) (y XQ) /\ i_of y PB = Ub_calc (Cx (y XP) (y XQ)) /\ i_of y PC = Uc_calc (Cx (y XP) (y XQ))) /\
   (forall k, u_of y k = Cx 0 0) /\
   (forall k, vt_calc p (e_Vconst e) (u_of y k) (x_of y k) = filter_drop p (wbase + y XPLL) (v k) (i_of y k)) /\
   vd_three_phase (v PA) (v PB) (v PC) (e_wgrid e) (e_t e) (y WTE) = 0).
Proof.
  intros p e y Hs Hc Hm Hi v. pose proof Hs as (HL & HC & HG & HW & HD & HP & HQ & HPL & HT).
  apply cur_sat in Hi. unfold stationary. rewrite var_cases.
  assert (EQ : eff_Qref e = e_Qref e) by (unfold eff_Qref; now rewrite Hc).
  assert (EP : forall z, eff_Ppv e z = z) by (intros; unfold eff_Ppv; now rewrite Hc).
  assert (EI : forall z, eff_iref e z = z) by (intros; unfold eff_iref; now rewrite Hc).
  cbn [ode3c]. rewrite EQ, EP, !EI. unfold dxQ, iref3c_test. rewrite EQ, EP.
  change (S3c_inv p e y) with (S_term p ThreeConst e y). change (S3_pcc p e y) with (S_pcc p ThreeConst e y).
  unfold ia_ref_activepower. rewrite Hi, !aw_off. rewrite !phase_zero by auto.
  unfold iref3c, ia_ref_activepower, vd3.
  change (S3c_inv p e y) with (S_term p ThreeConst e y). change (S3_pcc p e y) with (S_pcc p ThreeConst e y).
  change (v3_of p e y PA) with (v PA). change (v3_of p e y PB) with (v PB). change (v3_of p e y PC) with (v PC).
  unfold vt3c_of. set (q := im (S_pcc p ThreeConst e y)). set (ps := re (S_term p ThreeConst e y)). set (pp := Ppv_of p e (e_Vconst e)).
  set (vd := vd_three_phase (v PA) (v PB) (v PC) (e_wgrid e) (e_t e) (y WTE)). unfold we_calc. cbn [rot].
  split.
  - intros ((A1 & B1 & C1) & (A2 & B2 & C2) & (A3 & B3 & C3) & _ & _ & E & F & G & _).
    apply mul0 in E; auto. apply mul0 in G; auto. apply mul0 in F; [|lra].
    assert (E' : ps = pp) by lra. assert (F' : q = e_Qref e) by lra.
    rewrite G in C1, C2, C3.
    rewrite E', F', !Rminus_eq_0, !Rmult_0_r, Rplus_0_r, Rminus_0_r in B1, B2, B3.
    replace (2 * PI * 60) with wbase in C1, C2, C3 by reflexivity.
    repeat split; auto; try lra.
    + intros k; destruct k; auto.
    + intros k. destruct k; [rewrite C1|rewrite C2|rewrite C3]; f_equal; lra.
  - intros (B & A & (D1 & D2 & D3) & E & F & G).
    rewrite G, B, A, !Rminus_eq_0, !Rmult_0_r, Rplus_0_r, Rminus_0_r.
    repeat split; auto; rewrite F; f_equal; unfold wbase; lra.
Qed.
Print Assumptions C96_three_phase_constant_Vdc.

(** At rest, in every model, the power at the connection point is the power converted
    minus the losses in the filter resistance (Rf |i|^2 / 2 per phase). *)
Theorem C96_losses_all_models :
  forall p k e y, Lf p <> 0 -> stationary (rhs p k) e y ->
  re (S_pcc p k e y) = re (S_term p k e y) - Rf p * sum_sq k y.
Proof.
  intros p k e y HL H.
  assert (Ph : forall ph, has_phase k ph ->
    re (S_ph (v_calc p e ph (i_of y ph)) (i_of y ph)) = re (S_ph (v_term p k e y ph) (i_of y ph)) - Rf p * cabs (i_of y ph) ^ 2 / 2).
  { intros ph Hph. destruct (rhs_current p k e y ph Hph) as [I1 I2]. cbv zeta in *.
    rewrite (H (P ph CiR) ltac:(discriminate)) in I1. rewrite (H (P ph CiI) ltac:(discriminate)) in I2. unfold across in *.
    rewrite sqr_cabs. destruct (v_term p k e y ph) as [t1 t2], (v_calc p e ph (i_of y ph)) as [v1 v2].
    unfold S_ph, cscale, cmul, conj, csub, i_of in *. cbn [re im] in *.
    set (a := y (P ph CiR)) in *. set (b := y (P ph CiI)) in *. set (w := omega p k e y) in *.
    assert (J1 : t1 - v1 = Rf p * a - Lf p * w * b).
    { apply (f_equal (fun z => Lf p * z)) in I1. replace (Lf p * (1 / Lf p * (- Rf p * a + (t1 - v1)) + w * b)) with (- Rf p * a + (t1 - v1) + Lf p * w * b) in I1 by (field; auto). lra. }
    assert (J2 : t2 - v2 = Rf p * b + Lf p * w * a).
    { apply (f_equal (fun z => Lf p * z)) in I2. replace (Lf p * (1 / Lf p * (- Rf p * b + (t2 - v2)) - w * a)) with (- Rf p * b + (t2 - v2) - Lf p * w * a) in I2 by (field; auto). lra. }
    replace t1 with (v1 + (Rf p * a - Lf p * w * b)) by lra. replace t2 with (v2 + (Rf p * b + Lf p * w * a)) by lra. lra. }
  destruct k; cbn [S_pcc S_term]; unfold sum_sq.
  - rewrite (Ph PA eq_refl). lra.
  - unfold sum3, cadd. cbn [re]. rewrite (Ph PA I), (Ph PB I), (Ph PC I). lra.
  - unfold sum3, cadd. cbn [re]. rewrite !S_rot. pose proof (Ph PA eq_refl). lra.
  - rewrite (Ph PA eq_refl). lra.
  - unfold sum3, cadd. cbn [re]. rewrite (Ph PA I), (Ph PB I), (Ph PC I). lra.
Qed.
Print Assumptions C96_losses_all_models.
