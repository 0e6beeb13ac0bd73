(** C139: the energy a DER delivers to the grid comes from its PV array or from the
    energy it had stored. *)
From Coquelicot Require Import Coquelicot.
From Verif Require Import RBase CxField PhasorModel PVModel ODEModel Const3Model PhasorProperties PhasorProperties2 PVProperties CircuitProperties2 CircuitProperties3 PLLProperties FilterProperties BoundProofs BoundProperties EnergyProperties RelabelProperties.
Import RBase.
Open Scope R_scope.

(** * Specification *)
(** an energy meter reading [W] of a power over an interval *)
Definition metered (a b : R) (power W : R -> R) : Prop :=
  (forall t, a < t < b -> is_derive W t (power t)) /\ (forall t, a <= t <= b -> continuous W t).
(** energy in filter inductors and DC link *)
Definition stored (p : prm) (k : kind) (y : st) : R := filter_energy p k y + (if match k with SingleConst | ThreeConst => true | _ => false end then 0 else link_energy p y).
(** power of the array, power delivered at the connection point, heat in the filter *)
Definition array_power (p : prm) (k : kind) (E : R -> env) (Y : R -> st) (t : R) : R := p_in p k (E t) (Y t).
Definition delivered (p : prm) (k : kind) (E : R -> env) (Y : R -> st) (t : R) : R := re (S_pcc p k (E t) (Y t)).
Definition heat (p : prm) (k : kind) (E : R -> env) (Y : R -> st) (t : R) : R := Rf p * sum_sq k (Y t).
(** the largest power the array can give: photo current at the largest admitted voltage *)
Definition array_limit (p : prm) (m : pvm) : R := PVModel.Np m * Iph_calc m * Vdcmpp_max p / Sbase.

(** * Proofs *)
Lemma sum_sq_nonneg k y : 0 <= sum_sq k y.
Proof.
  assert (Q : forall ph, 0 <= cabs (i_of y ph) ^ 2 / 2) by (intros ph; pose proof (pow2_ge_0 (cabs (i_of y ph))); lra).
  pose proof (Q PA); pose proof (Q PB); pose proof (Q PC). unfold sum_sq. destruct k; lra.
Qed.
Lemma stored_nonneg p k y : 0 <= Lf p -> 0 <= Cdc p -> 0 <= stored p k y.
Proof.
  intros HL HC. unfold stored, filter_energy, link_energy. pose proof (sum_sq_nonneg k y) as Q.
  assert (0 <= Lf p / 2 * sum_sq k y) by (apply Rmult_le_pos; lra).
  assert (0 <= Cdc p / 2 * (y VDC * y VDC)) by (apply Rmult_le_pos; [lra|nra]). destruct k; lra.
Qed.
Lemma cont_sq k (Y : R -> st) (t : R) : (forall v, continuous (fun s => Y s v) t) -> continuous (fun s => sum_sq k (Y s)) t.
Proof.
  intros C.
  assert (M : forall f g : R_UniformSpace -> R_UniformSpace, continuous f t -> continuous g t -> continuous (fun s => f s * g s : R_UniformSpace) t) by (intros; apply (continuous_mult (K := R_AbsRing)); auto).
  assert (A : forall f g : R_UniformSpace -> R_UniformSpace, continuous f t -> continuous g t -> continuous (fun s => f s + g s : R_UniformSpace) t) by (intros; apply (continuous_plus (V := R_NormedModule)); auto).
  assert (Q : forall ph, continuous (fun s => cabs (i_of (Y s) ph) ^ 2 / 2) t).
  { intros ph. apply (continuous_ext (fun s => (Y s (P ph CiR) * Y s (P ph CiR) + Y s (P ph CiI) * Y s (P ph CiI)) * (/ 2))).
    - intros s. rewrite sq_cabs. reflexivity.
    - apply (M _ (fun _ => / 2)); [apply A; apply M; apply C|apply continuous_const]. }
  destruct k; unfold sum_sq; try apply Q; try (apply A; [apply A|]; apply Q). apply (M (fun _ => 3)); [apply continuous_const|apply Q].
Qed.
Lemma cont_stored p k (Y : R -> st) (t : R) : (forall v, continuous (fun s => Y s v) t) -> continuous (fun s => stored p k (Y s)) t.
Proof.
  intros C. unfold stored. apply (continuous_plus (V := R_NormedModule) (fun s => filter_energy p k (Y s))).
  - apply (continuous_mult (K := R_AbsRing) (fun _ => Lf p / 2) (fun s => sum_sq k (Y s))); [apply continuous_const|apply cont_sq; auto].
  - assert (L : continuous (fun s => link_energy p (Y s)) t).
    { apply (continuous_mult (K := R_AbsRing) (fun _ => Cdc p / 2) (fun s => Y s VDC * Y s VDC)); [apply continuous_const|].
      apply (continuous_mult (K := R_AbsRing)); apply C. }
    destruct k; try exact L; apply continuous_const.
Qed.
Lemma no_change (f : R -> R) a b : a <= b -> (forall t, a < t < b -> is_derive f t 0) -> (forall t, a <= t <= b -> continuous f t) -> f b = f a.
Proof.
  intros H D C. destruct (Req_dec a b) as [->|Hne]; [reflexivity|]. assert (Hab : a < b) by lra.
  destruct (mean_value f (fun _ => 0) a b Hab D C) as (c & _ & E). lra.
Qed.
Lemma ipv_max p m V : 0 < PVModel.Ns m -> 0 < Tactual m -> 0 <= PVModel.Np m -> 0 <= Iph_calc m -> 0 <= Vdcmpp_max p -> V <= Vdcmpp_max p -> Ppv_val m V <= array_limit p m.
Proof.
  intros HS HT HN HI HM HV. unfold Ppv_val, array_limit, Rdiv. apply Rmult_le_compat_r; [unfold Sbase; lra|].
  assert (HNI : 0 <= PVModel.Np m * Iph_calc m) by (apply Rmult_le_pos; auto).
  apply Rmax_lub; [apply Rmult_le_pos; auto|].
  assert (HK : 0 < k_boltz * Tactual m * A_ideal * PVModel.Ns m) by (unfold k_boltz, A_ideal; repeat apply Rmult_lt_0_compat; lra).
  destruct (Rle_lt_dec 0 V) as [H0|H0].
  - assert (HI1 : Ipv_val m V <= PVModel.Np m * Iph_calc m).
    { unfold Ipv_val. assert (1 <= exp (q_charge * V / (k_boltz * Tactual m * A_ideal * PVModel.Ns m))).
      { rewrite <- exp_0 at 1. apply PVProperties.exp_le. apply Rmult_le_pos; [apply Rmult_le_pos; auto; unfold q_charge; lra|left; apply Rinv_0_lt_compat; auto]. }
      assert (0 <= PVModel.Np m * Irs * (exp (q_charge * V / (k_boltz * Tactual m * A_ideal * PVModel.Ns m)) - 1)) by (apply Rmult_le_pos; [apply Rmult_le_pos; auto; unfold Irs; lra|lra]). lra. }
    apply Rle_trans with (PVModel.Np m * Iph_calc m * V); [apply Rmult_le_compat_r; auto|apply Rmult_le_compat_l; auto].
  - assert (HI1 : 0 <= Ipv_val m V).
    { unfold Ipv_val. assert (exp (q_charge * V / (k_boltz * Tactual m * A_ideal * PVModel.Ns m)) <= 1).
      { rewrite <- exp_0. apply PVProperties.exp_le. assert (0 < / (k_boltz * Tactual m * A_ideal * PVModel.Ns m)) by (apply Rinv_0_lt_compat; auto).
        assert (q_charge * V <= 0) by (assert (0 < q_charge) by (unfold q_charge; lra); nra). unfold Rdiv. nra. }
      assert (0 <= PVModel.Np m * Irs * (1 - exp (q_charge * V / (k_boltz * Tactual m * A_ideal * PVModel.Ns m)))) by (apply Rmult_le_pos; [apply Rmult_le_pos; auto; unfold Irs; lra|lra]). lra. }
    assert (0 <= PVModel.Np m * Iph_calc m * Vdcmpp_max p) by (apply Rmult_le_pos; auto). nra.
Qed.
Lemma p_in_limit p k e y : 0 < PVModel.Ns (e_mod e) -> 0 < Tactual (e_mod e) -> 0 <= PVModel.Np (e_mod e) -> 0 <= Iph_calc (e_mod e) -> 0 <= Vdcmpp_max p ->
  p_in p k e y <= array_limit p (e_mod e).
Proof.
  intros HS HT HN HI HM. unfold p_in. destruct (e_conn e).
  - unfold Ppv_of. apply ipv_max; auto. unfold Vdc_actual. apply Rmin_l.
  - unfold array_limit, Sbase, Rdiv. apply Rmult_le_pos; [|lra]. apply Rmult_le_pos; auto. apply Rmult_le_pos; auto.
Qed.

(** * C139 *)
(** Over every interval of every run of a model with DC link: energy delivered plus heat
    plus increase of the stored energy is exactly the energy of the array. *)
Theorem C139_energy_account_partial : forall p k a b E Y Win Wout Wheat, a <= b -> has_dc_link k -> Lf p <> 0 -> Cdc p <> 0 ->
  run_between a b (rhs p k) E Y -> (forall t, a < t < b -> Y t VDC <> 0) ->
  metered a b (array_power p k E Y) Win -> metered a b (delivered p k E Y) Wout -> metered a b (heat p k E Y) Wheat ->
  (Wout b - Wout a) + (Wheat b - Wheat a) + (stored p k (Y b) - stored p k (Y a)) = Win b - Win a.
Proof.
  intros p k a b E Y Win Wout Wheat Hab Hk HL HC [D C] HV [D1 C1] [D2 C2] [D3 C3].
  assert (K : (fun t => stored p k (Y t) + Wout t + Wheat t - Win t) b = (fun t => stored p k (Y t) + Wout t + Wheat t - Win t) a).
  { apply (no_change (fun t => stored p k (Y t) + Wout t + Wheat t - Win t) a b Hab).
    - intros t Ht. assert (Ds : is_derive (fun s => stored p k (Y s)) t (p_in p k (E t) (Y t) - re (S_pcc p k (E t) (Y t)) - Rf p * sum_sq k (Y t))).
      { pose proof (C51_total_energy p k E Y t HL HC Hk (HV t Ht) (fun v => D t v Ht)) as Q. eapply is_derive_ext; [|exact Q]. intros s. unfold stored. destruct k; try reflexivity; exfalso; exact Hk. }
      evar_last.
      + apply (is_derive_minus (V := R_NormedModule)); [|apply D1; auto]. apply (is_derive_plus (V := R_NormedModule)); [|apply D3; auto].
        apply (is_derive_plus (V := R_NormedModule)); [exact Ds|apply D2; auto].
      + unfold minus, plus, opp. simpl. unfold delivered, heat, array_power. ring.
    - intros t Ht. apply (continuous_minus (V := R_NormedModule)); [|apply C1; auto]. apply (continuous_plus (V := R_NormedModule)); [|apply C3; auto].
      apply (continuous_plus (V := R_NormedModule)); [apply cont_stored; intros; apply C; auto|apply C2; auto]. }
  cbv beta in K. lra.
Qed.
Print Assumptions C139_energy_account_partial.

Lemma meter_grows (f df : R -> R) a b : a <= b -> (forall t, a < t < b -> is_derive f t (df t)) -> (forall t, a <= t <= b -> continuous f t) ->
  (forall t, a < t < b -> 0 <= df t) -> f a <= f b.
Proof.
  intros H D C N. destruct (Req_dec a b) as [->|Hne]; [lra|]. assert (Hab : a < b) by lra.
  destruct (mean_value f df a b Hab D C) as (c & Hc & E). specialize (N c Hc). nra.
Qed.
(** Hence no more is delivered than the array gave and the storage lost. *)
Theorem C139_no_energy_from_nothing_partial : forall p k a b E Y Win Wout, a <= b -> has_dc_link k -> 0 < Lf p -> 0 < Cdc p -> 0 <= Rf p ->
  run_between a b (rhs p k) E Y -> (forall t, a < t < b -> Y t VDC <> 0) ->
  metered a b (array_power p k E Y) Win -> metered a b (delivered p k E Y) Wout ->
  Wout b - Wout a <= (Win b - Win a) + (stored p k (Y a) - stored p k (Y b)) /\
  Wout b - Wout a <= (Win b - Win a) + stored p k (Y a).
Proof.
  intros p k a b E Y Win Wout Hab Hk HL HC HR [D C] HV [D1 C1] [D2 C2].
  assert (K : Win a - Wout a - stored p k (Y a) <= Win b - Wout b - stored p k (Y b)).
  { apply (meter_grows (fun t => Win t - Wout t - stored p k (Y t)) (fun t => Rf p * sum_sq k (Y t)) a b Hab).
    - intros t Ht. assert (HL0 : Lf p <> 0) by lra. assert (HC0 : Cdc p <> 0) by lra.
      assert (Ds : is_derive (fun s => stored p k (Y s)) t (p_in p k (E t) (Y t) - re (S_pcc p k (E t) (Y t)) - Rf p * sum_sq k (Y t))).
      { pose proof (C51_total_energy p k E Y t HL0 HC0 Hk (HV t Ht) (fun v => D t v Ht)) as Q. eapply is_derive_ext; [|exact Q]. intros s. unfold stored. destruct k; try reflexivity; exfalso; exact Hk. }
      evar_last.
      + apply (is_derive_minus (V := R_NormedModule)); [|exact Ds]. apply (is_derive_minus (V := R_NormedModule)); [apply D1; auto|apply D2; auto].
      + unfold minus, plus, opp. simpl. unfold delivered, array_power. ring.
    - intros t Ht. apply (continuous_minus (V := R_NormedModule)); [|apply cont_stored; intros; apply C; auto].
      apply (continuous_minus (V := R_NormedModule)); [apply C1; auto|apply C2; auto].
    - intros t _. apply Rmult_le_pos; auto. apply sum_sq_nonneg. }
  pose proof (stored_nonneg p k (Y b)) as S0. assert (0 <= stored p k (Y b)) by (apply S0; lra). lra.
Qed.
Print Assumptions C139_no_energy_from_nothing_partial.

(** While it is disconnected, or in the dark, a DER delivers at most what it had stored,
    however long it is watched; and its mean delivered power never exceeds the limit of
    the array by more than the stored energy over the time. *)
Theorem C139_stored_energy_is_all_partial : forall p k a b E Y Wout, a <= b -> has_dc_link k -> 0 < Lf p -> 0 < Cdc p -> 0 <= Rf p ->
  run_between a b (rhs p k) E Y -> (forall t, a < t < b -> Y t VDC <> 0) -> metered a b (delivered p k E Y) Wout ->
  ((forall t, a < t < b -> e_conn (E t) = false \/ array_power p k E Y t = 0) -> Wout b - Wout a <= stored p k (Y a)) /\
  (forall L, 0 <= Vdcmpp_max p ->
   (forall t, a < t < b -> let m := e_mod (E t) in 0 < PVModel.Ns m /\ 0 < Tactual m /\ 0 <= PVModel.Np m /\ 0 <= Iph_calc m /\ array_limit p m <= L) ->
   Wout b - Wout a <= L * (b - a) + stored p k (Y a)).
Proof.
  intros p k a b E Y Wout Hab Hk HL HC HR [D C] HV [D2 C2].
  assert (G : forall L, (forall t, a < t < b -> array_power p k E Y t <= L) -> Wout b - Wout a <= L * (b - a) + stored p k (Y a)).
  { intros L HA.
    assert (K : L * a - Wout a - stored p k (Y a) <= L * b - Wout b - stored p k (Y b)).
    { apply (meter_grows (fun t => L * t - Wout t - stored p k (Y t)) (fun t => L - array_power p k E Y t + Rf p * sum_sq k (Y t)) a b Hab).
      - intros t Ht. assert (HL0 : Lf p <> 0) by lra. assert (HC0 : Cdc p <> 0) by lra.
        assert (Ds : is_derive (fun s => stored p k (Y s)) t (p_in p k (E t) (Y t) - re (S_pcc p k (E t) (Y t)) - Rf p * sum_sq k (Y t))).
        { pose proof (C51_total_energy p k E Y t HL0 HC0 Hk (HV t Ht) (fun v => D t v Ht)) as Q. eapply is_derive_ext; [|exact Q]. intros s. unfold stored. destruct k; try reflexivity; exfalso; exact Hk. }
        evar_last.
        + apply (is_derive_minus (V := R_NormedModule)); [|exact Ds]. apply (is_derive_minus (V := R_NormedModule)); [apply is_derive_scal; apply (is_derive_id t)|apply D2; auto].
        + unfold minus, plus, opp, one. simpl. unfold delivered, array_power. ring.
      - intros t Ht. apply (continuous_minus (V := R_NormedModule)); [|apply cont_stored; intros; apply C; auto].
        apply (continuous_minus (V := R_NormedModule)); [|apply C2; auto]. apply (continuous_mult (K := R_AbsRing) (fun _ => L) (fun t => t)); [apply continuous_const|apply continuous_id].
      - intros t Ht. pose proof (HA t Ht). assert (0 <= Rf p * sum_sq k (Y t)) by (apply Rmult_le_pos; auto; apply sum_sq_nonneg). lra. }
    assert (0 <= stored p k (Y b)) by (apply stored_nonneg; lra). lra. }
  split.
  - intros H. assert (Q : Wout b - Wout a <= 0 * (b - a) + stored p k (Y a)); [|lra]. apply G. intros t Ht.
    destruct (H t Ht) as [Hc|Hz]; [|lra]. unfold array_power, p_in. rewrite Hc. lra.
  - intros L HM H. apply G. intros t Ht. destruct (H t Ht) as (H1 & H2 & H3 & H4 & H5). eapply Rle_trans; [|exact H5]. apply p_in_limit; auto.
Qed.
Print Assumptions C139_stored_energy_is_all_partial.

(** In the dark the array gives no power. *)
Theorem C139_dark : forall p k e y, 0 <= PVModel.Np (e_mod e) -> 0 < PVModel.Ns (e_mod e) -> 0 < Tactual (e_mod e) -> Sinsol (e_mod e) = 0 -> p_in p k e y = 0.
Proof.
  intros p k e y HN HS HT H0. unfold p_in. destruct (e_conn e); [|reflexivity]. unfold Ppv_of, Ppv_val. set (V := Vdc_actual _ _ _). clearbody V.
  set (m := e_mod e) in *. clearbody m.
  assert (HI : Iph_calc m = 0) by (unfold Iph_calc; rewrite H0; unfold Rdiv; ring).
  assert (HK : 0 < k_boltz * Tactual m * A_ideal * PVModel.Ns m) by (unfold k_boltz, A_ideal; repeat apply Rmult_lt_0_compat; lra).
  assert (HNI : 0 <= PVModel.Np m * Irs) by (apply Rmult_le_pos; [auto|unfold Irs; lra]).
  assert (HKi : 0 < / (k_boltz * Tactual m * A_ideal * PVModel.Ns m)) by (apply Rinv_0_lt_compat; auto). assert (HQ : 0 < q_charge) by (unfold q_charge; lra).
  rewrite Rmax_left; [unfold Rdiv; ring|]. unfold Ipv_val. rewrite HI. set (x := q_charge * V / _).
  destruct (Rle_lt_dec 0 V) as [Hv|Hv].
  - assert (1 <= exp x) by (rewrite <- exp_0 at 1; apply PVProperties.exp_le; unfold x, Rdiv; apply Rmult_le_pos; [apply Rmult_le_pos|]; lra).
    assert (0 <= PVModel.Np m * Irs * (exp x - 1)) by (apply Rmult_le_pos; lra). nra.
  - assert (exp x <= 1). { rewrite <- exp_0. apply PVProperties.exp_le. unfold x, Rdiv. assert (q_charge * V <= 0) by nra. nra. }
    assert (0 <= PVModel.Np m * Irs * (1 - exp x)) by (apply Rmult_le_pos; lra). nra.
Qed.
Print Assumptions C139_dark.

(** REFUTED for the models with constant DC voltage: a disconnected one delivers more
    than it had stored, from its ideal DC source. *)
Theorem C139_constant_vdc_refuted : exists p E Y Win Wout,
  0 < Lf p /\ 0 < Cdc p /\ 0 <= Rf p /\ run_between 0 5 (rhs p ThreeConst) E Y /\ (forall t, e_conn (E t) = false) /\
  metered 0 5 (array_power p ThreeConst E Y) Win /\ metered 0 5 (delivered p ThreeConst E Y) Wout /\
  (Win 5 - Win 0) + stored p ThreeConst (Y 0) < Wout 5 - Wout 0.
Proof.
  set (m := PVM 1 1 1 300).
  exists uneven_prm, (uneven_env m), uneven_run, (fun _ => 0), (fun t => - 7 * exp (- t)).
  split; [cbn; lra|]. split; [cbn; lra|]. split; [cbn; lra|]. split; [apply uneven_ok|]. split; [reflexivity|].
  assert (DV : forall t, delivered uneven_prm ThreeConst (uneven_env m) uneven_run t = 7 * exp (- t)).
  { intros t. unfold delivered. cbn [S_pcc]. unfold sum3, v_calc. cbn [e_grid uneven_env e_va e_vb e_vc]. unfold i_of, S_ph, cscale, cmul, conj, cadd. cbn [uneven_run re im amount]. field. }
  assert (D2 : forall t, is_derive (fun t => - 7 * exp (- t)) t (delivered uneven_prm ThreeConst (uneven_env m) uneven_run t)).
  { intros t. rewrite DV. auto_derive; [auto|ring]. }
  split; [|split; [|]].
  - split; intros; [|apply continuous_const]. change (array_power uneven_prm ThreeConst (uneven_env m) uneven_run t) with 0. apply @is_derive_const.
  - split; intros t _; [apply D2|]. apply (ex_derive_continuous (V := R_NormedModule)). eexists. apply D2.
  - unfold stored, filter_energy, sum_sq. rewrite !sq_cabs. unfold i_of. cbn [uneven_run uneven_prm Lf re im amount].
    rewrite Ropp_0, exp_0. assert (X : exp (- (5)) < 1 / 2).
    { rewrite exp_Ropp. pose proof (exp_ineq1 5 ltac:(lra)) as Q. apply Rlt_le_trans with (/ 6); [apply Rinv_lt_contravar; lra|lra]. }
    lra.
Qed.
Print Assumptions C139_constant_vdc_refuted.

(** Non-vacuity: half a per unit exported for as long as one likes, the array giving 1,
    half of it lost in the filter. *)
Example C139_hypotheses_met : exists p E Y, forall b, 0 <= b ->
  has_dc_link SinglePhase /\ 0 < Lf p /\ 0 < Cdc p /\ 0 <= Rf p /\ run_between 0 b (rhs p SinglePhase) E Y /\ (forall t, Y t VDC <> 0) /\
  metered 0 b (array_power p SinglePhase E Y) (fun t => t) /\ metered 0 b (delivered p SinglePhase E Y) (fun t => t / 2) /\
  metered 0 b (heat p SinglePhase E Y) (fun t => t / 2) /\ 0 < stored p SinglePhase (Y 0).
Proof.
  do 3 eexists. intros b Hb. pose proof example_trajectory as (A & B & C & D). split; [exact I|]. split; [|split; [|split; [|split; [|split]]]].
  4:{ split; [intros t v _; exact (A t v)|]. intros t v _. eapply (ex_derive_continuous (V := R_NormedModule)). eexists. exact (A t v). }
  4:{ exact D. }
  { cbn; lra. } { cbn; lra. } { cbn; lra. }
  clear B C.
  assert (Dh : forall t, is_derive (fun t => t / 2) t (1 / 2)) by (intros t; auto_derive; [auto|field]).
  split; [|split; [|split]].
  - split; [|intros t _; apply continuous_id]. intros t _.
    match goal with |- is_derive _ _ ?x => replace x with 1; [apply @is_derive_id|] end.
    pose proof (A t VDC) as Q. apply is_derive_unique in Q. cbn beta iota in Q. rewrite Derive_const in Q.
    match type of Q with _ = ode1 ?p ?e ?y VDC => pose proof (rhs_dc p SinglePhase e y I) as R; cbn [rhs] in R; rewrite R in Q; clear R end.
    unfold array_power. match type of Q with 0 = (?x - _) / _ => change (1 = x); set (pin := x) in *; clearbody pin end.
    match type of Q with 0 = (_ - re ?s) / _ => assert (S1 : re s = 1) end.
    { unfold S_term, v_term, duty, v_dc, i_of, S_ph, cscale, cmul, conj. cbn. field. }
    rewrite S1 in Q. cbn in Q. clear - Q. lra.
  - split; [|intros t _; apply (ex_derive_continuous (V := R_NormedModule)); eexists; apply Dh]. intros t _.
    match goal with |- is_derive _ _ ?x => replace x with (1/2); [apply Dh|] end.
    unfold delivered. cbn [S_pcc]. unfold v_calc, i_of, S_ph, crect, cscale, cmul, conj, cexp. cbn. rewrite cos_0, sin_0. field.
  - split; [|intros t _; apply (ex_derive_continuous (V := R_NormedModule)); eexists; apply Dh]. intros t _.
    match goal with |- is_derive _ _ ?x => replace x with (1/2); [apply Dh|] end.
    unfold heat, sum_sq. rewrite sq_cabs. unfold i_of. cbn. field.
  - unfold stored, filter_energy, link_energy, sum_sq. rewrite sq_cabs. unfold i_of. cbn. lra.
Qed.
