(** C118: the overload rating of the inverter.

    inverter_ratings["Ioverload"] (documented as the overload capacity of the inverter)
    enters the program only through iref_limit = Iarated/Ibase*Ioverload
    (DER_check_and_initialize.py:419-421, "Maximum current reference"), the field
    [iref_limit] of ODEModel.prm. *)
From Coquelicot Require Import Coquelicot.
From Verif Require Import RBase CxField PhasorModel PVModel ODEModel Const3Model PhasorProperties PhasorProperties2 CircuitProperties2 CircuitProperties3 PLLProperties FilterProperties EquilibriumProperties.
Import RBase.
Open Scope R_scope.

(** * Specification vocabulary *)
(** the same DER with another current limit *)
Definition with_limit (p : prm) (L : R) : prm :=
  Prm (Lf p) (Rf p) (Cdc p) (Kp_GCC p) (Ki_GCC p) (wp p) (m_limit p) (Kp_DC p) (Ki_DC p) (Kp_P p) (Ki_P p)
      (Kp_Q p) (Ki_Q p) L (Kp_PLL p) (Ki_PLL p) (Tfilter p) (Vdcbase p) (Vdcmpp_max p) (Z1 p) (a_tr p).
(** the three integrators of the outer loops *)
Definition outer (v : var) : Prop := v = XDC \/ v = XP \/ v = XQ.
Definition all_models (Q : (prm -> env -> st -> var -> R) -> Prop) : Prop :=
  Q ode1 /\ Q ode3 /\ Q odeb /\ Q odec /\ Q ode3c.

(** * What the rating does *)
(** Two DERs that differ only in their overload rating have the same current
    references and the same dynamics of every variable except the outer-loop
    integrators; such an integrator moves with the same speed in both, or is stopped
    in one of them, and it is only stopped where the requested current exceeds the
    limit of that DER and the integrator would move further away from zero. *)
Theorem C118_only_integrators_partial :
  forall p e y L,
  iref1 (with_limit p L) e y = iref1 p e y /\ iref3a (with_limit p L) e y = iref3a p e y /\
  irefb (with_limit p L) e y = irefb p e y /\ irefc (with_limit p L) e y = irefc p e y /\
  iref3c (with_limit p L) e y = iref3c p e y /\
  all_models (fun ode => forall v, ~ outer v -> ode (with_limit p L) e y v = ode p e y v).
Proof.
  intros p e y L. repeat split; intros v Hv; destruct v as [k c| | | | | | |]; try reflexivity;
    try (exfalso; apply Hv; unfold outer; tauto).
Qed.
Print Assumptions C118_only_integrators_partial.

(** The exact law of the integrators of a connected DER: with requested current [z] and
    plain rate [d], stopped exactly when the request exceeds the limit and the
    integrator would move away from zero. *)
Definition limited (L : R) (z : cx) (d x rate : R) : Prop :=
  (L < cabs z /\ 0 < d * x -> rate = 0) /\ (~ (L < cabs z /\ 0 < d * x) -> rate = d).
Lemma pos_prod a b : 0 < a * b <-> (0 < a /\ 0 < b) \/ (a < 0 /\ b < 0).
Proof.
  split; [|intros [[A B]|[A B]]; nra]. intros H.
  destruct (Rtotal_order a 0) as [A|[A|A]]; destruct (Rtotal_order b 0) as [B|[B|B]]; subst; try tauto; try (exfalso; nra).
Qed.
Lemma aw_limited p z d x : limited (iref_limit p) z d x (aw (i_sat p z) d x d).
Proof.
  unfold limited, aw, i_sat, same_sign, np_sign. rewrite pos_prod. split.
  - intros [A B]. replace (rlt (iref_limit p) (cabs z)) with true by (symmetry; apply rlt_iff; auto).
    destruct (rlt 0 d) eqn:D1; destruct (rlt d 0) eqn:D2; destruct (rlt 0 x) eqn:X1; destruct (rlt x 0) eqn:X2; rb;
      match goal with |- (if ?q then _ else _) = _ => destruct q eqn:R1 end; rb; try reflexivity; lra.
  - intros H. destruct (rlt (iref_limit p) (cabs z)) eqn:S1; [|reflexivity].
    destruct (rlt 0 d) eqn:D1; destruct (rlt d 0) eqn:D2; destruct (rlt 0 x) eqn:X1; destruct (rlt x 0) eqn:X2; rb;
      match goal with |- (if ?q then _ else _) = _ => destruct q eqn:R1 end; rb; try reflexivity; try lra; exfalso; apply H; lra.
Qed.
Theorem C118_integrator_law_partial :
  forall p e y, e_conn e = true ->
  let L := iref_limit p in
  let eV := Ki_DC p * (e_Vdcref e - y VDC) in
  let eQ S_ := - Ki_Q p * (e_Qref e - im S_) in
  let eP S_ := Ki_P p * (Ppv_of p e (e_Vconst e) - re S_) in
  limited L (iref1 p e y) eV (y XDC) (ode1 p e y XDC) /\ limited L (iref1 p e y) (eQ (S1_pcc p e y)) (y XQ) (ode1 p e y XQ) /\
  limited L (iref3a p e y) eV (y XDC) (ode3 p e y XDC) /\ limited L (iref3a p e y) (eQ (S3_pcc p e y)) (y XQ) (ode3 p e y XQ) /\
  limited L (irefb p e y) eV (y XDC) (odeb p e y XDC) /\ limited L (irefb p e y) (eQ (Sb_pcc p e y)) (y XQ) (odeb p e y XQ) /\
  limited L (irefc p e y) (eP (Sc_inv p e y)) (y XP) (odec p e y XP) /\ limited L (irefc p e y) (eQ (S1_pcc p e y)) (y XQ) (odec p e y XQ) /\
  limited L (iref3c p e y) (eP (S3c_inv p e y)) (y XP) (ode3c p e y XP) /\ limited L (iref3c p e y) (eQ (S3_pcc p e y)) (y XQ) (ode3c p e y XQ).
Proof.
  intros p e y Hc L eV eQ eP.
  destruct e as [t wg va vb vc g Qr Vr md cn Vc]. cbn [e_conn] in Hc. subst cn.
  repeat match goal with |- _ /\ _ => split end; apply aw_limited.
Qed.
Print Assumptions C118_integrator_law_partial.

(** * What the rating does not do *)
(** Refuted: "the current stays within the overload rating".  A DER at rest stays at
    rest when its rating is lowered to any value, so it carries any multiple of the
    rated overload current for ever; and the requested current itself has no bound. *)
Lemma i_sat_any p L z : i_sat (with_limit p L) z = rlt L (cabs z).
Proof. reflexivity. Qed.
Theorem C118_overload_refuted :
  (forall p e y L, sane p -> y VDC <> 0 -> e_conn e = true ->
     (mod_ok p y PA -> cur_ok p (iref1 p e y) -> stationary (ode1 p) e y -> stationary (ode1 (with_limit p L)) e y) /\
     ((forall k, mod_ok p y k) -> cur_ok p (iref3a p e y) -> stationary (ode3 p) e y -> stationary (ode3 (with_limit p L)) e y) /\
     (mod_ok p y PA -> cur_ok p (irefb p e y) -> stationary (odeb p) e y -> stationary (odeb (with_limit p L)) e y) /\
     (mod_ok p y PA -> cur_ok p (irefc p e y) -> stationary (odec p) e y -> stationary (odec (with_limit p L)) e y)) /\
  (exists p e y, e_conn e = true /\ iref_limit p = 1/2 /\ cabs (i_of y PA) = 1 /\ stationary (ode1 p) e y) /\
  (forall p e y, Kp_DC p <> 0 -> forall B, exists Vref, B < cabs (iref1 p (with_refs e (e_Qref e) Vref (e_mod e)) y) /\
     B < cabs (iref3a p (with_refs e (e_Qref e) Vref (e_mod e)) y) /\ B < cabs (irefb p (with_refs e (e_Qref e) Vref (e_mod e)) y)).
Proof.
  assert (A : forall p e y L, sane p -> y VDC <> 0 -> e_conn e = true ->
     (mod_ok p y PA -> cur_ok p (iref1 p e y) -> stationary (ode1 p) e y -> stationary (ode1 (with_limit p L)) e y) /\
     ((forall k, mod_ok p y k) -> cur_ok p (iref3a p e y) -> stationary (ode3 p) e y -> stationary (ode3 (with_limit p L)) e y) /\
     (mod_ok p y PA -> cur_ok p (irefb p e y) -> stationary (odeb p) e y -> stationary (odeb (with_limit p L)) e y) /\
     (mod_ok p y PA -> cur_ok p (irefc p e y) -> stationary (odec p) e y -> stationary (odec (with_limit p L)) e y)).
  { intros p e y L Hs HV Hc. pose proof (C118_only_integrators_partial p e y L) as (_ & _ & _ & _ & _ & D1 & D3 & Db & Dc & _).
    assert (EQ : eff_Qref e = e_Qref e) by (unfold eff_Qref; now rewrite Hc).
    assert (EV : eff_Vref e (y VDC) = e_Vdcref e) by (unfold eff_Vref; now rewrite Hc).
    assert (EP : forall z, eff_Ppv e z = z) by (intros; unfold eff_Ppv; now rewrite Hc).
    assert (X : forall q V a b c, dxDC (with_limit p L) V V q a b c = 0).
    { intros. unfold dxDC. rewrite Rminus_eq_0, Rmult_0_r. apply aw_zero0. }
    assert (Q : forall z x q, dxQ (with_limit p L) z q x q = 0).
    { intros. unfold dxQ. rewrite Rminus_eq_0, Rmult_0_r. apply aw_zero0. }
    repeat split; intros Hm Hi Hst v Hv; pose proof Hst as Hst0.
    - apply C96_single_phase in Hst; auto. destruct Hst as (E1 & E2 & _).
      destruct v as [k c| | | | | | |]; try (rewrite D1; [apply Hst0; auto|unfold outer; intros [K|[K|K]]; discriminate]); try reflexivity.
      + cbn [ode1]. rewrite EV, E1. apply X.
      + cbn [ode1]. rewrite EQ. change (im (S1_pcc (with_limit p L) e y)) with (im (S_ph (v_calc p e PA (i_of y PA)) (i_of y PA))). rewrite E2. apply Q.
    - apply C96_three_phase in Hst; auto. destruct Hst as (E1 & E2 & _).
      destruct v as [k c| | | | | | |]; try (rewrite D3; [apply Hst0; auto|unfold outer; intros [K|[K|K]]; discriminate]); try reflexivity.
      + cbn [ode3]. rewrite EV, E1. apply X.
      + cbn [ode3]. rewrite EQ. rewrite <- E2. apply Q.
    - apply C96_balanced in Hst; auto. destruct Hst as (E1 & E2 & _).
      destruct v as [k c| | | | | | |]; try (rewrite Db; [apply Hst0; auto|unfold outer; intros [K|[K|K]]; discriminate]); try reflexivity.
      + cbn [odeb]. rewrite EV, E1. apply X.
      + cbn [odeb]. rewrite EQ. rewrite <- E2. apply Q.
    - apply C96_constant_Vdc in Hst; auto. destruct Hst as (E2 & E1 & _).
      destruct v as [k c| | | | | | |]; try (rewrite Dc; [apply Hst0; auto|unfold outer; intros [K|[K|K]]; discriminate]); try reflexivity.
      + cbn [odec]. rewrite EP. change (Sc_inv (with_limit p L) e y) with (Sc_inv p e y). rewrite E1.
        change (Ppv_of (with_limit p L) e (e_Vconst e)) with (Ppv_of p e (e_Vconst e)). rewrite Rminus_eq_0, Rmult_0_r. apply aw_zero0.
      + cbn [odec]. rewrite EQ. change (im (S1_pcc (with_limit p L) e y)) with (im (S_ph (v_calc p e PA (i_of y PA)) (i_of y PA))). rewrite E2. apply Q. }
  split; [exact A|]. split.
  - pose proof (example_rhs 0) as H. cbv zeta in H.
    match type of H with forall v, ode1 ?p ?e ?y v = _ => exists (with_limit p (1/2)), e, y;
      assert (ST : stationary (ode1 p) e y) by (intros v Hv; rewrite H; destruct v; auto; congruence);
      pose proof (proj1 (A p e y (1/2) ltac:(unfold sane; cbn; lra) ltac:(cbn; lra) eq_refl)) as K end.
    split; [reflexivity|]. split; [reflexivity|]. split.
    + unfold cabs, cnorm2, i_of. cbn. replace (1 * 1 + 0 * 0) with 1 by lra. apply sqrt_1.
    + apply K; auto.
      * unfold mod_ok, cabs. cbn [m_limit]. rewrite <- (sqrt_square 10) by lra. apply sqrt_le_1_alt.
        unfold cnorm2, cadd, cscale, u_of, x_of. cbn. lra.
      * unfold cur_ok, cabs. cbn [iref_limit]. rewrite <- (sqrt_square 10) by lra. apply sqrt_le_1_alt.
        unfold iref1, ia_ref_calc, S1_pcc, v_calc, i_of, S_ph, crect, cscale, cmul, conj, cexp, cnorm2. cbn. rewrite sin_0. lra.
  - intros p e y HK B. exists (y VDC + (Rabs B + 1 - y XDC) / Kp_DC p).
    assert (G : forall q, B < cabs (ia_ref_calc p (y VDC + (Rabs B + 1 - y XDC) / Kp_DC p) (y VDC) (y XDC) (e_Qref e) (y XQ) q)).
    { intros q. unfold ia_ref_calc.
      replace (y XDC + Kp_DC p * (y VDC + (Rabs B + 1 - y XDC) / Kp_DC p - y VDC)) with (Rabs B + 1) by (field; auto).
      unfold cabs, cnorm2. cbn [re im]. apply Rle_lt_trans with (Rabs B); [apply Rle_abs|].
      apply Rlt_le_trans with (Rabs B + 1); [lra|]. pose proof (Rabs_pos B).
      rewrite <- (sqrt_square (Rabs B + 1)) at 1 by lra. apply sqrt_le_1_alt.
      pose proof (Rle_0_sqr (y XQ - Kp_Q p * (e_Qref e - q))) as SQ. unfold Rsqr in SQ. lra. }
    repeat split; apply G.
Qed.
Print Assumptions C118_overload_refuted.

(** A connected DER with a requested current above, and one within, its limit. *)
Example C118_hypotheses_met : exists p e y, e_conn e = true /\
  cabs (iref1 p e y) <= iref_limit p /\ iref_limit (with_limit p (1/2)) < cabs (iref1 (with_limit p (1/2)) e y).
Proof.
  pose proof (example_rhs 0) as H. cbv zeta in H.
  match type of H with forall v, ode1 ?p ?e ?y v = _ => exists p, e, y; assert (K : iref1 p e y = Cx 1 0) end.
  { unfold iref1, ia_ref_calc, S1_pcc, v_calc, i_of, S_ph, crect, cscale, cmul, conj, cexp. cbn. rewrite sin_0, cos_0. apply cx_eq2; cbn; lra. }
  split; [reflexivity|].
  match goal with |- context [iref1 (with_limit ?p ?l) ?e ?y] => change (iref1 (with_limit p l) e y) with (iref1 p e y) end.
  rewrite K. unfold cabs, cnorm2. cbn. replace (1 * 1 + 0 * 0) with 1 by lra. rewrite sqrt_1. lra.
Qed.
