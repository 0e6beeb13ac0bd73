(** C136: no state runs away in finite time; a run ends only at one of its limits. *)
From Coq Require Import List Classical_Prop.
From Coquelicot Require Import Coquelicot.
From Verif Require Import RBase CxField PhasorModel PVModel ODEModel Const3Model PhasorProperties PhasorProperties2 CircuitProperties2 CircuitProperties3 PLLProperties FilterProperties BoundProofs BoundProperties SettleProofs SettleProperties SettleProperties2 SolutionSpec SolutionProofs LipschitzProofs SolutionProperties ExistProperties ContinueProperties DependProperties.
Import RBase ListNotations.
Open Scope R_scope.

(** * Specification *)
(** a run over [a, T] that starts in [y0], keeps at least [d] from the limits of the
    controllers throughout and, with a DC link, a DC voltage of at least [c] *)
Definition run_inside (p : prm) (k : kind) (E : R -> env) (d c a : R) (y0 : st) (T : R) (Y : R -> st) : Prop :=
  run_between a T (rhs p k) E Y /\ (forall v, Y a v = y0 v) /\
  forall t, a <= t <= T -> clear_of_limits p k (E t) (Y t) d /\ (has_dc_link k -> c <= Y t VDC).

(** * Stored energy *)
Definition energy (y : st) : R :=
  y VDC * y VDC + (cnorm2 (i_of y PA) + cnorm2 (i_of y PB) + cnorm2 (i_of y PC)) + 1.
Definition d_cur (f y : st) (ph : phase) : R := 2 * (y (P ph CiR) * f (P ph CiR) + y (P ph CiI) * f (P ph CiI)).
Definition d_energy (f y : st) : R := 2 * (y VDC * f VDC) + (d_cur f y PA + d_cur f y PB + d_cur f y PC).

Lemma cnorm2_nonneg z : 0 <= cnorm2 z. Proof. unfold cnorm2. nra. Qed.
Lemma energy_parts y : 1 <= energy y /\ y VDC * y VDC <= energy y /\ forall ph, cnorm2 (i_of y ph) <= energy y.
Proof.
  unfold energy. pose proof (cnorm2_nonneg (i_of y PA)). pose proof (cnorm2_nonneg (i_of y PB)). pose proof (cnorm2_nonneg (i_of y PC)).
  assert (0 <= y VDC * y VDC) by nra. repeat split; try lra. intros [| |]; lra.
Qed.
Lemma prod_le u v w : 0 <= u -> 0 <= v -> u * u <= w -> v * v <= w -> u * v <= w.
Proof. intros. destruct (Rle_lt_dec u v); nra. Qed.

Lemma pv_bounded m M : exists Pm, 0 <= Pm /\ forall V, Rabs V <= M -> Rabs (Ppv_val m V) <= Pm.
Proof.
  destruct (near_pv_same R (fun V => Rabs V <= M) (fun _ => 0) (fun _ => m) (fun _ => m) m (fun V => V) (fun V => V)) as (K & Q & _ & HQ & H).
  - auto.
  - apply (near_same _ _ _ _ M). auto.
  - exists Q. split; auto. intros V HV. apply (H V HV).
Qed.
Lemma re_conj_prod u v : Rabs (re u * re v + im u * im v) <= cabs u * cabs v.
Proof.
  replace (re u * re v + im u * im v) with (re (cmul u (conj v))) by (destruct u as [a b], v as [c d]; unfold cmul, conj; cbn [re im]; ring).
  eapply Rle_trans; [apply cabs_ge_re|]. rewrite cabs_mul, cabs_conj. lra.
Qed.

Section Inside.
  Variables (p : prm) (k : kind) (B c : R) (m : pvm).
  Hypothesis (HB : 0 <= B) (Hc : 0 < c) (HCd : Cdc p <> 0) (HVb : 0 <= Vdcbase p) (Hml : 0 <= m_limit p).
  (** admissible instants *)
  Definition fair (e : env) (y : st) : Prop :=
    passive p e /\ cabs (source_impedance p e) <= B /\ (forall ph, cabs (v_calc p e ph (Cx 0 0)) <= B) /\ Rabs (e_Vconst e) <= B /\ e_mod e = m /\
    (forall ph, has_phase k ph -> cabs (duty p y ph) <= m_limit p) /\ (has_dc_link k -> c <= y VDC).
  Lemma fair_pin : exists Pm, 0 <= Pm /\ forall e y, fair e y -> Rabs (p_in p k e y) <= Pm.
  Proof.
    destruct (pv_bounded m (Rabs (Vdcmpp_max p) + B * Vdcbase p)) as (Pm & HP & H). exists Pm. split; auto.
    intros e y (_ & _ & _ & HV & Hm & _ & Hy). unfold p_in. destruct (e_conn e); [|rewrite Rabs_R0; auto].
    unfold Ppv_of. rewrite Hm. apply H. unfold Vdc_actual.
    assert (Lo : - (B * Vdcbase p) <= v_dc k e y * Vdcbase p).
    { assert (- B <= v_dc k e y); [|nra]. pose proof (Rabs_def2 (e_Vconst e) (B + 1) ltac:(lra)). apply Rcomplements.Rabs_le_between in HV.
      destruct k; cbn [v_dc has_dc_link] in *; try lra; specialize (Hy I); lra. }
    pose proof (Rle_abs (Vdcmpp_max p)). pose proof (Rle_abs (- Vdcmpp_max p)). rewrite Rabs_Ropp in *.
    assert (0 <= B * Vdcbase p) by (apply Rmult_le_pos; auto).
    pose proof (Rmin_l (Vdcmpp_max p) (v_dc k e y * Vdcbase p)).
    assert (- (Rabs (Vdcmpp_max p) + B * Vdcbase p) <= Rmin (Vdcmpp_max p) (v_dc k e y * Vdcbase p)) by (apply Rmin_glb; lra).
    apply Rabs_le. lra.
  Qed.
  Lemma fair_vterm e y ph : fair e y -> has_phase k ph -> cabs (v_term p k e y ph) <= (Rabs (y VDC) + B) * m_limit p.
  Proof.
    intros (_ & _ & _ & HV & _ & Hd & _) Hph. unfold v_term. rewrite cabs_scale.
    assert (Rabs (v_dc k e y / 2) <= Rabs (y VDC) + B).
    { unfold Rdiv. rewrite Rabs_mult, (Rabs_pos_eq (/ 2)) by lra. pose proof (Rabs_pos (y VDC)). pose proof (Rabs_pos (e_Vconst e)). destruct k; cbn [v_dc]; lra. }
    apply Rmult_le_compat; auto; [apply Rabs_pos|apply cabs_nonneg].
  Qed.
  Lemma fair_v e y ph : fair e y -> cabs (v_calc p e ph (i_of y ph)) <= B + B * cabs (i_of y ph).
  Proof.
    intros (Hp & Hz & Ho & _). rewrite (v_calc_affine p e ph _ (Cx 0 0) Hp). eapply Rle_trans; [apply cabs_add_le|].
    rewrite cabs_mul. replace (csub (i_of y ph) (Cx 0 0)) with (i_of y ph) by (destruct (i_of y ph) as [q w]; unfold csub, cadd, cneg; apply cx_eq; cbn [re im]; ring).
    apply Rplus_le_compat; auto. apply Rmult_le_compat_r; [apply cabs_nonneg|auto].
  Qed.
  (** each current drives the energy by a bounded multiple of it *)
  Lemma fair_current e y ph : fair e y ->
    d_cur (rhs p k e y) y ph <= 2 * Rabs (/ Lf p) * (Rabs (Rf p) + (m_limit p + B * m_limit p) + (B + B)) * energy y.
  Proof.
    intros F. destruct (energy_parts y) as (W1 & WV & Wi). specialize (Wi ph). rewrite <- cabs_sq in Wi.
    assert (RL : 0 <= Rabs (/ Lf p)) by apply Rabs_pos. assert (RR : 0 <= Rabs (Rf p)) by apply Rabs_pos.
    assert (Bm : 0 <= B * m_limit p) by (apply Rmult_le_pos; auto).
    destruct (phase_dec k ph) as [Hph|Hph].
    2: { unfold d_cur. rewrite !rhs_idle by auto. rewrite !Rmult_0_r, Rplus_0_r, Rmult_0_r. repeat apply Rmult_le_pos; lra. }
    pose proof (rhs_current p k e y ph Hph) as (Q1 & Q2). unfold d_cur. rewrite Q1, Q2. clear Q1 Q2.
    set (w := omega p k e y). set (A := across p k e y ph).
    assert (EQ : y (P ph CiR) * (1 / Lf p * (- Rf p * y (P ph CiR) + re A) + w * y (P ph CiI)) + y (P ph CiI) * (1 / Lf p * (- Rf p * y (P ph CiI) + im A) - w * y (P ph CiR)) =
      / Lf p * (- Rf p * cnorm2 (i_of y ph) + (re (i_of y ph) * re A + im (i_of y ph) * im A))).
    { unfold cnorm2, i_of. cbn [re im]. unfold Rdiv. ring. }
    rewrite EQ. rewrite Rmult_assoc, Rmult_assoc. apply Rmult_le_compat_l; [lra|].
    eapply Rle_trans; [apply Rle_abs|]. rewrite Rabs_mult. apply Rmult_le_compat_l; auto.
    eapply Rle_trans; [apply Rabs_triang|]. rewrite Rabs_mult, Rabs_Ropp, (Rabs_pos_eq (cnorm2 _)), <- cabs_sq by apply cnorm2_nonneg.
    pose proof (re_conj_prod (i_of y ph) A) as G. set (i := cabs (i_of y ph)) in *. assert (I0 : 0 <= i) by apply cabs_nonneg.
    assert (HA : cabs A <= (Rabs (y VDC) + B) * m_limit p + (B + B * i)).
    { unfold A, across. eapply Rle_trans; [apply cabs_triangle_sub|]. apply Rplus_le_compat; [apply fair_vterm; auto|apply fair_v; auto]. }
    set (V := Rabs (y VDC)) in *. assert (V0 : 0 <= V) by apply Rabs_pos. assert (VV : V * V <= energy y) by (unfold V; rewrite <- Rabs_mult, Rabs_pos_eq by nra; auto).
    assert (iV : i * V <= energy y) by (apply prod_le; auto). assert (i1 : i * 1 <= energy y) by (apply prod_le; auto; lra).
    assert (i * cabs A <= i * ((V + B) * m_limit p + (B + B * i))) by (apply Rmult_le_compat_l; auto).
    assert (m_limit p * (i * V) <= m_limit p * energy y) by (apply Rmult_le_compat_l; auto).
    assert (B * m_limit p * (i * 1) <= B * m_limit p * energy y) by (apply Rmult_le_compat_l; auto).
    assert (B * (i * 1) <= B * energy y) by (apply Rmult_le_compat_l; auto).
    assert (B * (i * i) <= B * energy y) by (apply Rmult_le_compat_l; auto).
    assert (Rabs (Rf p) * (i * i) <= Rabs (Rf p) * energy y) by (apply Rmult_le_compat_l; auto).
    nra.
  Qed.
  Lemma fair_Sterm e y : fair e y -> Rabs (re (S_term p k e y)) <= 3 * ((m_limit p + B * m_limit p) * energy y).
  Proof.
    intros F. eapply Rle_trans; [apply cabs_ge_re|].
    assert (One : forall ph, has_phase k ph -> cabs (v_term p k e y ph) * cabs (i_of y ph) / 2 <= (m_limit p + B * m_limit p) * energy y).
    { intros ph Hph. destruct (energy_parts y) as (W1 & WV & Wi). specialize (Wi ph). rewrite <- cabs_sq in Wi.
      pose proof (fair_vterm e y ph F Hph) as Hv. set (i := cabs (i_of y ph)) in *. assert (I0 : 0 <= i) by apply cabs_nonneg. assert (N0 := cabs_nonneg (v_term p k e y ph)).
      set (V := Rabs (y VDC)) in *. assert (V0 : 0 <= V) by apply Rabs_pos. assert (VV : V * V <= energy y) by (unfold V; rewrite <- Rabs_mult, Rabs_pos_eq by nra; auto).
      assert (iV : i * V <= energy y) by (apply prod_le; auto). assert (i1 : i * 1 <= energy y) by (apply prod_le; auto; lra).
      assert (Bm : 0 <= B * m_limit p) by (apply Rmult_le_pos; auto).
      assert (cabs (v_term p k e y ph) * i <= (V + B) * m_limit p * i) by (apply Rmult_le_compat_r; auto).
      assert (0 <= cabs (v_term p k e y ph) * i) by (apply Rmult_le_pos; auto).
      assert (m_limit p * (i * V) <= m_limit p * energy y) by (apply Rmult_le_compat_l; auto).
      assert (B * m_limit p * (i * 1) <= B * m_limit p * energy y) by (apply Rmult_le_compat_l; auto).
      nra. }
    assert (P0 : 0 <= (m_limit p + B * m_limit p) * energy y).
    { destruct (energy_parts y) as (W1 & _). assert (0 <= B * m_limit p) by (apply Rmult_le_pos; auto). apply Rmult_le_pos; lra. }
    assert (T3 : forall f, (forall ph, cabs (f ph) <= (m_limit p + B * m_limit p) * energy y) -> cabs (sum3 f) <= 3 * ((m_limit p + B * m_limit p) * energy y)).
    { intros f Hf. unfold sum3. eapply Rle_trans; [apply cabs_add_le|]. pose proof (cabs_add_le (f PA) (f PB)). pose proof (Hf PA). pose proof (Hf PB). pose proof (Hf PC). lra. }
    assert (T1 : forall z, cabs z <= (m_limit p + B * m_limit p) * energy y -> cabs z <= 3 * ((m_limit p + B * m_limit p) * energy y)) by (intros; lra).
    clear F. unfold S_term. destruct k; cbn [has_phase] in One.
    - apply T1. rewrite cabs_S. apply One. reflexivity.
    - apply T3. intros ph. rewrite cabs_S. apply One. exact I.
    - apply T3. intros ph. rewrite cabs_S, !rot_abs. apply One. reflexivity.
    - apply T1. rewrite cabs_S. apply One. reflexivity.
    - apply T3. intros ph. rewrite cabs_S. apply One. exact I.
  Qed.
  Lemma fair_dc : exists K, 0 <= K /\ forall e y, fair e y -> 2 * (y VDC * rhs p k e y VDC) <= K * energy y.
  Proof.
    destruct fair_pin as (Pm & HP & Hpin). set (q := m_limit p + B * m_limit p).
    assert (Hq : 0 <= q) by (unfold q; assert (0 <= B * m_limit p) by (apply Rmult_le_pos; auto); lra).
    exists (2 * Rabs (/ Cdc p) * (Pm + 3 * q)). split; [repeat apply Rmult_le_pos; try apply Rabs_pos; lra|].
    intros e y F. destruct (energy_parts y) as (W1 & _). assert (RC : 0 <= Rabs (/ Cdc p)) by apply Rabs_pos.
    assert (Z : rhs p k e y VDC = 0 -> 2 * (y VDC * rhs p k e y VDC) <= 2 * Rabs (/ Cdc p) * (Pm + 3 * q) * energy y).
    { intros ->. rewrite Rmult_0_r, Rmult_0_r. repeat apply Rmult_le_pos; lra. }
    assert (L : has_dc_link k -> 2 * (y VDC * rhs p k e y VDC) <= 2 * Rabs (/ Cdc p) * (Pm + 3 * q) * energy y).
    { intros Hl. assert (HV : c <= y VDC) by (apply F; auto). rewrite rhs_dc by auto.
      replace (y VDC * ((p_in p k e y - re (S_term p k e y)) / (y VDC * Cdc p))) with (/ Cdc p * (p_in p k e y - re (S_term p k e y))) by (field; split; lra).
      rewrite Rmult_assoc, Rmult_assoc. apply Rmult_le_compat_l; [lra|]. eapply Rle_trans; [apply Rle_abs|]. rewrite Rabs_mult. apply Rmult_le_compat_l; auto.
      pose proof (Hpin e y F). pose proof (fair_Sterm e y F) as G. fold q in G. eapply Rle_trans; [apply Rabs_triang|]. rewrite Rabs_Ropp.
      assert (Pm * 1 <= Pm * energy y) by (apply Rmult_le_compat_l; auto). lra. }
    revert Z L. clear. destruct k; cbn [has_dc_link]; intros Z L; try (apply L; exact I); apply Z; reflexivity.
  Qed.
  Lemma fair_energy : exists K, 0 <= K /\ forall e y, fair e y -> d_energy (rhs p k e y) y <= K * energy y.
  Proof.
    destruct fair_dc as (K & HK & H). set (q := 2 * Rabs (/ Lf p) * (Rabs (Rf p) + (m_limit p + B * m_limit p) + (B + B))).
    assert (Hq : 0 <= q).
    { unfold q. assert (0 <= B * m_limit p) by (apply Rmult_le_pos; auto). pose proof (Rabs_pos (Rf p)). pose proof (Rabs_pos (/ Lf p)). repeat apply Rmult_le_pos; lra. }
    exists (K + 3 * q). split; [lra|]. intros e y F. unfold d_energy. pose proof (H e y F). pose proof (fair_current e y PA F). pose proof (fair_current e y PB F). pose proof (fair_current e y PC F). fold q in H1, H2, H3. lra.
  Qed.
End Inside.

(** * A bound that holds along all such runs *)
Section Runs.
  Variables (p : prm) (k : kind) (E : R -> env) (B L d c a b : R) (m : pvm) (y0 : st).
  Hypothesis (HB : 0 <= B) (Hc : 0 < c) (Hd : 0 < d) (HCd : Cdc p <> 0) (HVb : 0 <= Vdcbase p) (Hml : 0 <= m_limit p).
  Hypothesis (HE : forall t, a <= t <= b -> smooth_inputs p E t B L m).
  (** an instant of a run *)
  Definition instant : Type := R * (R -> st) * R.
  Definition end_of (x : instant) : R := fst (fst x).
  Definition run_of (x : instant) : R -> st := snd (fst x).
  Definition now (x : instant) : R := snd x.
  Definition state_of (x : instant) : st := run_of x (now x).
  Definition D (x : instant) : Prop := end_of x <= b /\ a <= now x <= end_of x /\ run_inside p k E d c a y0 (end_of x) (run_of x).
  Definition N (x : instant) : R := 0.
  Notation bd f := (near D N f f).
  Notation cbd f := (cnear D N f f).
  Lemma N_pos x : 0 <= N x. Proof. unfold N. lra. Qed.
  Lemma inputs_at t : a <= t <= b -> passive p (E t) /\ e_mod (E t) = m /\ cabs (source_impedance p (E t)) <= B /\ (forall ph, cabs (v_calc p (E t) ph (Cx 0 0)) <= B) /\
    Rabs (e_Qref (E t)) <= B /\ Rabs (e_Vdcref (E t)) <= B /\ Rabs (e_Vconst (E t)) <= B.
  Proof.
    intros Ht. destruct (HE t Ht) as (E1 & E2 & E3 & E4 & E5 & E6 & _). assert (W : Rabs (t - t) <= 1) by (rewrite Rminus_eq_0, Rabs_R0; lra).
    split; [apply E1; auto|]. split; [apply E1; auto|]. split; [apply (E2 t t); auto|]. split; [intros ph; apply (E3 ph t t); auto|].
    split; [apply (E4 t t); auto|]. split; [apply (E5 t t); auto|]. apply (E6 t t); auto.
  Qed.
  Lemma at_D x : D x -> a <= now x <= b /\ clear_of_limits p k (E (now x)) (state_of x) d /\ (has_dc_link k -> c <= state_of x VDC).
  Proof. intros (H1 & H2 & _ & _ & H). split; [lra|]. apply H; auto. Qed.
  Lemma D_fair x : D x -> fair p k B c m (E (now x)) (state_of x).
  Proof.
    intros Hx. destruct (at_D x Hx) as (Ht & (H1 & _) & H2). destruct (inputs_at _ Ht) as (I1 & I2 & I3 & I4 & _ & _ & I7).
    repeat split; auto. intros ph Hph. specialize (H1 ph Hph). lra.
  Qed.
  Lemma earlier x s : D x -> a <= s <= now x -> D (end_of x, run_of x, s).
  Proof. intros (H1 & H2 & H3) Hs. split; [exact H1|]. split; [cbn; lra|exact H3]. Qed.
  (** a state whose rate is at most proportional to it stays bounded *)
  Lemma grows v : (exists K, 0 <= K /\ forall x, D x -> Rabs (rhs p k (E (now x)) (state_of x) v) <= K * (Rabs (state_of x v) + 1)) ->
    bd (fun x => state_of x v).
  Proof.
    intros (K & HK & H). apply (near_same _ _ _ _ ((y0 v * y0 v + 1) * exp (3 * K * (b - a)))). intros x Hx.
    pose proof Hx as (H1 & H2 & (Hder & Hcon) & Hst & _). set (f := fun s => run_of x s v).
    assert (G : f (now x) * f (now x) + 1 <= (f a * f a + 1) * exp (3 * K * (now x - a))).
    { apply (gronwall_growth (fun s => f s * f s + 1) (fun s => 2 * (f s * rhs p k (E s) (run_of x s) v)) a (now x) (3 * K)); try lra.
      - intros s Hs. assert (Ds : is_derive f s (rhs p k (E s) (run_of x s) v)) by (apply Hder; lra).
        evar_last; [apply (is_derive_plus (V := R_NormedModule) (fun s => f s * f s) (fun _ => 1)); [apply (is_derive_mult f f); [exact Ds|exact Ds|intros; apply Rmult_comm]|apply (is_derive_const (V := R_NormedModule))]|].
        unfold plus, mult, zero. simpl. ring.
      - intros s Hs. assert (Cs : continuous f s) by (apply Hcon; lra).
        apply (continuous_plus (V := R_NormedModule) (fun s => f s * f s) (fun _ => 1)); [apply (continuous_mult (K := R_AbsRing) f f); auto|apply continuous_const].
      - intros s Hs. assert (Q := H (end_of x, run_of x, s) ltac:(apply earlier; auto; lra)). unfold state_of in Q. cbn [now run_of fst snd] in Q. fold (run_of x) in Q. change (run_of x s v) with (f s) in Q.
        set (r := rhs p k (E s) (run_of x s) v) in *. set (z := f s) in *.
        assert (z * r <= Rabs z * Rabs r) by (rewrite <- Rabs_mult; apply Rle_abs). pose proof (Rabs_pos z) as Z0.
        assert (ZZ : Rabs z * Rabs z = z * z) by (rewrite <- Rabs_mult, Rabs_pos_eq; nra).
        assert (Rabs z * Rabs r <= Rabs z * (K * (Rabs z + 1))) by (apply Rmult_le_compat_l; auto).
        assert (Rabs z <= (z * z + 1) / 2) by (rewrite <- ZZ; pose proof (Rle_0_sqr (Rabs z - 1)) as Sq; unfold Rsqr in Sq; lra).
        assert (K * Rabs z <= K * ((z * z + 1) / 2)) by (apply Rmult_le_compat_l; auto).
        assert (EK : Rabs z * (K * (Rabs z + 1)) = K * (z * z) + K * Rabs z) by (rewrite <- ZZ; ring). lra.
      - intros s. nra. }
    assert (Hex : exp (3 * K * (now x - a)) <= exp (3 * K * (b - a))).
    { destruct (Rle_lt_or_eq_dec (3 * K * (now x - a)) (3 * K * (b - a))) as [Lt|Eq]; [apply Rmult_le_compat_l; lra|left; apply exp_increasing; auto|rewrite Eq; lra]. }
    unfold f in G. rewrite (Hst v) in G. change (run_of x (now x) v) with (state_of x v) in G. set (z := state_of x v) in *.
    assert ((y0 v * y0 v + 1) * exp (3 * K * (now x - a)) <= (y0 v * y0 v + 1) * exp (3 * K * (b - a))) by (apply Rmult_le_compat_l; nra).
    assert (Rabs z <= z * z + 1) by (unfold Rabs; destruct (Rcase_abs z); nra). lra.
  Qed.
  Lemma no_rate v : (forall e y, rhs p k e y v = 0) -> bd (fun x => state_of x v).
  Proof. intros H. apply grows. exists 0. split; [lra|]. intros x _. rewrite H, Rabs_R0. lra. Qed.
  Lemma from_bd f : bd f -> exists M, 0 <= M /\ forall x, D x -> Rabs (f x) <= M.
  Proof. intros (K & M & _ & HM & H). exists M. split; auto. intros x Hx. apply (H x Hx). Qed.
  Lemma steady_rate v f : bd f -> (exists K, 0 <= K /\ forall x, D x -> Rabs (rhs p k (E (now x)) (state_of x) v) <= K * Rabs (state_of x v) + Rabs (f x)) -> bd (fun x => state_of x v).
  Proof.
    intros Hf (K & HK & H). destruct (from_bd f Hf) as (M & HM & Hb). apply grows. exists (K + M). split; [lra|]. intros x Hx. specialize (H x Hx). specialize (Hb x Hx).
    pose proof (Rabs_pos (state_of x v)). nra.
  Qed.
  (** currents and DC voltage *)
  Lemma energy_bounded : exists M, forall x, D x -> energy (state_of x) <= M.
  Proof.
    destruct (fair_energy p k B c m HB Hc HCd HVb Hml) as (K & HK & H). exists (energy y0 * exp (K * (b - a))). intros x Hx.
    pose proof Hx as (H1 & H2 & (Hder & Hcon) & Hst & _). set (Y := run_of x).
    assert (EA : energy (Y a) = energy y0) by (unfold energy, i_of; rewrite !(Hst _); reflexivity).
    assert (G : energy (Y (now x)) <= energy (Y a) * exp (K * (now x - a))).
    { apply (gronwall_growth (fun s => energy (Y s)) (fun s => d_energy (rhs p k (E s) (Y s)) (Y s)) a (now x) K); try lra.
      - intros s Hs. assert (Dv : forall v, is_derive (fun q => Y q v) s (rhs p k (E s) (Y s) v)) by (intros v; apply Hder; lra).
        assert (Sq : forall v, is_derive (fun q => Y q v * Y q v) s (2 * (Y s v * rhs p k (E s) (Y s) v))).
        { intros v. evar_last; [apply (is_derive_mult (fun q => Y q v) (fun q => Y q v)); [apply Dv|apply Dv|intros; apply Rmult_comm]|]. unfold plus, mult. simpl. ring. }
        assert (Cu : forall ph, is_derive (fun q => cnorm2 (i_of (Y q) ph)) s (d_cur (rhs p k (E s) (Y s)) (Y s) ph)).
        { intros ph. unfold cnorm2, i_of, d_cur. cbn [re im]. evar_last; [apply (is_derive_plus (V := R_NormedModule) (fun q => Y q (P ph CiR) * Y q (P ph CiR)) (fun q => Y q (P ph CiI) * Y q (P ph CiI))); apply Sq|].
          unfold plus. simpl. ring. }
        unfold energy, d_energy. evar_last.
        + apply (is_derive_plus (V := R_NormedModule) (fun q => Y q VDC * Y q VDC + (cnorm2 (i_of (Y q) PA) + cnorm2 (i_of (Y q) PB) + cnorm2 (i_of (Y q) PC))) (fun _ => 1)); [|apply (is_derive_const (V := R_NormedModule))].
          apply (is_derive_plus (V := R_NormedModule) (fun q => Y q VDC * Y q VDC) (fun q => cnorm2 (i_of (Y q) PA) + cnorm2 (i_of (Y q) PB) + cnorm2 (i_of (Y q) PC))); [apply Sq|].
          apply (is_derive_plus (V := R_NormedModule) (fun q => cnorm2 (i_of (Y q) PA) + cnorm2 (i_of (Y q) PB)) (fun q => cnorm2 (i_of (Y q) PC))); [|apply Cu].
          apply (is_derive_plus (V := R_NormedModule) (fun q => cnorm2 (i_of (Y q) PA)) (fun q => cnorm2 (i_of (Y q) PB))); apply Cu.
        + unfold plus, zero. simpl. ring.
      - intros s Hs. assert (Cv : forall v, continuous (fun q => Y q v) s) by (intros v; apply Hcon; lra).
        assert (Sq : forall v, continuous (fun q => Y q v * Y q v) s) by (intros v; apply (continuous_mult (K := R_AbsRing) (fun q => Y q v) (fun q => Y q v)); apply Cv).
        assert (Cu : forall ph, continuous (fun q => cnorm2 (i_of (Y q) ph)) s).
        { intros ph. unfold cnorm2, i_of. cbn [re im]. apply (continuous_plus (V := R_NormedModule) (fun q => Y q (P ph CiR) * Y q (P ph CiR)) (fun q => Y q (P ph CiI) * Y q (P ph CiI))); apply Sq. }
        unfold energy.
        apply (continuous_plus (V := R_NormedModule) (fun q => Y q VDC * Y q VDC + (cnorm2 (i_of (Y q) PA) + cnorm2 (i_of (Y q) PB) + cnorm2 (i_of (Y q) PC))) (fun _ => 1)); [|apply continuous_const].
        apply (continuous_plus (V := R_NormedModule) (fun q => Y q VDC * Y q VDC) (fun q => cnorm2 (i_of (Y q) PA) + cnorm2 (i_of (Y q) PB) + cnorm2 (i_of (Y q) PC))); [apply Sq|].
        apply (continuous_plus (V := R_NormedModule) (fun q => cnorm2 (i_of (Y q) PA) + cnorm2 (i_of (Y q) PB)) (fun q => cnorm2 (i_of (Y q) PC))); [|apply Cu].
        apply (continuous_plus (V := R_NormedModule) (fun q => cnorm2 (i_of (Y q) PA)) (fun q => cnorm2 (i_of (Y q) PB))); apply Cu.
      - intros s Hs. apply H. apply (D_fair (end_of x, run_of x, s)). apply earlier; auto; lra.
      - intros s. destruct (energy_parts (Y s)). lra. }
    rewrite EA in G. eapply Rle_trans; [exact G|]. apply Rmult_le_compat_l; [destruct (energy_parts y0); lra|].
    destruct (Rle_lt_or_eq_dec (K * (now x - a)) (K * (b - a))) as [Lt|Eq]; [apply Rmult_le_compat_l; lra|left; apply exp_increasing; auto|rewrite Eq; lra].
  Qed.
  Lemma sq_bd z M : z * z <= M -> Rabs z <= M + 1.
  Proof. intros H. unfold Rabs. destruct (Rcase_abs z); nra. Qed.
  Lemma bd_vdc : bd (fun x => state_of x VDC).
  Proof.
    destruct energy_bounded as (M & H). apply (near_same _ _ _ _ (M + 1)). intros x Hx. destruct (energy_parts (state_of x)) as (_ & Q & _). apply sq_bd. specialize (H x Hx). lra.
  Qed.
  Lemma bd_i ph : bd (fun x => state_of x (P ph CiR)) /\ bd (fun x => state_of x (P ph CiI)).
  Proof.
    destruct energy_bounded as (M & H). split; apply (near_same _ _ _ _ (M + 1)); intros x Hx; destruct (energy_parts (state_of x)) as (_ & _ & Q); specialize (Q ph); unfold cnorm2, i_of in Q; cbn [re im] in Q; apply sq_bd; specialize (H x Hx); nra.
  Qed.
  (** what the errors of the outer loops depend on *)
  Definition masked (y : st) : st := fun v => match v with
    | P ph cc => if phase_dec k ph then match cc with CiR | CiI => y v | CxR => re (duty p y ph) | CxI => im (duty p y ph) | _ => 0 end else 0
    | VDC => y VDC | _ => 0 end.
  Lemma masked_parts y ph : has_phase k ph -> i_of (masked y) ph = i_of y ph /\ duty p (masked y) ph = duty p y ph.
  Proof.
    intros H. unfold i_of, duty, masked. destruct (phase_dec k ph); [|contradiction]. split; [reflexivity|]. unfold duty. cbn [re im]. apply cx_eq; cbn [re im]; ring.
  Qed.
  Lemma masked_errors e y : q_error p k e (masked y) = q_error p k e y /\ p_error p k e (masked y) = p_error p k e y.
  Proof.
    assert (V : v_dc k e (masked y) = v_dc k e y) by (destruct k; reflexivity).
    assert (T : forall ph, has_phase k ph -> v_term p k e (masked y) ph = v_term p k e y ph) by (intros ph H; unfold v_term; rewrite V, (proj2 (masked_parts y ph H)); reflexivity).
    assert (I : forall ph, has_phase k ph -> i_of (masked y) ph = i_of y ph) by (intros ph H; apply masked_parts; auto).
    assert (S1 : S_term p k e (masked y) = S_term p k e y /\ S_pcc p k e (masked y) = S_pcc p k e y).
    { unfold S_term, S_pcc, sum3. revert T I. destruct k; cbn [has_phase]; intros T I; rewrite ?T, ?I by auto; auto. }
    destruct S1 as [S1 S2]. unfold q_error, p_error, p_in. rewrite S1, S2, V. split; reflexivity.
  Qed.
  Lemma bd_duty ph : has_phase k ph -> bd (fun x => re (duty p (state_of x) ph)) /\ bd (fun x => im (duty p (state_of x) ph)).
  Proof.
    intros Hph. split; apply (near_same _ _ _ _ (m_limit p)); intros x Hx; destruct (D_fair x Hx) as (_ & _ & _ & _ & _ & F & _); specialize (F ph Hph); (eapply Rle_trans; [|exact F]); [apply cabs_ge_re|apply cabs_ge_im].
  Qed.
  Lemma bd_masked v : bd (fun x => masked (state_of x) v).
  Proof.
    destruct v as [ph cc| | | | | | |]; cbn [masked]; try apply near_const; [|apply bd_vdc].
    destruct (phase_dec k ph) as [Hph|]; [|apply near_const]. destruct cc; try apply near_const; [apply bd_i|apply bd_i| |]; apply (bd_duty ph Hph).
  Qed.
  Lemma bd_input (f : R -> R) : (forall t, a <= t <= b -> Rabs (f t) <= B) -> bd (fun x => f (now x)).
  Proof. intros H. apply (near_same _ _ _ _ B). intros x Hx. apply H. apply (at_D x Hx). Qed.
  Lemma cbd_input (f : R -> cx) : (forall t, a <= t <= b -> cabs (f t) <= B) -> cbd (fun x => f (now x)).
  Proof. intros H. apply (cnear_same _ _ _ _ B). intros x Hx. apply H. apply (at_D x Hx). Qed.
  Lemma bd_pv f f' : near D N f f' -> near D N (fun x => Ppv_val (e_mod (E (now x))) (f x)) (fun x => Ppv_val (e_mod (E (now x))) (f' x)).
  Proof. intros H. apply (near_pv_same instant D N _ _ m); [|exact H]. intros x Hx. split; apply inputs_at; apply (at_D x Hx). Qed.
  Lemma pass_D x : D x -> passive p (E (now x)) /\ passive p (E (now x)).
  Proof. intros Hx. split; apply inputs_at; apply (at_D x Hx). Qed.
  Lemma bd_errors : bd (fun x => q_error p k (E (now x)) (state_of x)) /\ bd (fun x => p_error p k (E (now x)) (state_of x)).
  Proof.
    split.
    - apply (near_ext _ _ _ _ _ (fun x => q_error p k (E (now x)) (masked (state_of x))) (fun x => q_error p k (E (now x)) (masked (state_of x)))).
      1, 2: intros x _; symmetry; apply masked_errors.
      apply (n_qerr p k instant D N (fun x => E (now x)) (fun x => E (now x)) (fun x => masked (state_of x)) (fun x => masked (state_of x))); auto using N_pos, bd_masked, bd_pv, pass_D.
      + apply (cbd_input (fun t => source_impedance p (E t))). intros t Ht. apply inputs_at; auto.
      + intros ph. apply (cbd_input (fun t => v_calc p (E t) ph (Cx 0 0))). intros t Ht. apply inputs_at; auto.
      + apply (bd_input (fun t => e_Qref (E t))). intros t Ht. apply inputs_at; auto.
    - apply (near_ext _ _ _ _ _ (fun x => p_error p k (E (now x)) (masked (state_of x))) (fun x => p_error p k (E (now x)) (masked (state_of x)))).
      1, 2: intros x _; symmetry; apply masked_errors.
      apply (n_perr p k instant D N (fun x => E (now x)) (fun x => E (now x)) (fun x => masked (state_of x)) (fun x => masked (state_of x))); auto using N_pos, bd_masked, bd_pv, pass_D.
      + apply (bd_input (fun t => e_Vdcref (E t))). intros t Ht. apply inputs_at; auto.
      + apply (bd_input (fun t => e_Vconst (E t))). intros t Ht. apply inputs_at; auto.
  Qed.
  (** integrators of the outer loops and the current reference *)
  Lemma bd_test : bd (fun x => state_of x (p_state k) + p_gain p k * p_error p k (E (now x)) (state_of x)) /\ bd (fun x => state_of x XQ - Kp_Q p * q_error p k (E (now x)) (state_of x)).
  Proof.
    split; apply (near_same _ _ _ _ (iref_limit p)); intros x Hx; destruct (at_D x Hx) as (_ & (_ & Q) & _).
    - pose proof (cabs_ge_re (Cx (state_of x (p_state k) + p_gain p k * p_error p k (E (now x)) (state_of x)) (state_of x XQ - Kp_Q p * q_error p k (E (now x)) (state_of x)))) as G. cbn [re] in G. lra.
    - pose proof (cabs_ge_im (Cx (state_of x (p_state k) + p_gain p k * p_error p k (E (now x)) (state_of x)) (state_of x XQ - Kp_Q p * q_error p k (E (now x)) (state_of x)))) as G. cbn [im] in G. lra.
  Qed.
  Lemma bd_outer : bd (fun x => state_of x (p_state k)) /\ bd (fun x => state_of x XQ).
  Proof.
    destruct bd_test as [T1 T2]. destruct bd_errors as [Q1 Q2]. split.
    - apply (near_ext _ _ _ _ _ (fun x => (state_of x (p_state k) + p_gain p k * p_error p k (E (now x)) (state_of x)) - p_gain p k * p_error p k (E (now x)) (state_of x))
        (fun x => (state_of x (p_state k) + p_gain p k * p_error p k (E (now x)) (state_of x)) - p_gain p k * p_error p k (E (now x)) (state_of x))); try (intros x _; ring).
      apply near_minus; [exact T1|]. apply near_mult; [apply near_const|exact Q2].
    - apply (near_ext _ _ _ _ _ (fun x => (state_of x XQ - Kp_Q p * q_error p k (E (now x)) (state_of x)) + Kp_Q p * q_error p k (E (now x)) (state_of x))
        (fun x => (state_of x XQ - Kp_Q p * q_error p k (E (now x)) (state_of x)) + Kp_Q p * q_error p k (E (now x)) (state_of x))); try (intros x _; ring).
      apply near_plus; [exact T2|]. apply near_mult; [apply near_const|exact Q1].
  Qed.
  Lemma cbd_iref ph : cbd (fun x => i_ref p k (E (now x)) (state_of x) ph).
  Proof.
    apply (cnear_same _ _ _ _ (Rabs (iref_limit p))). intros x Hx. destruct (at_D x Hx) as (_ & (_ & Q) & _). unfold i_ref. destruct (e_conn (E (now x))).
    - rewrite rot_abs. pose proof (Rle_abs (iref_limit p)). lra.
    - unfold cabs, cnorm2. cbn [re im]. replace (0 * 0 + 0 * 0) with 0 by ring. rewrite sqrt_0. apply Rabs_pos.
  Qed.
  (** the current controller *)
  Lemma not_sat x ph : D x -> has_phase k ph -> rlt (m_limit p) (cabs (duty p (state_of x) ph)) = false.
  Proof. intros Hx Hph. apply rlt_false. destruct (D_fair x Hx) as (_ & _ & _ & _ & _ & F & _). apply F; auto. Qed.
  Lemma lag_le w u r i : Rabs (w * (- u + r - i)) <= Rabs w * Rabs u + Rabs (w * (r - i)).
  Proof. replace (w * (- u + r - i)) with (- (w * u) + w * (r - i)) by ring. eapply Rle_trans; [apply Rabs_triang|]. rewrite Rabs_Ropp, Rabs_mult. lra. Qed.
  Lemma bd_u ph : has_phase k ph -> bd (fun x => state_of x (P ph CuR)) /\ bd (fun x => state_of x (P ph CuI)).
  Proof.
    intros Hph. destruct (cbd_iref ph) as [R1 R2]. destruct (bd_i ph) as [J1 J2]. split.
    - apply (steady_rate (P ph CuR) (fun x => wp p * (re (i_ref p k (E (now x)) (state_of x) ph) - state_of x (P ph CiR)))); [apply near_mult; [apply near_const|]; apply near_minus; auto|].
      exists (Rabs (wp p)). split; [apply Rabs_pos|]. intros x Hx. destruct (rhs_inner p k (E (now x)) (state_of x) ph Hph) as (_ & _ & Q & _). cbv zeta in Q. rewrite (not_sat x ph Hx Hph) in Q. rewrite Q. cbn [aw].
      apply lag_le.
    - apply (steady_rate (P ph CuI) (fun x => wp p * (im (i_ref p k (E (now x)) (state_of x) ph) - state_of x (P ph CiI)))); [apply near_mult; [apply near_const|]; apply near_minus; auto|].
      exists (Rabs (wp p)). split; [apply Rabs_pos|]. intros x Hx. destruct (rhs_inner p k (E (now x)) (state_of x) ph Hph) as (_ & _ & _ & Q). cbv zeta in Q. rewrite (not_sat x ph Hx Hph) in Q. rewrite Q. cbn [aw].
      apply lag_le.
  Qed.
  Lemma bd_x ph : has_phase k ph -> bd (fun x => state_of x (P ph CxR)) /\ bd (fun x => state_of x (P ph CxI)).
  Proof.
    intros Hph. destruct (bd_u ph Hph) as [U1 U2]. destruct (bd_duty ph Hph) as [G1 G2]. unfold duty in G1, G2. cbn [re im] in G1, G2. split.
    - apply (near_ext _ _ _ _ _ (fun x => (Kp_GCC p * state_of x (P ph CuR) + state_of x (P ph CxR)) - Kp_GCC p * state_of x (P ph CuR)) (fun x => (Kp_GCC p * state_of x (P ph CuR) + state_of x (P ph CxR)) - Kp_GCC p * state_of x (P ph CuR))); try (intros x _; ring).
      apply near_minus; [exact G1|]. apply near_mult; [apply near_const|exact U1].
    - apply (near_ext _ _ _ _ _ (fun x => (Kp_GCC p * state_of x (P ph CuI) + state_of x (P ph CxI)) - Kp_GCC p * state_of x (P ph CuI)) (fun x => (Kp_GCC p * state_of x (P ph CuI) + state_of x (P ph CxI)) - Kp_GCC p * state_of x (P ph CuI))); try (intros x _; ring).
      apply near_minus; [exact G2|]. apply near_mult; [apply near_const|exact U2].
  Qed.
  Lemma bd_phase ph cc : bd (fun x => state_of x (P ph cc)).
  Proof.
    destruct (phase_dec k ph) as [Hph|Hph]; [|apply no_rate; intros e y; apply rhs_idle; auto].
    destruct cc; [apply bd_i|apply bd_i|apply (bd_x ph Hph)|apply (bd_x ph Hph)|apply (bd_u ph Hph)|apply (bd_u ph Hph)].
  Qed.
  (** the phase-locked loop: its angle enters through sine and cosine only *)
  Lemma cbd_v ph : cbd (fun x => v_calc p (E (now x)) ph (i_of (state_of x) ph)).
  Proof.
    apply (cnear_ext _ _ _ _ _ (fun x => cadd (v_calc p (E (now x)) ph (Cx 0 0)) (cmul (source_impedance p (E (now x))) (csub (i_of (state_of x) ph) (Cx 0 0))))
      (fun x => cadd (v_calc p (E (now x)) ph (Cx 0 0)) (cmul (source_impedance p (E (now x))) (csub (i_of (state_of x) ph) (Cx 0 0))))).
    1, 2: intros x Hx; apply v_calc_affine; apply (pass_D x Hx).
    apply cnear_add; [apply (cbd_input (fun t => v_calc p (E t) ph (Cx 0 0))); intros t Ht; apply inputs_at; auto|].
    apply cnear_mul; [apply (cbd_input (fun t => source_impedance p (E t))); intros t Ht; apply inputs_at; auto|].
    apply cnear_sub; [|apply cnear_const]. split; apply bd_phase.
  Qed.
  Lemma cbd_cexp (f : instant -> R) : cbd (fun x => cexp (f x)).
  Proof. split; unfold cexp; cbn [re im]; apply (near_same _ _ _ _ 1); intros x _; apply Rabs_le; [apply COS_bound|apply SIN_bound]. Qed.
  Lemma bd_time (f : instant -> cx) : cbd f -> bd (fun x => phasor_to_time_1phase (f x) (e_wgrid (E (now x))) (e_t (E (now x)))).
  Proof.
    intros [A C]. eapply near_ext; [intros; apply time_sin|intros; apply time_sin|].
    apply near_plus; apply near_mult; auto; apply (near_same _ _ _ _ 1); intros x _; apply Rabs_le; [apply SIN_bound|apply COS_bound].
  Qed.
  Lemma bd_vd3 (f : instant -> phase -> cx) : (forall ph, cbd (fun x => f x ph)) ->
    bd (fun x => vd_three_phase (f x PA) (f x PB) (f x PC) (e_wgrid (E (now x))) (e_t (E (now x))) (state_of x WTE)).
  Proof.
    intros H. unfold vd_three_phase, phasor_to_time, abc_to_dq0.
    pose proof (bd_time _ (H PA)). pose proof (bd_time _ (H PB)). pose proof (bd_time _ (H PC)).
    pose proof (cbd_cexp (fun x => - state_of x WTE)) as W.
    refine (proj1 (cnear_scale instant D N (fun _ => 2/3) (fun _ => 2/3) _ _ (near_const _ _ _ _) (cnear_mul instant D N _ _ _ _ (cnear_add instant D N _ _ _ _ (cnear_add instant D N _ _ _ _ _ _) _) W))).
    - split; unfold RtoCx; cbn [re im]; [assumption|apply near_const].
    - apply cnear_scale; [assumption|apply cnear_const].
    - apply cnear_scale; [assumption|apply cnear_const].
  Qed.
  Lemma bd_pll : bd (fun x => pll_in p k (state_of x) (E (now x))).
  Proof.
    assert (Q1 : bd (fun x => vd1 p (E (now x)) (state_of x))).
    { unfold vd1, vd_single_phase, alpha_beta_to_d_q. cbn [fst].
      pose proof (cbd_cexp (fun x => - state_of x WTE)) as W.
      refine (proj1 (cnear_mul instant D N _ _ _ _ _ W)). split; cbn [re im]; apply bd_time; [apply cbd_v|]. apply cnear_mul; [apply cbd_v|apply cnear_const]. }
    assert (Q3 : bd (fun x => vd3 p (E (now x)) (state_of x))).
    { unfold vd3, v3_of. apply (bd_vd3 (fun x ph => v_calc p (E (now x)) ph (i_of (state_of x) ph))). intros ph. apply cbd_v. }
    assert (Qb : bd (fun x => vdb p (E (now x)) (state_of x))).
    { unfold vdb, vb_of. apply (bd_vd3 (fun x ph => rot ph (v_calc p (E (now x)) PA (i_of (state_of x) PA)))). intros ph. apply cnear_rot, cbd_v. }
    unfold pll_in. destruct k; auto.
  Qed.
  Lemma bd_rate v f : bd f -> (forall x, rhs p k (E (now x)) (state_of x) v = f x) -> bd (fun x => state_of x v).
  Proof. intros Hf H. apply (steady_rate v f Hf). exists 0. split; [lra|]. intros x _. rewrite H. lra. Qed.
  Lemma bd_xpll : bd (fun x => state_of x XPLL).
  Proof.
    apply (bd_rate XPLL (fun x => Ki_PLL p * pll_in p k (state_of x) (E (now x)))); [apply near_mult; [apply near_const|apply bd_pll]|].
    intros x. unfold pll_in. destruct k; reflexivity.
  Qed.
  Lemma bd_wte : bd (fun x => state_of x WTE).
  Proof.
    apply (bd_rate WTE (fun x => we_calc (Kp_PLL p) (pll_in p k (state_of x) (E (now x))) (state_of x XPLL))).
    - unfold we_calc. apply near_plus; [|apply near_const]. apply near_plus; [|apply bd_xpll]. apply near_mult; [apply near_const|apply bd_pll].
    - intros x. unfold pll_in. destruct k; reflexivity.
  Qed.
  Lemma bd_vrf : bd (fun x => state_of x VRF).
  Proof.
    assert (Z : (forall e y, rhs p k e y VRF = 0) -> bd (fun x => state_of x VRF)) by (intros H; apply no_rate; auto).
    assert (Q : k = ThreePhase -> bd (fun x => state_of x VRF)).
    { intros Hk. set (U := fun x => Urms_calc (v3_of p (E (now x)) (state_of x) PA) (v3_of p (E (now x)) (state_of x) PB) (v3_of p (E (now x)) (state_of x) PC)).
      assert (BU : bd U).
      { unfold U, Urms_calc.
        assert (UE : forall u v w : R, sqrt ((u ^ 2 + v ^ 2 + w ^ 2) / 3) / sqrt 2 = / sqrt 3 * sqrt (sqrt (u * u + v * v) * sqrt (u * u + v * v) + w * w) * / sqrt 2).
        { intros u v w. rewrite sqrt_div_alt by lra. rewrite sqrt_sqrt by (pose proof (Rle_0_sqr u); pose proof (Rle_0_sqr v); unfold Rsqr in *; lra).
          replace (u ^ 2 + v ^ 2 + w ^ 2) with (u * u + v * v + w * w) by ring. unfold Rdiv. ring. }
        unfold v3_of. eapply near_ext; [intros t Ht; apply UE|intros t Ht; apply UE|].
        assert (CA : forall ph, bd (fun x => cabs (v_calc p (E (now x)) ph (i_of (state_of x) ph)))) by (intros ph; destruct (cbd_v ph) as [A C]; unfold cabs, cnorm2; apply near_norm; auto).
        apply near_mult; [|apply near_const]. apply near_mult; [apply near_const|].
        apply near_norm; [|apply CA]. apply near_norm; apply CA. }
      apply (steady_rate VRF (fun x => 1 / Tfilter p * U x)); [apply near_mult; [apply near_const|exact BU]|].
      exists (Rabs (1 / Tfilter p)). split; [apply Rabs_pos|]. intros x _. rewrite Hk. cbn [rhs ode3]. fold (U x).
      replace (1 / Tfilter p * (U x - state_of x VRF)) with (- (1 / Tfilter p * state_of x VRF) + 1 / Tfilter p * U x) by ring.
      eapply Rle_trans; [apply Rabs_triang|]. rewrite Rabs_Ropp, Rabs_mult. lra. }
    revert Z Q. destruct k; intros Z Q; try (apply Q; reflexivity); apply Z; reflexivity.
  Qed.
  Lemma bd_state v : bd (fun x => state_of x v).
  Proof.
    destruct v as [ph cc| | | | | | |].
    - apply bd_phase.
    - apply bd_vdc.
    - pose proof (proj1 bd_outer) as Q. pose proof (no_rate XDC) as Z. revert Q Z. destruct k; cbn [p_state]; intros Q Z; try exact Q; apply Z; reflexivity.
    - pose proof (proj1 bd_outer) as Q. pose proof (no_rate XP) as Z. revert Q Z. destruct k; cbn [p_state]; intros Q Z; try exact Q; apply Z; reflexivity.
    - apply bd_outer.
    - apply bd_xpll.
    - apply bd_wte.
    - apply bd_vrf.
  Qed.
  Lemma all_bounded : exists M, forall x v, D x -> Rabs (state_of x v) <= M.
  Proof.
    destruct (all_near instant D N state_of state_of bd_state N_pos) as (K & M & _ & _ & H). exists M. intros x v Hx. apply (H x v Hx).
  Qed.
End Runs.

(** * C136 *)
(** With inputs that do not jump there is one bound for every state, every instant and
    every run from the given initial state that keeps away from the limits: nothing runs
    away in finite time. *)
Theorem C136_no_state_runs_away : forall p k E m B L a b d c y0, a <= b -> 0 < d -> 0 < c -> Cdc p <> 0 -> 0 <= Vdcbase p ->
  (forall t, a <= t <= b -> smooth_inputs p E t B L m) ->
  exists M, forall T Y, T <= b -> run_inside p k E d c a y0 T Y -> forall t v, a <= t <= T -> Rabs (Y t v) <= M.
Proof.
  intros p k E m B L a b d c y0 Hab Hd Hc HCd HVb HE.
  destruct (Rle_lt_dec 0 (m_limit p)) as [Hml|Hml].
  - assert (HB : 0 <= B).
    { destruct (HE a ltac:(lra)) as (_ & E2 & _). assert (W : Rabs (a - a) <= 1) by (rewrite Rminus_eq_0, Rabs_R0; lra).
      destruct (E2 a a W W) as [G _]. eapply Rle_trans; [apply cabs_nonneg|exact G]. }
    destruct (all_bounded p k E B L d c a b m y0 HB Hc Hd HCd HVb Hml HE) as (M & H).
    exists M. intros T Y HT HY t v Ht. apply (H (T, Y, t) v). split; [exact HT|]. split; [exact Ht|exact HY].
  - exists 0. intros T Y _ (_ & _ & HY) t v Ht. exfalso. destruct (HY t Ht) as ((G & _) & _).
    assert (HA : has_phase k PA) by (destruct k; cbn [has_phase]; auto). specialize (G PA HA). pose proof (cabs_nonneg (duty p (Y t) PA)). lra.
Qed.
Print Assumptions C136_no_state_runs_away.

(** So a run goes on to the end of the interval unless a controller comes closer than [d]
    to its limit or the DC voltage falls below [c], whatever positive [d] and [c] are. *)
Theorem C136_ends_only_at_a_limit : forall p k E m B L a b d c y0, a < b -> 0 < d -> 0 < c -> Cdc p <> 0 -> 0 <= Vdcbase p ->
  (forall t, a <= t <= b -> smooth_inputs p E t B L m) ->
  clear_of_limits p k (E a) y0 d -> (has_dc_link k -> c <= y0 VDC) ->
  exists T Y, a < T <= b /\ run_between a T (rhs p k) E Y /\ (forall v, Y a v = y0 v) /\
    (T = b \/ ~ clear_of_limits p k (E T) (Y T) d \/ (has_dc_link k /\ Y T VDC < c)).
Proof.
  intros p k E m B L a b d c y0 Hab Hd Hc HCd HVb HE H0 HV0.
  destruct (C136_no_state_runs_away p k E m B L a b d c y0 ltac:(lra) Hd Hc HCd HVb HE) as (M & HM).
  destruct (bounded_state y0) as (M0 & HM0). set (M' := Rmax M M0).
  assert (A1 : M <= M') by apply Rmax_l. assert (A2 : M0 <= M') by apply Rmax_r.
  destruct (C132_continues_partial p k E m B L a b d c M' y0 Hab Hd Hc HCd HE) as (T & Y & HT & HR & HY0 & Hend).
  { split; [exact H0|]. split; [|exact HV0]. intros v. specialize (HM0 v). lra. }
  destruct Hend as [->|NG]; [exists b, Y; auto|].
  assert (Cases : (forall t, a <= t <= T -> clear_of_limits p k (E t) (Y t) d /\ (has_dc_link k -> c <= Y t VDC)) \/
    exists t, a <= t <= T /\ ~ (clear_of_limits p k (E t) (Y t) d /\ (has_dc_link k -> c <= Y t VDC))).
  { destruct (classic (exists t, a <= t <= T /\ ~ (clear_of_limits p k (E t) (Y t) d /\ (has_dc_link k -> c <= Y t VDC)))) as [X|X]; [right; exact X|left].
    intros t Ht. destruct (classic (clear_of_limits p k (E t) (Y t) d /\ (has_dc_link k -> c <= Y t VDC))) as [G|G]; auto. exfalso. apply X. exists t. auto. }
  destruct Cases as [In|(s & Hs & Hout)].
  - exfalso. apply NG. destruct (In T ltac:(lra)) as [G1 G2]. split; [exact G1|]. split; [|exact G2].
    intros v. assert (Rabs (Y T v) <= M); [|lra]. apply (HM T Y); [lra| |lra]. split; [exact HR|]. split; [exact HY0|exact In].
  - assert (Hsa : a < s).
    { destruct (Req_dec s a) as [->|]; [|lra]. exfalso. apply Hout. split.
      - destruct H0 as [G1 G2]. split.
        + intros ph Hph. unfold duty. rewrite !HY0. apply (G1 ph Hph).
        + assert (EQ : outer_test p k (E a) (Y a) = outer_test p k (E a) y0).
          { unfold outer_test, p_error, q_error, p_in, S_term, S_pcc, v_term, v_dc, duty, i_of. clear - HY0. destruct k; cbn [p_state p_gain]; rewrite ?HY0; unfold sum3; rewrite ?HY0; reflexivity. }
          unfold outer_test in EQ. rewrite EQ. exact G2.
      - intros Hk. rewrite HY0. auto. }
    exists s, Y. split; [lra|]. split; [apply (run_sub a T); auto; lra|]. split; [exact HY0|]. right.
    destruct (classic (clear_of_limits p k (E s) (Y s) d)) as [G|G]; [right|left; exact G].
    destruct (classic (has_dc_link k /\ Y s VDC < c)) as [X|X]; auto. exfalso. apply Hout. split; auto. intros Hk. destruct (Rle_lt_dec c (Y s VDC)); auto. exfalso. auto.
Qed.
Print Assumptions C136_ends_only_at_a_limit.

(** If no run from the initial state comes near a limit, there is exactly one run over
    the whole interval. *)
Theorem C136_one_run_over_the_interval : forall p k E m B L a b d c y0, a < b -> 0 < d -> 0 < c -> Cdc p <> 0 -> 0 <= Vdcbase p ->
  (forall t, a <= t <= b -> smooth_inputs p E t B L m) ->
  clear_of_limits p k (E a) y0 d -> (has_dc_link k -> c <= y0 VDC) ->
  (forall T Y, a < T < b -> run_between a T (rhs p k) E Y -> (forall v, Y a v = y0 v) ->
     clear_of_limits p k (E T) (Y T) d /\ (has_dc_link k -> c <= Y T VDC)) ->
  exists Y, run_between a b (rhs p k) E Y /\ (forall v, Y a v = y0 v) /\
    forall Z, run_between a b (rhs p k) E Z -> (forall v, Z a v = y0 v) -> forall t v, a <= t <= b -> Z t v = Y t v.
Proof.
  intros p k E m B L a b d c y0 Hab Hd Hc HCd HVb HE H0 HV0 Keep.
  destruct (C136_ends_only_at_a_limit p k E m B L a b d c y0 Hab Hd Hc HCd HVb HE H0 HV0) as (T & Y & HT & HR & HY0 & Hend).
  assert (T = b) as ->.
  { destruct Hend as [->|Hend]; auto. destruct (Req_dec T b) as [->|]; auto. exfalso.
    destruct (Keep T Y ltac:(lra) HR HY0) as [G1 G2]. destruct Hend as [X|[X1 X2]]; auto. specialize (G2 X1). lra. }
  exists Y. split; [exact HR|]. split; [exact HY0|]. intros Z HZ HZ0.
  assert (Before : forall t v, a <= t < b -> Z t v = Y t v).
  { intros t v Ht.
  destruct (Req_dec t a) as [->|Hne]; [rewrite HY0, HZ0; reflexivity|].
  assert (Keep' : forall W, run_between a b (rhs p k) E W -> (forall v, W a v = y0 v) -> forall s, a < s < b -> clear_of_limits p k (E s) (W s) d /\ (has_dc_link k -> c <= W s VDC)).
  { intros W HW HW0 s Hs. apply Keep; auto. apply (run_sub a b); auto; lra. }
  assert (At0 : forall W, (forall v, W a v = y0 v) -> clear_of_limits p k (E a) (W a) d /\ (has_dc_link k -> c <= W a VDC)).
  { intros W HW0. split; [|intros Hk; rewrite HW0; auto]. destruct H0 as [G1 G2]. split.
    - intros ph Hph. unfold duty. rewrite !HW0. apply (G1 ph Hph).
    - assert (EQ : outer_test p k (E a) (W a) = outer_test p k (E a) y0).
      { unfold outer_test, p_error, q_error, p_in, S_term, S_pcc, v_term, v_dc, duty, i_of. clear - HW0. destruct k; cbn [p_state p_gain]; rewrite ?HW0; unfold sum3; rewrite ?HW0; reflexivity. }
      unfold outer_test in EQ. rewrite EQ. exact G2. }
  apply (C132_unique_partial p k E m B a t d Z Y); auto; try lra.
  - intros s Hs. destruct (HE s ltac:(lra)) as (E1 & E2 & E3 & E4 & E5 & E6 & _). assert (W : Rabs (s - s) <= 1) by (rewrite Rminus_eq_0, Rabs_R0; lra).
    split; [apply E1; auto|]. split; [apply (E2 s s); auto|]. split; [intros ph; apply (E3 ph s s); auto|]. split; [apply (E4 s s); auto|]. split; [apply (E5 s s); auto|]. split; [apply (E6 s s); auto|]. apply E1; auto.
  - apply (run_sub a b); auto; lra.
  - apply (run_sub a b); auto; lra.
  - intros s Hs. apply (Keep' Z); auto; lra.
  - intros Hk s Hs. destruct (Req_dec s a) as [->|]; [pose proof (proj2 (At0 Z HZ0) Hk)|pose proof (proj2 (Keep' Z HZ HZ0 s ltac:(lra)) Hk)]; lra.
  - intros w. rewrite HY0, HZ0. reflexivity. }
  intros t v Ht. destruct (Req_dec t b) as [->|]; [|apply Before; lra].
  destruct (Req_dec (Z b v) (Y b v)) as [|Ne]; auto. exfalso.
  set (f := fun s => Z s v - Y s v). assert (Cf : continuity_pt f b).
  { apply continuity_pt_filterlim. apply (continuous_minus (V := R_NormedModule) (fun s => Z s v) (fun s => Y s v)); [apply (proj2 HZ)|apply (proj2 HR)]; lra. }
  assert (Pf : 0 < Rabs (f b)) by (apply Rabs_pos_lt; unfold f; lra).
  destruct (Cf _ Pf) as (dl & Hdl & Hcl). set (s := Rmax a (b - dl / 2)).
  assert (Hs : a <= s < b) by (unfold s; split; [apply Rmax_l|apply Rmax_lub_lt; lra]). assert (Hs2 : b - dl / 2 <= s) by apply Rmax_r.
  specialize (Hcl s). simpl in Hcl. unfold R_dist in Hcl.
  assert (Q : Rabs (f s - f b) < Rabs (f b)) by (apply Hcl; split; [split; [exact I|lra]|apply Rabs_def1; lra]).
  assert (F0 : f s = 0) by (unfold f; rewrite Before by lra; ring). rewrite F0, Rminus_0_l, Rabs_Ropp in Q. lra.
Qed.
Print Assumptions C136_one_run_over_the_interval.

(** Non-vacuity: the connected DER of [C132_exists_met] over one second, and a run of a
    disconnected DER, with decaying current, that keeps the limits all the time. *)
Lemma fault_smooth m a : smooth_inputs decay_prm (fault_env m false 0) a 1 1 m.
Proof.
  assert (A0 : cabs (Cx 0 0) = 0) by (unfold cabs, cnorm2; cbn [re im]; rewrite Rmult_0_l, Rplus_0_l; apply sqrt_0).
  assert (Sl : slow (fun _ => 0) a 1 1) by (intros s t _ _; rewrite Rminus_eq_0, Rabs_R0; split; [lra|]; rewrite Rmult_1_l; apply Rabs_pos).
  assert (Cs : cslow (fun _ => Cx 0 0) a 1 1).
  { intros s t _ _. rewrite A0. split; [lra|]. replace (csub (Cx 0 0) (Cx 0 0)) with (Cx 0 0) by (unfold csub; apply cx_eq; cbn [re im]; ring). rewrite A0, Rmult_1_l. apply Rabs_pos. }
  split; [intros t _; repeat split|]. cbn [fault_env e_Qref e_Vdcref e_Vconst e_wgrid e_t]. split; [exact Cs|]. split; [intros [| |]; exact Cs|].
  split; [exact Sl|]. split; [exact Sl|]. split; [exact Sl|]. intros s t _ _. rewrite !Rmult_0_l, Rminus_eq_0, Rabs_R0. split; [lra|]. rewrite Rmult_1_l; apply Rabs_pos.
Qed.
Lemma decay_clear m s : clear_of_limits decay_prm SinglePhase (fault_env m false 0 s) (decay_run s) (1/2).
Proof.
  assert (A0 : cabs (Cx 0 0) = 0) by (unfold cabs, cnorm2; cbn [re im]; rewrite Rmult_0_l, Rplus_0_l; apply sqrt_0).
  split.
  - intros ph Hp. cbn [has_phase] in Hp. subst ph. unfold duty. cbn [decay_run fault_state decay_prm Kp_GCC m_limit]. unfold decay_run. cbn [fault_state].
    match goal with |- cabs (Cx ?x ?y) + _ <= _ => replace x with 0 by ring; replace y with 0 by ring end. rewrite A0. lra.
  - unfold p_error, q_error, S_pcc, v_calc, S_ph, decay_run. cbn [p_state p_gain fault_state decay_prm e_conn fault_env e_grid e_va Kp_DC Kp_Q iref_limit].
    unfold cscale, cmul. cbn [re im]. match goal with |- cabs (Cx ?x ?y) + _ <= _ => replace x with 0 by ring; replace y with 0 by ring end. rewrite A0. lra.
Qed.
Example C136_hypotheses_met : forall m,
  (exists T Y, 0 < T <= 1 /\ run_between 0 T (rhs decay_prm SinglePhase) (live_env m) Y /\ (forall v, Y 0 v = live_state v) /\
    (T = 1 \/ ~ clear_of_limits decay_prm SinglePhase (live_env m T) (Y T) (1/2) \/ (has_dc_link SinglePhase /\ Y T VDC < 1))) /\
  (forall t, 0 <= t <= 5 -> smooth_inputs decay_prm (fault_env m false 0) t 1 1 m) /\
  run_inside decay_prm SinglePhase (fault_env m false 0) (1/2) 1 0 (decay_run 0) 5 decay_run /\
  (forall T Y, 0 < T < 5 -> run_between 0 T (rhs decay_prm SinglePhase) (fault_env m false 0) Y -> (forall v, Y 0 v = decay_run 0 v) ->
     clear_of_limits decay_prm SinglePhase (fault_env m false 0 T) (Y T) (1/2) /\ (has_dc_link SinglePhase -> 1 <= Y T VDC)) /\
  0 < cabs (i_of (decay_run 0) PA).
Proof.
  intros m. split; [|split; [|split; [|split]]].
  - apply (C136_ends_only_at_a_limit decay_prm SinglePhase (live_env m) m (2 * wbase) wbase 0 1 (1/2) 1 live_state); try lra.
    + cbn. lra.
    + cbn. lra.
    + intros a Ha. apply live_smooth; lra.
    + apply live_clear.
    + intros _. cbn. lra.
  - intros t _. apply fault_smooth.
  - split; [apply decay_run_ok; lra|]. split; [reflexivity|]. intros t _. split; [apply decay_clear|]. intros _. unfold decay_run. cbn [fault_state]. lra.
  - intros T Y HT HR HY0.
    assert (Eq : forall v, decay_run T v = Y T v).
    { intros v. apply (C132_unique_partial decay_prm SinglePhase (fault_env m false 0) m 1 0 T (1/2) decay_run Y); auto; try lra.
      - intros s Hs. destruct (fault_smooth m s) as (E1 & E2 & E3 & E4 & E5 & E6 & _). assert (W : Rabs (s - s) <= 1) by (rewrite Rminus_eq_0, Rabs_R0; lra).
        split; [apply E1; auto|]. split; [apply (E2 s s); auto|]. split; [intros ph; apply (E3 ph s s); auto|]. split; [apply (E4 s s); auto|]. split; [apply (E5 s s); auto|]. split; [apply (E6 s s); auto|]. apply E1; auto.
      - cbn. lra.
      - apply decay_run_ok. lra.
      - intros s _. apply decay_clear.
      - intros _ s _. unfold decay_run. cbn [fault_state]. lra. }
    split; [|intros _; rewrite <- Eq; unfold decay_run; cbn [fault_state]; lra].
    destruct (decay_clear m T) as [G1 G2]. split.
    + intros ph Hph. unfold duty. rewrite <- !Eq. apply (G1 ph Hph).
    + revert G2. unfold p_error, q_error, S_pcc, v_calc, i_of. cbn [p_state p_gain e_conn fault_env e_grid e_va]. rewrite <- !Eq. auto.
  - unfold cabs, cnorm2, i_of, decay_run. cbn [fault_state re im]. rewrite Ropp_0, exp_0. replace (1 * 1 + 0 * 0) with 1 by ring. rewrite sqrt_1. lra.
Qed.
