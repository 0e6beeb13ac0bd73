(** C132: the differential equations determine the run - where nothing saturates; at a
    saturated modulator they may have no solution at all. *)
From Coq Require Import List.
From Coquelicot Require Import Coquelicot.
From Verif Require Import RBase CxField PhasorModel PVModel ODEModel Const3Model PhasorProperties PhasorProperties2 CircuitProperties2 CircuitProperties3 PLLProperties FilterProperties BoundProofs BoundProperties SettleProofs SettleProperties SettleProperties2 SolutionSpec SolutionProofs LipschitzProofs.
Import RBase ListNotations.
Open Scope R_scope.

Definition core : list var :=
  [P PA CiR; P PA CiI; P PA CxR; P PA CxI; P PA CuR; P PA CuI;
   P PB CiR; P PB CiI; P PB CxR; P PB CxI; P PB CuR; P PB CuI;
   P PC CiR; P PC CiI; P PC CxR; P PC CxI; P PC CuR; P PC CuI; VDC; XDC; XP; XQ; XPLL; WTE; VRF].
Lemma core_all v : In v core.
Proof. destruct v as [[| |] [| | | | |]| | | | | | |]; cbn; tauto. Qed.

Section Unique.
  Variables (p : prm) (k : kind) (E : R -> env) (m : pvm) (B a b : R) (Y1 Y2 : R -> st).
  Hypothesis (Hab : a <= b) (HE : inputs_within p E a b B m).
  Hypothesis (C1 : forall t v, a <= t <= b -> continuous (fun s => Y1 s v) t) (C2 : forall t v, a <= t <= b -> continuous (fun s => Y2 s v) t).
  Definition dist (t : R) : R := sqrt (sumsq core (Y1 t) (Y2 t)).
  Lemma dist_pos t : 0 <= dist t. Proof. apply sqrt_pos. Qed.
  Let D t := a < t < b.
  Lemma s_state v : near D dist (fun t => Y1 t v) (fun t => Y2 t v).
  Proof.
    destruct (cont_bounded (fun t => Y1 t v) a b Hab) as [M1 A1]; [intros; apply C1; auto|].
    destruct (cont_bounded (fun t => Y2 t v) a b Hab) as [M2 A2]; [intros; apply C2; auto|].
    assert (Q : a <= a <= b) by lra. pose proof (A1 a Q). pose proof (A2 a Q). pose proof (Rabs_pos (Y1 a v)). pose proof (Rabs_pos (Y2 a v)).
    exists 1, (M1 + M2). split; [lra|]. split; [lra|]. intros t Ht. assert (Ht' : a <= t <= b) by (unfold D in Ht; lra).
    specialize (A1 t Ht'). specialize (A2 t Ht'). split; [rewrite Rmult_1_l; apply sumsq_in, core_all; auto|]. lra.
  Qed.
  Lemma s_z : cnear D dist (fun t => source_impedance p (E t)) (fun t => source_impedance p (E t)).
  Proof. apply (cnear_same _ _ _ _ B). intros t Ht. apply (HE t Ht). Qed.
  Lemma s_open ph : cnear D dist (fun t => v_calc p (E t) ph (Cx 0 0)) (fun t => v_calc p (E t) ph (Cx 0 0)).
  Proof. apply (cnear_same _ _ _ _ B). intros t Ht. apply (HE t Ht). Qed.
  Lemma s_Q : near D dist (fun t => e_Qref (E t)) (fun t => e_Qref (E t)).
  Proof. apply (near_same _ _ _ _ B). intros t Ht. apply (HE t Ht). Qed.
  Lemma s_Vr : near D dist (fun t => e_Vdcref (E t)) (fun t => e_Vdcref (E t)).
  Proof. apply (near_same _ _ _ _ B). intros t Ht. apply (HE t Ht). Qed.
  Lemma s_Vc : near D dist (fun t => e_Vconst (E t)) (fun t => e_Vconst (E t)).
  Proof. apply (near_same _ _ _ _ B). intros t Ht. apply (HE t Ht). Qed.
  Lemma s_mod t : D t -> e_mod (E t) = m /\ e_mod (E t) = m.
  Proof. intros Ht. split; apply (HE t Ht). Qed.
  Lemma s_pv f f' : near D dist f f' -> near D dist (fun t => Ppv_val (e_mod (E t)) (f t)) (fun t => Ppv_val (e_mod (E t)) (f' t)).
  Proof. apply (near_pv_same R D dist (fun t => e_mod (E t)) (fun t => e_mod (E t)) m). exact s_mod. Qed.
  Lemma s_pass t : D t -> passive p (E t) /\ passive p (E t).
  Proof. intros Ht. split; apply (HE t Ht). Qed.
  Lemma s_qerr : near D dist (fun t => q_error p k (E t) (Y1 t)) (fun t => q_error p k (E t) (Y2 t)).
  Proof. apply n_qerr; auto using dist_pos, s_state, s_z, s_open, s_Q, s_pass. Qed.
  Lemma s_perr : near D dist (fun t => p_error p k (E t) (Y1 t)) (fun t => p_error p k (E t) (Y2 t)).
  Proof. apply (n_perr p k); auto using dist_pos, s_state, s_Vr, s_Vc, s_pv. Qed.
  Lemma s_rhs v : Cdc p <> 0 -> (forall t, D t -> unsaturated p k (E t) (Y1 t)) -> (forall t, D t -> unsaturated p k (E t) (Y2 t)) ->
    (has_dc_link k -> forall t, a <= t <= b -> 0 < Y1 t VDC /\ 0 < Y2 t VDC) ->
    near D dist (fun t => rhs p k (E t) (Y1 t) v) (fun t => rhs p k (E t) (Y2 t) v).
  Proof.
    intros HC U1 U2 V. apply (n_rhs p k); auto using dist_pos, s_state, s_z, s_open, s_Q, s_Vr, s_Vc, s_pv, s_pass.
    - apply (near_same _ _ _ _ 1). intros; apply Rabs_le; apply SIN_bound.
    - apply (near_same _ _ _ _ 1). intros; apply Rabs_le; apply COS_bound.
    - intros Hd.
      destruct (cont_positive (fun t => Y1 t VDC) a b Hab) as (c1 & C1p & L1); [intros; apply C1; auto|intros; apply V; auto|].
      destruct (cont_positive (fun t => Y2 t VDC) a b Hab) as (c2 & C2p & L2); [intros; apply C2; auto|intros; apply V; auto|].
      exists (Rmin c1 c2). split; [apply Rmin_glb_lt; auto|]. intros t Ht. assert (Ht' : a <= t <= b) by (unfold D in Ht; lra).
      specialize (L1 t Ht'). specialize (L2 t Ht'). pose proof (Rmin_l c1 c2). pose proof (Rmin_r c1 c2). lra.
  Qed.
End Unique.
Lemma core_unique p k E m B a b Y1 Y2 t v : a <= b -> inputs_within p E a b B m ->
  run_between a b (rhs p k) E Y1 -> run_between a b (rhs p k) E Y2 ->
  (forall t, a < t < b -> unsaturated p k (E t) (Y1 t)) -> (forall t, a < t < b -> unsaturated p k (E t) (Y2 t)) ->
  (has_dc_link k -> forall t, a <= t <= b -> 0 < Y1 t VDC /\ 0 < Y2 t VDC) ->
  Cdc p <> 0 -> (forall v, Y1 a v = Y2 a v) -> a <= t <= b -> Y1 t v = Y2 t v.
Proof.
  intros Hab HE [D1 C1] [D2 C2] U1 U2 V HCd H0 Ht.
  apply (unique_by_near core a b Y1 Y2 (fun t v => rhs p k (E t) (Y1 t) v) (fun t v => rhs p k (E t) (Y2 t) v)); auto.
  - intros w Hw. apply (s_rhs p k E m B a b Y1 Y2); auto.
  - apply core_all.
Qed.

(** distances of complex numbers from those of their parts *)
Lemma cabs_parts u v K : Rabs (re u - re v) <= K -> Rabs (im u - im v) <= K -> cabs u <= cabs v + 2 * K.
Proof.
  intros HR HI. assert (T : cabs u <= cabs v + cabs (csub u v)).
  { replace u with (cadd v (csub u v)) at 1; [apply cabs_add_le|]. unfold cadd, csub. destruct u as [u1 u2], v as [v1 v2]. apply cx_eq; cbn [re im]; ring. }
  assert (Q : cabs (csub u v) <= Rabs (re u - re v) + Rabs (im u - im v)).
  { unfold cabs, cnorm2, csub. cbn [re im]. apply Rsqr_incr_0_var; [|pose proof (Rabs_pos (re u - re v)); pose proof (Rabs_pos (im u - im v)); lra].
    rewrite Rsqr_sqrt by (pose proof (Rle_0_sqr (re u - re v)); pose proof (Rle_0_sqr (im u - im v)); unfold Rsqr in *; lra). unfold Rsqr. pose proof (Rabs_pos (re u - re v)). pose proof (Rabs_pos (im u - im v)).
    assert (E1 : Rabs (re u - re v) * Rabs (re u - re v) = (re u - re v) * (re u - re v)) by (rewrite <- Rabs_mult; apply Rabs_pos_eq; apply Rle_0_sqr).
    assert (E2 : Rabs (im u - im v) * Rabs (im u - im v) = (im u - im v) * (im u - im v)) by (rewrite <- Rabs_mult; apply Rabs_pos_eq; apply Rle_0_sqr). nra. }
  lra.
Qed.
Lemma cont_sumsq l a b (Y1 Y2 : R -> st) : (forall t v, a <= t <= b -> continuous (fun s => Y1 s v) t /\ continuous (fun s => Y2 s v) t) ->
  forall t, a <= t <= b -> continuous (fun s => sumsq l (Y1 s) (Y2 s)) t.
Proof.
  intros HC s Hs. induction l as [|w l IH]; cbn [sumsq]; [apply continuous_const|].
  destruct (HC s w Hs) as [D1 D2].
  assert (D : continuous (fun q => Y1 q w - Y2 q w) s) by (apply (continuous_minus (V := R_NormedModule) (fun q => Y1 q w) (fun q => Y2 q w)); auto).
  apply (continuous_plus (V := R_NormedModule) (fun q => (Y1 q w - Y2 q w) * (Y1 q w - Y2 q w)) (fun q => sumsq l (Y1 q) (Y2 q))); [|exact IH].
  apply (continuous_mult (K := R_AbsRing)); auto.
Qed.
Definition outer_test (p : prm) (k : kind) (e : env) (y : st) : cx :=
  Cx (y (p_state k) + p_gain p k * p_error p k e y) (y XQ - Kp_Q p * q_error p k e y).

Lemma determined p k E m B a b d Y1 Y2 : 0 < d -> a <= b -> inputs_within p E a b B m -> Cdc p <> 0 ->
  run_between a b (rhs p k) E Y1 -> run_between a b (rhs p k) E Y2 ->
  (forall t, a < t < b -> clear_of_limits p k (E t) (Y1 t) d) -> (has_dc_link k -> forall t, a <= t <= b -> 0 < Y1 t VDC) ->
  (forall v, Y1 a v = Y2 a v) -> forall t v, a <= t <= b -> Y1 t v = Y2 t v.
Proof.
  intros Hd Hab HE HC H1 H2 HL HV H0.
  assert (C1 : forall t v, a <= t <= b -> continuous (fun s => Y1 s v) t) by apply H1. assert (C2 : forall t v, a <= t <= b -> continuous (fun s => Y2 s v) t) by apply H2.
  set (N := dist Y1 Y2).
  assert (Dt : forall ph, exists K, 0 <= K /\ forall t, a < t < b -> cabs (duty p (Y2 t) ph) <= cabs (duty p (Y1 t) ph) + 2 * (K * N t)).
  { intros ph. destruct (n_duty p R (fun t => a < t < b) N Y1 Y2 (s_state a b Y1 Y2 Hab C1 C2) ph) as [(K1 & M1 & A1 & _ & Q1) (K2 & M2 & A2 & _ & Q2)].
    exists (K1 + K2). split; [lra|]. intros t Ht. destruct (Q1 t Ht) as (X1 & _). destruct (Q2 t Ht) as (X2 & _).
    pose proof (dist_pos Y1 Y2 t) as Np. fold N in Np, X1, X2. assert (0 <= K1 * N t) by (apply Rmult_le_pos; auto). assert (0 <= K2 * N t) by (apply Rmult_le_pos; auto).
    apply cabs_parts; rewrite Rabs_minus_sym; lra. }
  assert (Ot : exists K, 0 <= K /\ forall t, a < t < b -> cabs (outer_test p k (E t) (Y2 t)) <= cabs (outer_test p k (E t) (Y1 t)) + 2 * (K * N t)).
  { assert (Q : cnear (fun t => a < t < b) N (fun t => outer_test p k (E t) (Y1 t)) (fun t => outer_test p k (E t) (Y2 t))).
    { unfold outer_test. split; cbn [re im].
      - apply (near_plus R (fun t => a < t < b) N (fun t => Y1 t (p_state k)) (fun t => p_gain p k * p_error p k (E t) (Y1 t)) (fun t => Y2 t (p_state k)) (fun t => p_gain p k * p_error p k (E t) (Y2 t))); [apply s_state; auto|]. apply near_mult; [apply near_const|apply (s_perr p k E m B a b Y1 Y2); auto].
      - apply (near_minus R (fun t => a < t < b) N (fun t => Y1 t XQ) (fun t => Kp_Q p * q_error p k (E t) (Y1 t)) (fun t => Y2 t XQ) (fun t => Kp_Q p * q_error p k (E t) (Y2 t))); [apply s_state; auto|]. apply near_mult; [apply near_const|apply (s_qerr p k E m B a b Y1 Y2); auto]. }
    destruct Q as [(K1 & M1 & A1 & _ & Q1) (K2 & M2 & A2 & _ & Q2)].
    exists (K1 + K2). split; [lra|]. intros t Ht. destruct (Q1 t Ht) as (X1 & _). destruct (Q2 t Ht) as (X2 & _).
    pose proof (dist_pos Y1 Y2 t) as Np. fold N in Np, X1, X2. assert (0 <= K1 * N t) by (apply Rmult_le_pos; auto). assert (0 <= K2 * N t) by (apply Rmult_le_pos; auto).
    apply cabs_parts; rewrite Rabs_minus_sym; lra. }
  assert (Lo : exists c, 0 < c /\ (has_dc_link k -> forall t, a <= t <= b -> c <= Y1 t VDC)).
  { destruct (match k return {has_dc_link k} + {~ has_dc_link k} with SingleConst | ThreeConst => right (fun h => h) | _ => left I end) as [Hk|Hk].
    - destruct (cont_positive (fun t => Y1 t VDC) a b Hab) as (c & Hc & L); [intros; apply H1; auto|intros; apply HV; auto|]. exists c. auto.
    - exists 1. split; [lra|]. intros; contradiction. }
  destruct (Dt PA) as (Ka & Ka0 & Da). destruct (Dt PB) as (Kb & Kb0 & Db). destruct (Dt PC) as (Kc & Kc0 & Dc). destruct Ot as (Ko & Ko0 & Oo). destruct Lo as (c & Hc & Lc).
  set (K := Ka + Kb + Kc + Ko + 1). set (eps := Rmin (d / (2 * K)) c).
  assert (KP : 1 <= K) by (unfold K; lra).
  assert (Ep : 0 < eps) by (unfold eps; apply Rmin_glb_lt; auto; apply Rdiv_lt_0_compat; lra).
  assert (CN : forall t, a <= t <= b -> continuous N t).
  { intros t Ht. unfold N, dist. apply (continuous_comp (fun s => sumsq core (Y1 s) (Y2 s)) sqrt); [|apply continuous_sqrt].
    apply (cont_sumsq core a b); auto. }
  assert (Zero : forall t, a <= t <= b -> N t = 0).
  { apply no_departure; auto.
    - unfold N, dist. rewrite sumsq_same by auto. apply sqrt_0.
    - intros T HT NT.
      assert (CT : continuity_pt N T) by (apply continuity_pt_filterlim; apply CN; lra).
      destruct (CT eps Ep) as (r & Hr & Hrr). exists (Rmin (r / 2) (b - T)).
      assert (hp : 0 < Rmin (r / 2) (b - T)) by (apply Rmin_glb_lt; lra). pose proof (Rmin_l (r / 2) (b - T)) as hl. pose proof (Rmin_r (r / 2) (b - T)) as hr.
      set (h := Rmin (r / 2) (b - T)) in *. split; [exact hp|]. split; [lra|].
      assert (Small : forall t, T <= t <= T + h -> N t < eps).
      { intros t Ht. destruct (Req_dec T t) as [<-|Hne]; [lra|]. specialize (Hrr t). simpl in Hrr. unfold R_dist in Hrr. rewrite NT, Rminus_0_r in Hrr.
        eapply Rle_lt_trans; [apply Rle_abs|]. apply Hrr. split; [split; [exact I|auto]|]. apply Rabs_def1; lra. }
      assert (Eq : forall t v, T <= t <= T + h -> Y1 t v = Y2 t v).
      { intros t v Ht.
        assert (S1' : run_between T (T + h) (rhs p k) E Y1) by (apply (run_sub a b); auto; lra).
        assert (S2' : run_between T (T + h) (rhs p k) E Y2) by (apply (run_sub a b); auto; lra).
        assert (ED : d / (2 * K) * (2 * K) = d) by (field; lra).
        assert (Bd : forall s K0, T < s < T + h -> 0 <= K0 <= K -> 2 * (K0 * N s) <= d).
        { intros s K0 Hs HK. assert (N s <= d / (2 * K)) by (assert (Hs' : T <= s <= T + h) by lra; specialize (Small s Hs'); pose proof (Rmin_l (d / (2 * K)) c); unfold eps in Small; lra).
          pose proof (dist_pos Y1 Y2 s) as Np. fold N in Np. assert (K0 * N s <= K * (d / (2 * K))) by (apply Rmult_le_compat; lra). lra. }
        eapply (core_unique p k E m B T (T + h) Y1 Y2); auto; try lra.
        - intros s Hs. apply HE. lra.
        - intros s Hs. assert (Hs' : a < s < b) by lra. destruct (HL s Hs') as [L1 L2]. split; [intros ph Hp; specialize (L1 ph Hp); lra|lra].
        - intros s Hs. assert (Hs' : a < s < b) by lra. destruct (HL s Hs') as [L1 L2]. split.
          + intros ph Hp. specialize (L1 ph Hp).
            pose proof (Bd s Ka Hs) as B1. pose proof (Bd s Kb Hs) as B2. pose proof (Bd s Kc Hs) as B3. specialize (Da s Hs'). specialize (Db s Hs'). specialize (Dc s Hs').
            unfold K in B1, B2, B3. destruct ph; lra.
          + pose proof (Bd s Ko Hs) as B1. specialize (Oo s Hs'). unfold outer_test in Oo. unfold K in B1. lra.
        - intros Hk s Hs. assert (Hs' : a <= s <= b) by lra. pose proof (Lc Hk s Hs') as Q. split; [lra|].
          assert (In VDC core) as Iv by apply core_all. pose proof (sumsq_in core (Y1 s) (Y2 s) VDC Iv) as Q2.
          specialize (Small s Hs). unfold N, dist in Small. pose proof (Rmin_r (d / (2 * K)) c). fold eps in H.
          apply Rabs_le_between in Q2. lra.
        - intros w. apply (sumsq_zero core); [|apply core_all; auto]. unfold N, dist in NT. apply sqrt_eq_0; auto. apply sumsq_pos. }
      intros t Ht. unfold N, dist. rewrite sumsq_same by auto. apply sqrt_0. }
  intros t v Ht. apply (sumsq_zero core); [|apply core_all; auto]. specialize (Zero t Ht). unfold N, dist in Zero. apply sqrt_eq_0; auto. apply sumsq_pos.
Qed.

(** * C132 *)
(** As long as a run stays clear of its limits it is the only one from its initial
    state: every other run with the same inputs and the same start coincides with it. *)
Theorem C132_unique_partial : forall p k E m B a b d Y1 Y2, 0 < d -> inputs_within p E a b B m -> Cdc p <> 0 ->
  run_between a b (rhs p k) E Y1 -> run_between a b (rhs p k) E Y2 ->
  (forall t, a < t < b -> clear_of_limits p k (E t) (Y1 t) d) -> (has_dc_link k -> forall t, a <= t <= b -> 0 < Y1 t VDC) ->
  (forall v, Y1 a v = Y2 a v) ->
  forall t v, a <= t <= b -> Y1 t v = Y2 t v.
Proof.
  intros p k E m B a b d Y1 Y2 Hd HE HC H1 H2 HL HV H0 t v Ht.
  assert (Hab : a <= b) by lra.
  apply (determined p k E m B a b d); auto.
Qed.
Print Assumptions C132_unique_partial.

(** * No continuation at the modulation limit *)
Lemma same_sign_pos x y : 0 < x * y -> same_sign x y = true.
Proof.
  intros H. unfold same_sign, np_sign. apply req_iff.
  destruct (Rlt_le_dec 0 x) as [Hx|Hx].
  - assert (Hy : 0 < y) by (destruct (Rlt_le_dec 0 y); auto; exfalso; nra).
    rewrite (proj2 (rlt_iff 0 x) Hx), (proj2 (rlt_iff 0 y) Hy). reflexivity.
  - assert (Hy : y < 0) by (destruct (Rlt_le_dec y 0); auto; exfalso; nra). assert (Hx' : x < 0) by (destruct Hx as [Hx|Hx]; auto; rewrite Hx in H; lra).
    assert (Hy' : y <= 0) by lra. rewrite (proj2 (rlt_false 0 x) Hx), (proj2 (rlt_false 0 y) Hy'), (proj2 (rlt_iff x 0) Hx'), (proj2 (rlt_iff y 0) Hy). reflexivity.
Qed.
Lemma outward x u d Kp Ki : 0 <= Kp -> 0 < Ki -> 0 < u * x -> 0 < d * u -> 0 < (Kp * u + x) * (Kp * d + Ki * u).
Proof.
  intros H1 H2 H3 H4. assert (U : u <> 0) by (intros ->; lra). assert (UU : 0 < u * u) by (pose proof (Rsqr_pos_lt u U); auto).
  assert (A : 0 < (Kp * u + x) * u) by (assert (0 <= Kp * (u * u)) by (apply Rmult_le_pos; lra); lra).
  assert (C : 0 < (Kp * d + Ki * u) * u).
  { assert (0 <= Kp * (d * u)) by (apply Rmult_le_pos; lra). assert (0 < Ki * (u * u)) by (apply Rmult_lt_0_compat; lra). lra. }
  assert (D : 0 < ((Kp * u + x) * (Kp * d + Ki * u)) * (u * u)).
  { replace (((Kp * u + x) * (Kp * d + Ki * u)) * (u * u)) with (((Kp * u + x) * u) * ((Kp * d + Ki * u) * u)) by ring. apply Rmult_lt_0_compat; auto. }
  destruct (Rlt_le_dec 0 ((Kp * u + x) * (Kp * d + Ki * u))); auto. exfalso.
  assert ((Kp * u + x) * (Kp * d + Ki * u) * (u * u) <= 0 * (u * u)) by (apply Rmult_le_compat_r; lra). lra.
Qed.

(** The equations have no solution from a state with the duty cycle exactly at its limit
    and pushed outwards: not for the shortest time, in any of the five models. *)
Theorem C132_no_run_at_limit : forall p k ph E Y a b,
  has_phase k ph -> 0 <= Kp_GCC p -> 0 < Ki_GCC p -> a < b -> cabs (duty p (Y a) ph) = m_limit p ->
  (forall t, a < t < b -> pushed_out p k (E t) (Y t) ph) ->
  ~ run_between a b (rhs p k) E Y.
Proof.
  intros p k ph E Y a b Hp HK HKi Hab HLim HPO [HD HC].
  set (mR := fun t => Kp_GCC p * Y t (P ph CuR) + Y t (P ph CxR)). set (mI := fun t => Kp_GCC p * Y t (P ph CuI) + Y t (P ph CxI)).
  set (g := fun t => mR t * mR t + mI t * mI t).
  set (L := m_limit p * m_limit p).
  assert (Lp : 0 <= m_limit p) by (rewrite <- HLim; apply cabs_nonneg).
  assert (ga : g a = L). { unfold g, L, mR, mI. rewrite <- HLim. symmetry. apply (cabs_sq (duty p (Y a) ph)). }
  assert (Sat : forall t, rlt (m_limit p) (cabs (duty p (Y t) ph)) = true <-> L < g t).
  { intros t. rewrite rlt_iff. assert (G : g t = cabs (duty p (Y t) ph) * cabs (duty p (Y t) ph)) by (symmetry; apply (cabs_sq (duty p (Y t) ph))).
    rewrite G. unfold L. pose proof (cabs_nonneg (duty p (Y t) ph)). split; intros H1; [apply Rmult_le_0_lt_compat; auto|].
    destruct (Rlt_le_dec (m_limit p) (cabs (duty p (Y t) ph))); auto. exfalso.
    assert (cabs (duty p (Y t) ph) * cabs (duty p (Y t) ph) <= m_limit p * m_limit p) by (apply Rmult_le_compat; auto). lra. }
  set (dR := fun t => wp p * (- Y t (P ph CuR) + re (i_ref p k (E t) (Y t) ph) - Y t (P ph CiR))).
  set (dI := fun t => wp p * (- Y t (P ph CuI) + im (i_ref p k (E t) (Y t) ph) - Y t (P ph CiI))).
  set (dg := fun t => if rlt (m_limit p) (cabs (duty p (Y t) ph)) then 0 else
     2 * (mR t * (Kp_GCC p * dR t + Ki_GCC p * Y t (P ph CuR))) + 2 * (mI t * (Kp_GCC p * dI t + Ki_GCC p * Y t (P ph CuI)))).
  assert (Dg : forall t, a < t < b -> is_derive g t (dg t)).
  { intros t Ht. destruct (HPO t Ht) as (A1 & A2 & A3 & A4). cbv zeta beta in A3, A4.
    destruct (rhs_inner p k (E t) (Y t) ph Hp) as (X1 & X2 & X3 & X4). cbv zeta in X1, X2, X3, X4.
    fold (dR t) in X3, A3. fold (dI t) in X4, A4.
    assert (S1 : same_sign (Ki_GCC p * Y t (P ph CuR)) (Y t (P ph CxR)) = true) by (apply same_sign_pos; rewrite Rmult_assoc; apply Rmult_lt_0_compat; auto).
    assert (S2 : same_sign (Ki_GCC p * Y t (P ph CuI)) (Y t (P ph CxI)) = true) by (apply same_sign_pos; rewrite Rmult_assoc; apply Rmult_lt_0_compat; auto).
    assert (S3 : same_sign (dR t) (Y t (P ph CuR)) = true) by (apply same_sign_pos; auto).
    assert (S4 : same_sign (dI t) (Y t (P ph CuI)) = true) by (apply same_sign_pos; auto).
    unfold aw in X1, X2, X3, X4. rewrite S1 in X1. rewrite S2 in X2. rewrite S3 in X3. rewrite S4 in X4.
    pose proof (HD t (P ph CxR) Ht) as D1. pose proof (HD t (P ph CxI) Ht) as D2. pose proof (HD t (P ph CuR) Ht) as D3. pose proof (HD t (P ph CuI) Ht) as D4.
    rewrite X1 in D1. rewrite X2 in D2. rewrite X3 in D3. rewrite X4 in D4.
    assert (DM : forall (u x : R -> R) du dx, is_derive u t du -> is_derive x t dx ->
      is_derive (fun s => Kp_GCC p * u s + x s) t (Kp_GCC p * du + dx)).
    { intros u x du dx Hu Hx. apply (is_derive_plus (V := R_NormedModule) (fun s => Kp_GCC p * u s) x); auto. apply is_derive_scal; auto. }
    pose proof (DM _ _ _ _ D3 D1) as MR. pose proof (DM _ _ _ _ D4 D2) as MI. unfold g. evar_last.
    - apply (is_derive_plus (V := R_NormedModule) (fun s => mR s * mR s) (fun s => mI s * mI s)).
      + apply (is_derive_mult mR mR); [exact MR|exact MR|intros; apply Rmult_comm].
      + apply (is_derive_mult mI mI); [exact MI|exact MI|intros; apply Rmult_comm].
    - unfold plus, mult; simpl. unfold dg. destruct (rlt (m_limit p) (cabs (duty p (Y t) ph))); ring. }
  assert (Cg : forall t, a <= t <= b -> continuous g t).
  { intros t Ht. assert (CM : forall c c', continuous (fun s => Kp_GCC p * Y s (P ph c) + Y s (P ph c')) t).
    { intros c c'. apply (continuous_plus (V := R_NormedModule) (fun s => Kp_GCC p * Y s (P ph c)) (fun s => Y s (P ph c'))); [|apply HC; auto].
      apply (continuous_mult (K := R_AbsRing) (fun _ => Kp_GCC p) (fun s => Y s (P ph c))); [apply continuous_const|apply HC; auto]. }
    unfold g. apply (continuous_plus (V := R_NormedModule) (fun s => mR s * mR s) (fun s => mI s * mI s));
      apply (continuous_mult (K := R_AbsRing)); apply CM. }
  assert (Pos : forall t, a < t < b -> g t <= L -> 0 < dg t).
  { intros t Ht Hg. unfold dg. destruct (rlt (m_limit p) (cabs (duty p (Y t) ph))) eqn:Sx; [apply Sat in Sx; lra|].
    destruct (HPO t Ht) as (A1 & A2 & A3 & A4). cbv zeta beta in A3, A4.
    pose proof (outward _ _ _ _ _ HK HKi A1 A3) as O1. pose proof (outward _ _ _ _ _ HK HKi A2 A4) as O2.
    fold (dR t) (mR t) in O1. fold (dI t) (mI t) in O2. lra. }
  assert (Zero : forall t, a < t < b -> L < g t -> dg t = 0).
  { intros t Ht Hg. unfold dg. rewrite (proj2 (Sat t) Hg). reflexivity. }
  assert (Mono : forall s t, a <= s < t -> t <= b -> g s <= g t).
  { intros s t Hs Ht. destruct (mean_value g dg s t) as (r & Hr & Eq); [lra|intros; apply Dg; lra|intros; apply Cg; lra|].
    assert (0 <= dg r) by (assert (Hr' : a < r < b) by lra; destruct (Rle_lt_dec (g r) L) as [Le|Lt]; [left; apply Pos|rewrite (Zero r Hr' Lt)]; auto; lra).
    assert (0 <= dg r * (t - s)) by (apply Rmult_le_pos; lra). lra. }
  assert (Above : forall t, a < t < b -> L < g t).
  { intros t Ht. destruct (Rlt_le_dec L (g t)) as [|Le]; auto. exfalso.
    assert (g a <= g t) by (apply Mono; lra).
    destruct (mean_value g dg a t) as (r & Hr & Eq); [lra|intros; apply Dg; lra|intros; apply Cg; lra|].
    assert (Hr' : a < r < b) by lra. assert (g r <= g t) by (apply Mono; lra).
    assert (0 < dg r) by (apply Pos; auto; lra). assert (0 < dg r * (t - a)) by (apply Rmult_lt_0_compat; lra). lra. }
  set (t := (a + b) / 2). assert (Ht : a < t < b) by (unfold t; lra).
  destruct (mean_value g dg a t) as (r & Hr & Eq); [lra|intros; apply Dg; lra|intros; apply Cg; lra|].
  assert (Hr' : a < r < b) by lra. rewrite (Zero r Hr' (Above r Hr')), Rmult_0_l in Eq. pose proof (Above t Ht). lra.
Qed.
Print Assumptions C132_no_run_at_limit.

(** Such states exist: a DER that has been disconnected by a fault, with the duty cycle
    at its limit.  Nothing about the inputs is unusual and no run starts there. *)
Definition stuck_prm : prm := Prm 1 1 1 1 1 1 5 1 1 1 1 1 1 1 1 1 1 1 1000 (Cx 0 0) 1.
Definition stuck_state : st := fun v => match v with
  | P PA CiR => -10 | P PA CiI => -10 | P PA CuR => 1 | P PA CuI => 1 | P PA CxR => 2 | P PA CxI => 3 | VDC => 2 | _ => 0 end.
Theorem C132_some_run_refuted : forall m,
  (forall T, 0 < T -> inputs_within stuck_prm (fault_env m false 1) 0 T 1 m) /\
  unsaturated stuck_prm SinglePhase (fault_env m false 1 0) stuck_state /\ 0 < stuck_state VDC /\
  forall b Y, 0 < b -> (forall v, Y 0 v = stuck_state v) -> ~ run_between 0 b (rhs stuck_prm SinglePhase) (fault_env m false 1) Y.
Proof.
  intros m. assert (A0 : cabs (Cx 0 0) = 0) by (unfold cabs, cnorm2; cbn [re im]; rewrite Rmult_0_l, Rplus_0_l; apply sqrt_0).
  split; [|split; [|split]].
  - intros T HT t Ht. repeat split; cbn [e_grid fault_env e_Qref e_Vdcref e_Vconst e_mod]; unfold source_impedance, v_calc; cbn [e_grid fault_env e_va e_vb e_vc];
      try (intros ph; destruct ph); rewrite ?A0, ?Rabs_R0, ?Rabs_R1; lra.
  - split.
    + intros ph Hp. cbn [has_phase] in Hp. subst ph. unfold duty, cabs, cnorm2. cbn [stuck_state stuck_prm Kp_GCC re im m_limit].
      replace ((1 * 1 + 2) * (1 * 1 + 2) + (1 * 1 + 3) * (1 * 1 + 3)) with (5 * 5) by ring. rewrite sqrt_square; lra.
    + unfold p_error, q_error, S_pcc, v_calc, S_ph. cbn [p_state p_gain stuck_state stuck_prm e_conn fault_env e_grid e_va Kp_DC Kp_Q iref_limit].
      unfold cscale, cmul. cbn [re im]. match goal with |- cabs (Cx ?x ?y) <= _ => replace x with 0 by ring; replace y with 0 by ring end. rewrite A0. lra.
  - cbn. lra.
  - intros b Y Hb HY HR.
    assert (Pos : forall f : R -> R, (forall t, 0 <= t <= b -> continuous f t) -> 0 < f 0 -> exists h, 0 < h <= b /\ forall t, 0 <= t < h -> 0 < f t).
    { intros f Cf Hf. assert (C0 : continuity_pt f 0) by (apply continuity_pt_filterlim; apply Cf; lra).
      destruct (C0 (f 0) Hf) as (d & Hd & Hdd). exists (Rmin d b). pose proof (Rmin_l d b). pose proof (Rmin_r d b).
      split; [split; [apply Rmin_glb_lt; lra|lra]|]. intros t Ht. destruct (Req_dec t 0) as [->|Hn]; auto.
      specialize (Hdd t). simpl in Hdd. unfold R_dist in Hdd. assert (Q : Rabs (f t - f 0) < f 0) by (apply Hdd; split; [split; [exact I|auto]|apply Rabs_def1; lra]).
      apply Rabs_def2 in Q. lra. }
    destruct HR as [HD HC].
    assert (Cv : forall v, (forall t, 0 <= t <= b -> continuous (fun s => Y s v) t)) by (intros; apply HC; auto).
    assert (Cd : forall v w, (forall t, 0 <= t <= b -> continuous (fun s => - Y s v - Y s w) t)).
    { intros v w t Ht. apply (continuous_minus (V := R_NormedModule) (fun s => - Y s v) (fun s => Y s w)); [|apply Cv; auto].
      apply (continuous_opp (V := R_NormedModule) (fun s => Y s v)). apply Cv; auto. }
    destruct (Pos (fun s => Y s (P PA CuR)) (Cv _)) as (h1 & K1 & P1); [rewrite HY; cbn; lra|].
    destruct (Pos (fun s => Y s (P PA CuI)) (Cv _)) as (h2 & K2 & P2); [rewrite HY; cbn; lra|].
    destruct (Pos (fun s => Y s (P PA CxR)) (Cv _)) as (h3 & K3 & P3); [rewrite HY; cbn; lra|].
    destruct (Pos (fun s => Y s (P PA CxI)) (Cv _)) as (h4 & K4 & P4); [rewrite HY; cbn; lra|].
    destruct (Pos (fun s => - Y s (P PA CuR) - Y s (P PA CiR)) (Cd _ _)) as (h5 & K5 & P5); [rewrite !HY; cbn; lra|].
    destruct (Pos (fun s => - Y s (P PA CuI) - Y s (P PA CiI)) (Cd _ _)) as (h6 & K6 & P6); [rewrite !HY; cbn; lra|].
    set (h := Rmin (Rmin (Rmin h1 h2) (Rmin h3 h4)) (Rmin h5 h6)).
    assert (Hh : 0 < h /\ h <= h1 /\ h <= h2 /\ h <= h3 /\ h <= h4 /\ h <= h5 /\ h <= h6).
    { unfold h. pose proof (Rmin_l (Rmin (Rmin h1 h2) (Rmin h3 h4)) (Rmin h5 h6)). pose proof (Rmin_r (Rmin (Rmin h1 h2) (Rmin h3 h4)) (Rmin h5 h6)).
      pose proof (Rmin_l (Rmin h1 h2) (Rmin h3 h4)). pose proof (Rmin_r (Rmin h1 h2) (Rmin h3 h4)). pose proof (Rmin_l h1 h2). pose proof (Rmin_r h1 h2).
      pose proof (Rmin_l h3 h4). pose proof (Rmin_r h3 h4). pose proof (Rmin_l h5 h6). pose proof (Rmin_r h5 h6).
      split; [repeat apply Rmin_glb_lt; lra|]. repeat split; lra. }
    apply (C132_no_run_at_limit stuck_prm SinglePhase PA (fault_env m false 1) Y 0 h); cbn [has_phase stuck_prm Kp_GCC Ki_GCC]; try lra; auto.
    + unfold duty. rewrite !HY. unfold cabs, cnorm2. cbn [stuck_state stuck_prm Kp_GCC re im m_limit].
      replace ((1 * 1 + 2) * (1 * 1 + 2) + (1 * 1 + 3) * (1 * 1 + 3)) with (5 * 5) by ring. rewrite sqrt_square; lra.
    + intros t Ht. unfold pushed_out, i_ref. cbn [e_conn fault_env re im stuck_prm wp]. cbv zeta.
      assert (Q1 := P1 t). assert (Q2 := P2 t). assert (Q3 := P3 t). assert (Q4 := P4 t). assert (Q5 := P5 t). assert (Q6 := P6 t).
      repeat split; apply Rmult_lt_0_compat; try lra.
    + apply (run_sub 0 b); try lra. split; auto.
Qed.
Print Assumptions C132_some_run_refuted.

(** Non-vacuity of C132_unique_partial: the fault current of a disconnected DER decays
    clear of all limits, and its decay is the only run. *)
Example C132_hypotheses_met : forall m b Y, 0 < b ->
  run_between 0 b (rhs decay_prm SinglePhase) (fault_env m false 0) Y -> (forall v, decay_run 0 v = Y 0 v) ->
  forall t, 0 <= t <= b -> Y t (P PA CiR) = exp (- t).
Proof.
  intros m b Y Hb HR H0 t Ht. symmetry. change (exp (- t)) with (decay_run t (P PA CiR)).
  assert (A0 : cabs (Cx 0 0) = 0) by (unfold cabs, cnorm2; cbn [re im]; rewrite Rmult_0_l, Rplus_0_l; apply sqrt_0).
  apply (C132_unique_partial decay_prm SinglePhase (fault_env m false 0) m 1 0 b (1/2) decay_run Y); auto; try lra.
  - intros s Hs. repeat split; cbn [e_grid fault_env e_Qref e_Vdcref e_Vconst e_mod]; unfold source_impedance, v_calc; cbn [e_grid fault_env e_va e_vb e_vc];
      try (intros ph; destruct ph); rewrite ?A0, ?Rabs_R0, ?Rabs_R1; lra.
  - cbn. lra.
  - apply decay_run_ok; auto.
  - intros s Hs. split.
    + intros ph Hp. cbn [has_phase] in Hp. subst ph. unfold duty. cbn [decay_run fault_state decay_prm Kp_GCC m_limit]. unfold decay_run. cbn [fault_state].
      match goal with |- cabs (Cx ?x ?y) + _ <= _ => replace x with 0 by ring; replace y with 0 by ring end. rewrite A0. lra.
    + unfold p_error, q_error, S_pcc, v_calc, S_ph, decay_run. cbn [p_state p_gain fault_state decay_prm e_conn fault_env e_grid e_va Kp_DC Kp_Q iref_limit].
      unfold cscale, cmul. cbn [re im]. match goal with |- cabs (Cx ?x ?y) + _ <= _ => replace x with 0 by ring; replace y with 0 by ring end. rewrite A0. lra.
  - intros _ s Hs. unfold decay_run. cbn [fault_state]. lra.
Qed.
