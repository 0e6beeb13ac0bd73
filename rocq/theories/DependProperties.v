(** C133: small changes of the initial state change the run little. *)
From Coq Require Import List.
From Coquelicot Require Import Coquelicot.
From Verif Require Import RBase CxField PhasorModel PVModel ODEModel Const3Model FilterProperties BoundProofs BoundProperties SettleProofs SettleProperties SolutionSpec SolutionProofs LipschitzProofs SolutionProperties ExistProperties ContinueProperties.
Import RBase ListNotations.
Open Scope R_scope.

Lemma gronwall_growth (W dW : R -> R) a b K : 
  (forall t, a < t < b -> is_derive W t (dW t)) -> (forall t, a <= t <= b -> continuous W t) ->
  (forall t, a < t < b -> dW t <= K * W t) -> (forall t, 0 <= W t) -> forall t, a <= t <= b -> W t <= W a * exp (K * (t - a)).
Proof.
  intros D C H Wp t Ht.
  set (g := fun s => exp (- (K + 1) * (s - a))).
  assert (Dg : forall s, is_derive g s (- (K + 1) * g s)) by (intros s; unfold g; auto_derive; auto; unfold Rminus; ring).
  assert (Le : W t * g t <= exp (- 1 * (t - a)) * (W a * g a) + 0 / 1).
  { apply (comparison (fun s => W s * g s) (fun s => dW s * g s + W s * (- (K + 1) * g s)) a b 1 0); try lra.
    - intros s Hs. apply (is_derive_mult W g); auto. intros; apply Rmult_comm.
    - intros s Hs. apply (continuous_mult (K := R_AbsRing) W g); [apply C; auto|]. apply (ex_derive_continuous (V := R_NormedModule)). eexists. apply Dg.
    - intros s Hs. specialize (H s Hs). assert (0 < g s) by apply exp_pos. nra. }
  assert (G0 : g a = 1) by (unfold g; rewrite Rminus_eq_0, Rmult_0_r; apply exp_0).
  assert (Gi : g t * exp ((K + 1) * (t - a)) = 1) by (unfold g; rewrite <- exp_plus; replace (- (K + 1) * (t - a) + (K + 1) * (t - a)) with 0 by ring; apply exp_0).
  assert (Ge : exp (- 1 * (t - a)) * exp ((K + 1) * (t - a)) = exp (K * (t - a))) by (rewrite <- exp_plus; f_equal; ring).
  assert (Pe : 0 < exp ((K + 1) * (t - a))) by apply exp_pos.
  assert (Q : W t * g t * exp ((K + 1) * (t - a)) <= exp (- 1 * (t - a)) * W a * exp ((K + 1) * (t - a))) by (apply Rmult_le_compat_r; [lra|rewrite G0 in Le; lra]).
  replace (W t * g t * exp ((K + 1) * (t - a))) with (W t * (g t * exp ((K + 1) * (t - a)))) in Q by ring. rewrite Gi in Q.
  replace (exp (- 1 * (t - a)) * W a * exp ((K + 1) * (t - a))) with (W a * (exp (- 1 * (t - a)) * exp ((K + 1) * (t - a)))) in Q by ring. rewrite Ge in Q. lra.
Qed.
(** a bound that reproduces itself is never crossed *)
Lemma never_crossed (f : R -> R) a b r : (forall t, a <= t <= b -> continuous f t) ->
  (forall s, a <= s <= b -> (forall u, a <= u < s -> f u < r) -> f s < r) -> forall t, a <= t <= b -> f t < r.
Proof.
  intros HC HS t0 Ht0.
  set (A := fun s => a <= s <= t0 /\ forall u, a <= u <= s -> f u < r).
  assert (Aa : A a). { split; [lra|]. intros u Hu. replace u with a by lra. apply HS; [lra|]. intros w Hw. lra. }
  destruct (completeness A) as (T & HU & HL).
  - exists t0. intros s [Hs _]. lra.
  - exists a. exact Aa.
  - assert (aT : a <= T) by (apply HU; exact Aa). assert (Tt : T <= t0) by (apply HL; intros s [Hs _]; lra).
    assert (Before : forall u, a <= u < T -> f u < r).
    { intros u Hu. destruct (Rlt_le_dec (f u) r) as [|Hn]; auto. exfalso. assert (T <= u); [|lra]. apply HL. intros s [Hs As].
      destruct (Rle_lt_dec s u); auto. exfalso. assert (f u < r) by (apply As; lra). lra. }
    assert (AtT : f T < r) by (apply HS; [lra|exact Before]).
    destruct (Rle_lt_dec t0 T) as [Le|Lt]; [replace t0 with T by lra; exact AtT|]. exfalso.
    assert (CT : continuity_pt f T) by (apply continuity_pt_filterlim; apply HC; lra).
    assert (E0 : 0 < r - f T) by lra. destruct (CT _ E0) as (d & Hd & Hdd).
    set (S' := Rmin (T + d / 2) t0). assert (T < S') by (unfold S'; apply Rmin_glb_lt; lra).
    assert (S' <= T); [|lra]. apply HU. split; [split; [lra|apply Rmin_r]|].
    intros u Hu. destruct (Rle_lt_dec u T) as [Le|Gt]; [destruct (Req_dec u T) as [->|]; [exact AtT|apply Before; lra]|].
    specialize (Hdd u). simpl in Hdd. unfold R_dist in Hdd. pose proof (Rmin_l (T + d / 2) t0) as M1. fold S' in M1.
    assert (Q : Rabs (f u - f T) < r - f T) by (apply Hdd; split; [split; [exact I|lra]|apply Rabs_def1; lra]). apply Rabs_def2 in Q. lra.
Qed.
(** rate of the squared distance *)
Lemma dsumsq_bound l l0 y1 y2 f1 f2 K : incl l l0 -> 0 <= K -> (forall v, Rabs (f1 v - f2 v) <= K * sqrt (sumsq l0 y1 y2)) ->
  dsumsq l y1 y2 f1 f2 <= INR (2 * List.length l) * K * sumsq l0 y1 y2.
Proof.
  intros Hi HK HF. pose proof (sumsq_pos l0 y1 y2) as P. assert (NN : sqrt (sumsq l0 y1 y2) * sqrt (sumsq l0 y1 y2) = sumsq l0 y1 y2) by (apply sqrt_sqrt; auto).
  set (N := sqrt (sumsq l0 y1 y2)) in *. induction l as [|v l IH].
  - cbn [dsumsq List.length]. rewrite Nat.mul_0_r. cbn [INR]. lra.
  - cbn [dsumsq List.length]. assert (IH' : dsumsq l y1 y2 f1 f2 <= INR (2 * List.length l) * K * sumsq l0 y1 y2) by (apply IH; intros x Hx; apply Hi; right; auto).
    pose proof (sumsq_in l0 y1 y2 v (Hi v (or_introl eq_refl))) as X2. fold N in X2. specialize (HF v).
    assert (Q : Rabs (y1 v - y2 v) * Rabs (f1 v - f2 v) <= N * (K * N)) by (apply Rmult_le_compat; auto; apply Rabs_pos).
    pose proof (Rle_abs ((y1 v - y2 v) * (f1 v - f2 v))) as R1. rewrite Rabs_mult in R1.
    replace (N * (K * N)) with (K * (N * N)) in Q by ring. rewrite NN in Q.
    replace (2 * Datatypes.S (List.length l))%nat with (Datatypes.S (Datatypes.S (2 * List.length l))) by (rewrite Nat.mul_succ_r, Nat.add_comm; reflexivity). rewrite !S_INR.
    replace ((INR (2 * List.length l) + 1 + 1) * K * sumsq l0 y1 y2) with (INR (2 * List.length l) * K * sumsq l0 y1 y2 + 2 * (K * sumsq l0 y1 y2)) by ring. lra.
Qed.
Lemma d_sumsq l (Y1 Y2 F1 F2 : R -> st) s : (forall v, is_derive (fun q => Y1 q v) s (F1 s v)) -> (forall v, is_derive (fun q => Y2 q v) s (F2 s v)) ->
  is_derive (fun q => sumsq l (Y1 q) (Y2 q)) s (dsumsq l (Y1 s) (Y2 s) (F1 s) (F2 s)).
Proof.
  intros H1 H2. induction l as [|w l IH]; cbn [sumsq dsumsq].
  - apply (is_derive_const (V := R_NormedModule) 0 s).
  - assert (D : is_derive (fun q => Y1 q w - Y2 q w) s (F1 s w - F2 s w)) by (apply (is_derive_minus (V := R_NormedModule) (fun q => Y1 q w) (fun q => Y2 q w)); auto).
    assert (DD : is_derive (fun q => (Y1 q w - Y2 q w) * (Y1 q w - Y2 q w)) s (2 * (Y1 s w - Y2 s w) * (F1 s w - F2 s w))).
    { evar_last; [apply (is_derive_mult (fun q => Y1 q w - Y2 q w) (fun q => Y1 q w - Y2 q w)); [exact D|exact D|intros; apply Rmult_comm]|]. unfold plus, mult; simpl. ring. }
    apply (is_derive_plus (V := R_NormedModule) (fun q => (Y1 q w - Y2 q w) * (Y1 q w - Y2 q w)) (fun q => sumsq l (Y1 q) (Y2 q))); [exact DD|exact IH].
Qed.
Lemma sumsq_le l y1 y2 d : 0 <= d -> (forall v, Rabs (y1 v - y2 v) <= d) -> sumsq l y1 y2 <= INR (List.length l) * (d * d).
Proof.
  intros Hd H. induction l as [|v l IH]; [cbn [sumsq List.length INR]; lra|].
  cbn [sumsq]. change (List.length (v :: l)) with (Datatypes.S (List.length l)). rewrite S_INR. specialize (H v).
  assert ((y1 v - y2 v) * (y1 v - y2 v) <= d * d).
  { rewrite <- (Rabs_pos_eq ((y1 v - y2 v) * (y1 v - y2 v))) by apply Rle_0_sqr. rewrite Rabs_mult. apply Rmult_le_compat; auto; apply Rabs_pos. }
  lra.
Qed.

(** A run that stays clear of its limits is stable under small changes of its initial
    state: from every nearby state there is exactly one run, over the same time, and it
    stays as close as the initial states are, up to a constant factor. *)
Theorem C133_small_changes_stay_small : forall p k E m B L a b d Y1, a < b -> 0 < d -> Cdc p <> 0 ->
  (forall t, a <= t <= b -> smooth_inputs p E t B L m) ->
  run_between a b (rhs p k) E Y1 -> (forall t, a <= t <= b -> clear_of_limits p k (E t) (Y1 t) d) ->
  (has_dc_link k -> forall t, a <= t <= b -> 0 < Y1 t VDC) ->
  exists r K, 0 < r /\ forall y0 dy, 0 <= dy <= r -> (forall v, Rabs (y0 v - Y1 a v) <= dy) ->
    exists Y2, run_between a b (rhs p k) E Y2 /\ (forall v, Y2 a v = y0 v) /\
      (forall t v, a <= t <= b -> Rabs (Y2 t v - Y1 t v) <= K * dy) /\
      (forall Z, run_between a b (rhs p k) E Z -> (forall v, Z a v = y0 v) -> forall t v, a <= t <= b -> Z t v = Y2 t v).
Proof.
  intros p k E m B L a b d Y1 Hab Hd HC HE HR HL HV. assert (Hab' : a <= b) by lra.
  assert (C1 : forall t v, a <= t <= b -> continuous (fun s => Y1 s v) t) by apply HR.
  assert (Bd : exists M, forall t v, a <= t <= b -> Rabs (Y1 t v) <= M).
  { assert (Q : forall l, exists M, forall t v, In v l -> a <= t <= b -> Rabs (Y1 t v) <= M).
    { induction l as [|w l (M & IH)]; [exists 0; intros t v []|]. destruct (cont_bounded (fun t => Y1 t w) a b Hab') as (M' & HM'); [intros; apply C1; auto|].
      exists (Rmax M M'). intros t v [<-|Hv] Ht; [eapply Rle_trans; [apply HM'; auto|apply Rmax_r]|]. eapply Rle_trans; [apply IH; auto|apply Rmax_l]. }
    destruct (Q core) as (M & H). exists M. intros t v Ht. apply H; auto. apply core_all. }
  destruct Bd as (M & HM).
  assert (Lo : exists c, 0 < c /\ (has_dc_link k -> forall t, a <= t <= b -> 2 * c <= Y1 t VDC)).
  { destruct (match k return {has_dc_link k} + {~ has_dc_link k} with SingleConst | ThreeConst => right (fun h => h) | _ => left I end) as [Hk|Hk].
    - destruct (cont_positive (fun t => Y1 t VDC) a b Hab') as (c & Hc & Lc); [intros; apply C1; auto|intros; apply HV; auto|].
      exists (c / 2). split; [lra|]. intros _ t Ht. specialize (Lc t Ht). lra.
    - exists 1. split; [lra|]. intros; contradiction. }
  destruct Lo as (c & Hc & Lc).
  set (Om := fun t (y : st) => a <= t <= b /\ y = Y1 t).
  assert (HO : forall t y, Om t y -> smooth_inputs p E t B L m /\ forall v, Rabs (y v) <= M) by (intros t y (Ht & ->); auto).
  assert (HO' : forall t y, Om t y -> clear_of_limits p k (E t) y d /\ (has_dc_link k -> 2 * c <= y VDC)) by (intros t y (Ht & ->); auto).
  destruct (stays_clear p k E m B L M Om HO d c Hd Hc HO') as (r0 & Hr0 & Cl).
  destruct (all_near pts (around Om r0) gap (fun x v => rhs p k (E (t1 x)) (y1 x) v) (fun x v => rhs p k (E (t2 x)) (y2 x) v)) as (K & S & HK & HS & Q).
  { intros v. apply (b_rhs p k E m B L M Om HO r0 Hr0 v c HC Hc). intros t0 y0 t y Ho Ht Hy. destruct (Cl t0 y0 t y Ho Ht Hy) as (X1 & X2). split; [|exact X2]. apply (clear_unsat _ _ _ _ (d / 2)); [lra|exact X1]. }
  { apply gap_pos. }
  set (n := INR (2 * List.length core)). set (G := exp (n * K * (b - a))). assert (GP : 0 < G) by apply exp_pos.
  assert (nP : 0 <= n) by apply pos_INR. assert (nKP : 0 <= n * K) by (apply Rmult_le_pos; auto).
  set (len := INR (List.length core)). assert (lP : 0 <= len) by apply pos_INR. set (F := sqrt (len * G)). assert (FP : 0 <= F) by apply sqrt_pos.
  assert (lG : 0 <= len * G) by (apply Rmult_le_pos; lra).
  exists (r0 / (2 * (F + 1))), F. assert (E0 : r0 / (2 * (F + 1)) * (2 * (F + 1)) = r0) by (field; lra).
  assert (P0 : 0 < r0 / (2 * (F + 1))) by (apply Rdiv_lt_0_compat; lra). split; [exact P0|]. set (r := r0 / (2 * (F + 1))) in *. intros y0 dy Hdy Hy0.
  assert (Fr : F * dy < r0) by (apply Rle_lt_trans with (F * r); [apply Rmult_le_compat_l; lra|nra]).
  assert (rr : r <= r0) by nra.
  assert (In0 : forall t (y : st), a <= t <= b -> (forall v, Rabs (y v - Y1 t v) <= r0) -> good_point p k E (d / 2) c (M + r0) t y).
  { intros t y Ht Hy. assert (W : Rabs (t - t) <= r0) by (rewrite Rminus_eq_0, Rabs_R0; lra). destruct (Cl t (Y1 t) t y (Logic.conj Ht eq_refl) W Hy) as (X1 & X2).
    split; [exact X1|]. split; [|exact X2]. intros v. replace (y v) with ((y v - Y1 t v) + Y1 t v) by ring. eapply Rle_trans; [apply Rabs_triang|]. specialize (HM t v Ht). specialize (Hy v). lra. }
  destruct (C132_continues_partial p k E m B L a b (d / 2) c (M + r0) y0) as (T & Y2 & HT & HR2 & H0 & Alt); auto; try lra.
  { apply In0; [lra|]. intros v. specialize (Hy0 v). lra. }
  assert (R1 : run_between a T (rhs p k) E Y1) by (apply (run_sub a b); auto; lra).
  set (W := fun t => sumsq core (Y2 t) (Y1 t)).
  assert (CW : forall t, a <= t <= T -> continuous W t).
  { intros t Ht. apply (cont_sumsq core a T); auto. intros s v Hs. split; [apply HR2; auto|apply R1; auto]. }
  assert (Wp : forall t, 0 <= W t) by (intros; apply sumsq_pos).
  assert (W0 : W a <= len * (dy * dy)).
  { apply sumsq_le; [lra|]. intros v. rewrite H0. apply Hy0. }
  assert (Step : forall s, a <= s <= T -> (forall u, a <= u < s -> W u < r0 * r0) -> W s <= len * (dy * dy) * G).
  { intros s Hs Hu. 
    assert (Gr : W s <= W a * exp (n * K * (s - a))).
    { apply (gronwall_growth W (fun t => dsumsq core (Y2 t) (Y1 t) (rhs p k (E t) (Y2 t)) (rhs p k (E t) (Y1 t))) a s (n * K)); auto; try lra.
      - intros t Ht. apply (d_sumsq core Y2 Y1 (fun t v => rhs p k (E t) (Y2 t) v) (fun t v => rhs p k (E t) (Y1 t) v)); intros v; [apply HR2|apply R1]; lra.
      - intros t Ht. apply CW. lra.
      - intros t Ht. apply dsumsq_bound; [apply incl_refl|exact HK|]. intros v.
        set (N := sqrt (sumsq core (Y2 t) (Y1 t))). assert (N0 : 0 <= N) by apply sqrt_pos.
        assert (Nr : N <= r0). { rewrite <- (sqrt_square r0) by lra. apply sqrt_le_1_alt. fold (W t). assert (Ht' : a <= t < s) by lra. specialize (Hu t Ht'). lra. }
        assert (ND : forall w, Rabs (Y2 t w - Y1 t w) <= N) by (intros w; apply sumsq_in, core_all).
        set (x := (((t, Y2 t), (t, Y1 t)), N) : pts).
        assert (GN : gap x = N) by (unfold gap, x; cbn [snd]; apply Rabs_pos_eq; auto).
        assert (Ar : around Om r0 x).
        { exists t, (Y1 t). split; [split; [lra|reflexivity]|]. unfold within. rewrite GN. unfold x, t1, t2, y1, y2. cbn [fst snd]. rewrite Rminus_eq_0, Rabs_R0.
          repeat split; auto; try lra; intros w; [specialize (ND w); lra|]. rewrite Rminus_eq_0, Rabs_R0. lra. }
        destruct (Q x v Ar) as (X1 & _). rewrite GN in X1. exact X1. }
    eapply Rle_trans; [exact Gr|]. apply Rmult_le_compat; auto; [left; apply exp_pos|].
    destruct (Req_dec (n * K * (s - a)) (n * K * (b - a))) as [->|Ne]; [unfold G; lra|]. left. apply exp_increasing.
    assert (n * K * (s - a) <= n * K * (b - a)) by (apply Rmult_le_compat_l; lra). lra. }
  assert (Sq : len * (dy * dy) * G = (F * dy) * (F * dy)).
  { unfold F. replace (sqrt (len * G) * dy * (sqrt (len * G) * dy)) with (sqrt (len * G) * sqrt (len * G) * (dy * dy)) by ring. rewrite sqrt_sqrt by auto. ring. }
  assert (Fd : 0 <= F * dy) by (apply Rmult_le_pos; lra).
  assert (Sm : (F * dy) * (F * dy) < r0 * r0) by nra.
  assert (Never : forall t, a <= t <= T -> W t < r0 * r0).
  { apply never_crossed; auto. intros s Hs Hu. specialize (Step s Hs Hu). lra. }
  assert (Close : forall t v, a <= t <= T -> Rabs (Y2 t v - Y1 t v) <= F * dy).
  { intros t v Ht. eapply Rle_trans; [apply (sumsq_in core), core_all|]. rewrite <- (sqrt_square (F * dy)) by auto. apply sqrt_le_1_alt. rewrite <- Sq. apply Step; auto. intros u Hu. apply Never. lra. }
  assert (ET : T = b).
  { destruct Alt as [|NG]; auto. exfalso. apply NG. apply In0; [lra|]. intros v. assert (HTT : a <= T <= T) by lra. specialize (Close T v HTT). lra. }
  subst T. exists Y2. split; [exact HR2|]. split; [exact H0|]. split; [exact Close|].
  intros Z HZ HZ0 t v Ht. symmetry. 
  assert (Gd : forall s, a <= s <= b -> good_point p k E (d / 2) c (M + r0) s (Y2 s)) by (intros s Hs; apply In0; auto; intros w; specialize (Close s w Hs); lra).
  apply (C132_unique_partial p k E m B a b (d / 2) Y2 Z); auto; try lra.
  - intros s Hs. assert (Hs' : a <= s <= b) by lra. destruct (HE s Hs') as (E1 & E2 & E3 & E4 & E5 & E6 & _). assert (Ws : Rabs (s - s) <= 1) by (rewrite Rminus_eq_0, Rabs_R0; lra).
    split; [apply E1; auto|]. split; [apply (E2 s s); auto|]. split; [intros ph; apply (E3 ph s s); auto|]. split; [apply (E4 s s); auto|]. split; [apply (E5 s s); auto|]. split; [apply (E6 s s); auto|].
    apply E1; auto.
  - intros s Hs. apply Gd. lra.
  - intros Hk s Hs. destruct (Gd s Hs) as (_ & _ & X). specialize (X Hk). lra.
  - intros w. rewrite H0, HZ0. reflexivity.
Qed.
Print Assumptions C133_small_changes_stay_small.

(** Non-vacuity: the decaying fault current of a disconnected DER. *)
Example C133_hypotheses_met : forall m, exists r K, 0 < r /\ forall dy, 0 <= dy <= r ->
  exists Y, run_between 0 5 (rhs decay_prm SinglePhase) (fault_env m false 0) Y /\ Y 0 (P PA CiR) = 1 + dy /\
    forall t, 0 <= t <= 5 -> Rabs (Y t (P PA CiR) - exp (- t)) <= K * dy.
Proof.
  intros m. assert (A0 : cabs (Cx 0 0) = 0) by (unfold cabs, cnorm2; cbn [re im]; rewrite Rmult_0_l, Rplus_0_l; apply sqrt_0).
  destruct (C133_small_changes_stay_small decay_prm SinglePhase (fault_env m false 0) m 1 1 0 5 (1/2) decay_run) as (r & K & Hr & H); try lra.
  - cbn. lra.
  - intros a _. assert (Sl : slow (fun _ => 0) a 1 1) by (intros s t _ _; rewrite Rminus_eq_0, Rabs_R0; split; [lra|]; rewrite Rmult_1_l; apply Rabs_pos).
    assert (Cs : cslow (fun _ => Cx 0 0) a 1 1).
    { intros s t _ _. rewrite A0. split; [lra|]. replace (csub (Cx 0 0) (Cx 0 0)) with (Cx 0 0) by (unfold csub; apply cx_eq; cbn [re im]; ring). rewrite A0, Rmult_1_l. apply Rabs_pos. }
    split; [intros t _; repeat split|]. cbn [fault_env e_Qref e_Vdcref e_Vconst e_wgrid e_t]. split; [exact Cs|]. split; [intros [| |]; exact Cs|].
    split; [exact Sl|]. split; [exact Sl|]. split; [exact Sl|]. intros s t _ _. rewrite !Rmult_0_l, Rminus_eq_0, Rabs_R0. split; [lra|]. rewrite Rmult_1_l; apply Rabs_pos.
  - apply decay_run_ok. lra.
  - intros s Hs. split.
    + intros ph Hp. cbn [has_phase] in Hp. subst ph. unfold duty. cbn [decay_run fault_state decay_prm Kp_GCC m_limit]. unfold decay_run. cbn [fault_state].
      match goal with |- cabs (Cx ?x ?y) + _ <= _ => replace x with 0 by ring; replace y with 0 by ring end. rewrite A0. lra.
    + unfold p_error, q_error, S_pcc, v_calc, S_ph, decay_run. cbn [p_state p_gain fault_state decay_prm e_conn fault_env e_grid e_va Kp_DC Kp_Q iref_limit].
      unfold cscale, cmul. cbn [re im]. match goal with |- cabs (Cx ?x ?y) + _ <= _ => replace x with 0 by ring; replace y with 0 by ring end. rewrite A0. lra.
  - intros _ s Hs. unfold decay_run. cbn [fault_state]. lra.
  - exists r, K. split; [exact Hr|]. intros dy Hdy.
    destruct (H (fun v => match v with P PA CiR => 1 + dy | _ => decay_run 0 v end) dy Hdy) as (Y & HR & H0 & HK & _).
    + intros v. assert (Z : Rabs (decay_run 0 v - decay_run 0 v) <= dy) by (rewrite Rminus_eq_0, Rabs_R0; lra).
      destruct v as [[| |] [| | | | |]| | | | | | |]; try exact Z. unfold decay_run. cbn [fault_state]. rewrite Ropp_0, exp_0. replace (1 + dy - 1) with dy by ring. rewrite Rabs_pos_eq; lra.
    + exists Y. split; [exact HR|]. split; [apply H0|]. intros t Ht. apply (HK t (P PA CiR) Ht).
Qed.
