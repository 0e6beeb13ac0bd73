(** Uniqueness of solutions: a calculus of pairs of functions of time whose distance is
    bounded by the distance of two trajectories, and a Gronwall lemma. *)
From Coq Require Import List.
From Coquelicot Require Import Coquelicot.
From Verif Require Import RBase CxField PhasorModel ODEModel BoundProofs SettleProofs.
Import RBase ListNotations.
Open Scope R_scope.

Section Pairs.
  Variables (X : Type) (D : X -> Prop) (N : X -> R).
  (** f and g are bounded on D, and differ by at most a multiple of N *)
  Definition near (f g : X -> R) : Prop :=
    exists K M, 0 <= K /\ 0 <= M /\ forall t, D t -> Rabs (f t - g t) <= K * N t /\ Rabs (f t) <= M /\ Rabs (g t) <= M.
  Definition cnear (f g : X -> cx) : Prop := near (fun t => re (f t)) (fun t => re (g t)) /\ near (fun t => im (f t)) (fun t => im (g t)).

  Lemma near_ext f g f' g' : (forall t, D t -> f t = f' t) -> (forall t, D t -> g t = g' t) -> near f' g' -> near f g.
  Proof. intros Hf Hg (K & M & HK & HM & H). exists K, M. repeat split; auto; rewrite ?Hf, ?Hg by auto; apply H; auto. Qed.
  Lemma near_same f M : (forall t, D t -> Rabs (f t) <= M) -> near f f.
  Proof.
    intros H. exists 0, (Rabs M). repeat split; try apply Rabs_pos; try lra.
    - rewrite Rminus_eq_0, Rabs_R0, Rmult_0_l. lra.
    - eapply Rle_trans; [apply H; auto|apply Rle_abs].
    - eapply Rle_trans; [apply H; auto|apply Rle_abs].
  Qed.
  Lemma near_const c : near (fun _ => c) (fun _ => c).
  Proof. apply (near_same _ (Rabs c)). intros; lra. Qed.
  Lemma near_plus f g f' g' : near f f' -> near g g' -> near (fun t => f t + g t) (fun t => f' t + g' t).
  Proof.
    intros (K1 & M1 & A1 & B1 & H1) (K2 & M2 & A2 & B2 & H2). exists (K1 + K2), (M1 + M2). split; [lra|]. split; [lra|].
    intros t Ht. destruct (H1 t Ht) as (X1 & Y1 & Z1). destruct (H2 t Ht) as (X2 & Y2 & Z2). repeat split.
    - replace (f t + g t - (f' t + g' t)) with ((f t - f' t) + (g t - g' t)) by ring. eapply Rle_trans; [apply Rabs_triang|]. lra.
    - eapply Rle_trans; [apply Rabs_triang|]. lra.
    - eapply Rle_trans; [apply Rabs_triang|]. lra.
  Qed.
  Lemma near_opp f f' : near f f' -> near (fun t => - f t) (fun t => - f' t).
  Proof.
    intros (K1 & M1 & A1 & B1 & H1). exists K1, M1. split; [lra|]. split; [lra|].
    intros t Ht. destruct (H1 t Ht) as (X1 & Y1 & Z1). rewrite !Rabs_Ropp. repeat split; auto.
    replace (- f t - - f' t) with (- (f t - f' t)) by ring. rewrite Rabs_Ropp. exact X1.
  Qed.
  Lemma near_minus f g f' g' : near f f' -> near g g' -> near (fun t => f t - g t) (fun t => f' t - g' t).
  Proof. intros H1 H2. apply (near_plus f (fun t => - g t) f' (fun t => - g' t)); auto. apply near_opp; auto. Qed.
  Lemma near_mult f g f' g' : near f f' -> near g g' -> near (fun t => f t * g t) (fun t => f' t * g' t).
  Proof.
    intros (K1 & M1 & A1 & B1 & H1) (K2 & M2 & A2 & B2 & H2). exists (M1 * K2 + M2 * K1), (M1 * M2). split; [|split].
    - apply Rplus_le_le_0_compat; apply Rmult_le_pos; auto.
    - apply Rmult_le_pos; auto.
    - intros t Ht. destruct (H1 t Ht) as (X1 & Y1 & Z1). destruct (H2 t Ht) as (X2 & Y2 & Z2). repeat split.
      + replace (f t * g t - f' t * g' t) with (f t * (g t - g' t) + g' t * (f t - f' t)) by ring.
        eapply Rle_trans; [apply Rabs_triang|]. rewrite !Rabs_mult.
        assert (Rabs (f t) * Rabs (g t - g' t) <= M1 * (K2 * N t)) by (apply Rmult_le_compat; auto; apply Rabs_pos).
        assert (Rabs (g' t) * Rabs (f t - f' t) <= M2 * (K1 * N t)) by (apply Rmult_le_compat; auto; apply Rabs_pos). lra.
      + rewrite Rabs_mult. apply Rmult_le_compat; auto; apply Rabs_pos.
      + rewrite Rabs_mult. apply Rmult_le_compat; auto; apply Rabs_pos.
  Qed.
  Lemma near_inv f f' c : 0 < c -> (forall t, D t -> c <= f t /\ c <= f' t) -> near f f' -> near (fun t => / f t) (fun t => / f' t).
  Proof.
    intros Hc Hl (K1 & M1 & A1 & B1 & H1). exists (/ c * / c * K1), (/ c).
    assert (0 < / c) by (apply Rinv_0_lt_compat; auto). split; [repeat apply Rmult_le_pos; lra|]. split; [lra|].
    intros t Ht. destruct (H1 t Ht) as (X1 & _ & _). destruct (Hl t Ht) as [L1 L2].
    assert (I1 : 0 < / f t <= / c) by (split; [apply Rinv_0_lt_compat; lra|apply Rinv_le_contravar; auto]).
    assert (I2 : 0 < / f' t <= / c) by (split; [apply Rinv_0_lt_compat; lra|apply Rinv_le_contravar; auto]).
    split; [|rewrite !Rabs_pos_eq by lra; lra].
    replace (/ f t - / f' t) with (/ f t * / f' t * (f' t - f t)) by (field; lra). rewrite !Rabs_mult, (Rabs_pos_eq (/ f t)), (Rabs_pos_eq (/ f' t)) by lra.
    rewrite Rabs_minus_sym in X1. rewrite (Rmult_assoc (/ c * / c)). apply Rmult_le_compat; auto; try apply Rabs_pos; [apply Rmult_le_pos; lra|].
    apply Rmult_le_compat; lra.
  Qed.
  (** composition with a function that is Lipschitz and bounded on bounded sets *)
  Lemma near_comp (h : R -> R) f f' : (forall M, 0 <= M -> exists L B, 0 <= L /\ 0 <= B /\ forall x y, Rabs x <= M -> Rabs y <= M -> Rabs (h x - h y) <= L * Rabs (x - y) /\ Rabs (h x) <= B) ->
    near f f' -> near (fun t => h (f t)) (fun t => h (f' t)).
  Proof.
    intros Hh (K1 & M1 & A1 & B1 & H1). destruct (Hh M1 B1) as (L & B & HL & HB & H). exists (L * K1), B.
    split; [apply Rmult_le_pos; auto|]. split; [auto|]. intros t Ht. destruct (H1 t Ht) as (X1 & Y1 & Z1). repeat split.
    - eapply Rle_trans; [apply H; auto|]. rewrite Rmult_assoc. apply Rmult_le_compat_l; auto.
    - apply (H _ _ Y1 Z1).
    - apply (H _ _ Z1 Y1).
  Qed.
  (** the argument of sine and cosine need not be bounded *)
  Lemma sin_lip x y : Rabs (sin x - sin y) <= Rabs (x - y).
  Proof.
    destruct (MVT_gen sin y x cos) as (c & _ & E).
    - intros z _. apply is_derive_sin.
    - intros z _. apply continuity_pt_filterlim. apply continuous_sin.
    - rewrite E, Rabs_mult. rewrite <- (Rmult_1_l (Rabs (x - y))) at 2. apply Rmult_le_compat_r; [apply Rabs_pos|].
      apply Rabs_le. apply COS_bound.
  Qed.
  Lemma cos_lip x y : Rabs (cos x - cos y) <= Rabs (x - y).
  Proof.
    rewrite <- !sin_shift. eapply Rle_trans; [apply sin_lip|]. right. rewrite Rabs_minus_sym. f_equal. ring.
  Qed.
  Lemma near_sin f f' : near f f' -> near (fun t => sin (f t)) (fun t => sin (f' t)).
  Proof.
    apply near_comp. intros M _. exists 1, 1. repeat split; try lra; [rewrite Rmult_1_l; apply sin_lip|apply Rabs_le, SIN_bound].
  Qed.
  Lemma near_cos f f' : near f f' -> near (fun t => cos (f t)) (fun t => cos (f' t)).
  Proof.
    apply near_comp. intros M _. exists 1, 1. repeat split; try lra; [rewrite Rmult_1_l; apply cos_lip|apply Rabs_le, COS_bound].
  Qed.
  Lemma near_exp f f' : near f f' -> near (fun t => exp (f t)) (fun t => exp (f' t)).
  Proof.
    apply near_comp. intros M HM. exists (exp M), (exp M). pose proof (exp_pos M). repeat split; try lra.
    - destruct (MVT_gen exp y x exp) as (c & Hc & E).
      + intros z _. apply is_derive_exp.
      + intros z _. apply continuity_pt_filterlim. apply continuous_exp.
      + rewrite E, Rabs_mult, (Rabs_pos_eq (exp c)) by (left; apply exp_pos). apply Rmult_le_compat_r; [apply Rabs_pos|].
        apply Rabs_le_between in H0. apply Rabs_le_between in H1.
        assert (c <= M). { destruct Hc as [_ Hc]. eapply Rle_trans; [exact Hc|]. apply Rmax_lub; lra. }
        destruct (Req_dec c M) as [->|]; [lra|]. left. apply exp_increasing. lra.
    - rewrite Rabs_pos_eq by (left; apply exp_pos). apply Rabs_le_between in H0.
      destruct (Req_dec x M) as [->|]; [lra|]. left. apply exp_increasing. lra.
  Qed.
  Lemma near_max c f f' : near f f' -> near (fun t => Rmax c (f t)) (fun t => Rmax c (f' t)).
  Proof.
    apply near_comp. intros M HM. exists 1, (Rabs c + M). pose proof (Rabs_pos c). repeat split; try lra.
    - rewrite Rmult_1_l. unfold Rmax. destruct (Rle_dec c x), (Rle_dec c y); unfold Rabs; repeat destruct Rcase_abs; lra.
    - unfold Rmax. destruct (Rle_dec c x); lra.
  Qed.
  Lemma near_min c f f' : near f f' -> near (fun t => Rmin c (f t)) (fun t => Rmin c (f' t)).
  Proof.
    apply near_comp. intros M HM. exists 1, (Rabs c + M). pose proof (Rabs_pos c). repeat split; try lra.
    - rewrite Rmult_1_l. unfold Rmin. destruct (Rle_dec c x), (Rle_dec c y); unfold Rabs; repeat destruct Rcase_abs; lra.
    - unfold Rmin. destruct (Rle_dec c x); lra.
  Qed.
  Lemma cnear_add f g f' g' : cnear f f' -> cnear g g' -> cnear (fun t => cadd (f t) (g t)) (fun t => cadd (f' t) (g' t)).
  Proof. intros [A B] [C C']. split; unfold cadd; cbn [re im]; apply near_plus; auto. Qed.
  Lemma cnear_sub f g f' g' : cnear f f' -> cnear g g' -> cnear (fun t => csub (f t) (g t)) (fun t => csub (f' t) (g' t)).
  Proof. intros [A B] [C C']. split; unfold csub; cbn [re im]; apply near_minus; auto. Qed.
  Lemma cnear_mul f g f' g' : cnear f f' -> cnear g g' -> cnear (fun t => cmul (f t) (g t)) (fun t => cmul (f' t) (g' t)).
  Proof. intros [A B] [C C']. split; unfold cmul; cbn [re im]; [apply near_minus|apply near_plus]; apply near_mult; auto. Qed.
  Lemma cnear_conj f f' : cnear f f' -> cnear (fun t => conj (f t)) (fun t => conj (f' t)).
  Proof. intros [A B]. split; unfold conj; cbn [re im]; [auto|apply near_opp; auto]. Qed.
  Lemma cnear_scale h h' f f' : near h h' -> cnear f f' -> cnear (fun t => cscale (h t) (f t)) (fun t => cscale (h' t) (f' t)).
  Proof. intros H [A B]. split; unfold cscale; cbn [re im]; apply near_mult; auto. Qed.
  Lemma cnear_const c : cnear (fun _ => c) (fun _ => c).
  Proof. split; apply near_const. Qed.
  Lemma cnear_ext f g f' g' : (forall t, D t -> f t = f' t) -> (forall t, D t -> g t = g' t) -> cnear f' g' -> cnear f g.
  Proof. intros Hf Hg [A B]. split; [eapply near_ext; [| |exact A]|eapply near_ext; [| |exact B]]; intros t Ht; cbv beta; rewrite ?Hf, ?Hg by auto; reflexivity. Qed.
  Lemma near_if (c : X -> bool) f f' g g' : (forall t, 0 <= N t) -> near f f' -> near g g' ->
    near (fun t => if c t then f t else g t) (fun t => if c t then f' t else g' t).
  Proof.
    intros NP (K1 & M1 & A1 & B1 & H1) (K2 & M2 & A2 & B2 & H2). exists (K1 + K2), (M1 + M2).
    split; [lra|]. split; [lra|]. intros t Ht. destruct (H1 t Ht) as (X1 & Y1 & Z1). destruct (H2 t Ht) as (X2 & Y2 & Z2).
    pose proof (NP t). assert (0 <= K1 * N t) by (apply Rmult_le_pos; auto). assert (0 <= K2 * N t) by (apply Rmult_le_pos; auto).
    destruct (c t); repeat split; lra.
  Qed.
  (** the modulus of a pair *)
  Lemma near_norm f f' g g' : near f f' -> near g g' -> near (fun t => sqrt (f t * f t + g t * g t)) (fun t => sqrt (f' t * f' t + g' t * g' t)).
  Proof.
    intros (K1 & M1 & A1 & B1 & H1) (K2 & M2 & A2 & B2 & H2). exists (K1 + K2), (M1 + M2).
    assert (Tri : forall u v u' v' : R, sqrt (u * u + v * v) <= sqrt (u' * u' + v' * v') + Rabs (u - u') + Rabs (v - v')).
    { intros u v u' v'. pose proof (sqrt_pos (u' * u' + v' * v')) as S0. pose proof (Rabs_pos (u - u')) as P1. pose proof (Rabs_pos (v - v')) as P2.
      assert (Q : sqrt (u' * u' + v' * v') * sqrt (u' * u' + v' * v') = u' * u' + v' * v') by (apply sqrt_sqrt; pose proof (Rle_0_sqr u'); pose proof (Rle_0_sqr v'); unfold Rsqr in *; lra).
      assert (E1 : Rabs (u - u') * Rabs (u - u') = (u - u') * (u - u')) by (rewrite <- Rabs_mult; apply Rabs_pos_eq; apply Rle_0_sqr).
      assert (E2 : Rabs (v - v') * Rabs (v - v') = (v - v') * (v - v')) by (rewrite <- Rabs_mult; apply Rabs_pos_eq; apply Rle_0_sqr).
      assert (L1 : Rabs u' <= sqrt (u' * u' + v' * v')) by (rewrite <- sqrt_Rsqr_abs; apply sqrt_le_1_alt; pose proof (Rle_0_sqr v'); unfold Rsqr in *; lra).
      assert (L2 : Rabs v' <= sqrt (u' * u' + v' * v')) by (rewrite <- sqrt_Rsqr_abs; apply sqrt_le_1_alt; pose proof (Rle_0_sqr u'); unfold Rsqr in *; lra).
      set (S' := sqrt (u' * u' + v' * v')) in *.
      assert (C1 : u' * (u - u') <= S' * Rabs (u - u')) by (eapply Rle_trans; [apply Rle_abs|]; rewrite Rabs_mult; apply Rmult_le_compat_r; auto).
      assert (C2 : v' * (v - v') <= S' * Rabs (v - v')) by (eapply Rle_trans; [apply Rle_abs|]; rewrite Rabs_mult; apply Rmult_le_compat_r; auto).
      assert (0 <= Rabs (u - u') * Rabs (v - v')) by (apply Rmult_le_pos; auto).
      rewrite <- (sqrt_square (S' + Rabs (u - u') + Rabs (v - v'))) by lra. apply sqrt_le_1_alt. nra. }
    split; [lra|]. split; [lra|]. intros t Ht. destruct (H1 t Ht) as (X1 & Y1 & Z1). destruct (H2 t Ht) as (X2 & Y2 & Z2).
    pose proof (Tri (f t) (g t) (f' t) (g' t)) as T1. pose proof (Tri (f' t) (g' t) (f t) (g t)) as T2. rewrite (Rabs_minus_sym (f' t)), (Rabs_minus_sym (g' t)) in T2.
    pose proof (Tri (f t) (g t) 0 0) as T3. pose proof (Tri (f' t) (g' t) 0 0) as T4. rewrite !Rminus_0_r in T3, T4. replace (0 * 0 + 0 * 0) with 0 in T3, T4 by ring. rewrite sqrt_0 in T3, T4.
    split; [|split].
    - apply Rabs_le. lra.
    - rewrite Rabs_pos_eq by apply sqrt_pos. lra.
    - rewrite Rabs_pos_eq by apply sqrt_pos. lra.
  Qed.
End Pairs.
Arguments near {X}. Arguments cnear {X}.

(** Gronwall *)
Lemma gronwall (W dW : R -> R) a b K : W a = 0 -> (forall t, 0 <= W t) ->
  (forall t, a < t < b -> is_derive W t (dW t)) -> (forall t, a <= t <= b -> continuous W t) ->
  (forall t, a < t < b -> dW t <= K * W t) -> forall t, a <= t <= b -> W t = 0.
Proof.
  intros W0 Wp D C H t Ht.
  set (g := fun s => exp (- (K + 1) * (s - a))).
  assert (Dg : forall s, is_derive g s (- (K + 1) * g s)) by (intros s; unfold g; auto_derive; auto; unfold Rminus; ring).
  assert (Le : W t * g t <= exp (- 1 * (t - a)) * (W a * g a) + 0 / 1).
  { apply (comparison (fun s => W s * g s) (fun s => dW s * g s + W s * (- (K + 1) * g s)) a b 1 0); try lra.
    - intros s Hs. apply (is_derive_mult W g); auto. intros; apply Rmult_comm.
    - intros s Hs. apply (continuous_mult (K := R_AbsRing) W g); [apply C; auto|]. apply (ex_derive_continuous (V := R_NormedModule)). eexists. apply Dg.
    - intros s Hs. specialize (H s Hs). assert (0 < g s) by apply exp_pos. nra. }
  rewrite W0 in Le. assert (0 < g t) by apply exp_pos. specialize (Wp t).
  assert (W t * g t <= 0) by lra. nra.
Qed.

(** squared distance of two states over a list of variables *)
Fixpoint sumsq (l : list var) (y1 y2 : st) : R :=
  match l with [] => 0 | v :: l' => (y1 v - y2 v) * (y1 v - y2 v) + sumsq l' y1 y2 end.
Fixpoint dsumsq (l : list var) (y1 y2 f1 f2 : st) : R :=
  match l with [] => 0 | v :: l' => 2 * (y1 v - y2 v) * (f1 v - f2 v) + dsumsq l' y1 y2 f1 f2 end.
Lemma sumsq_pos l y1 y2 : 0 <= sumsq l y1 y2.
Proof. induction l as [|v l IH]; cbn [sumsq]; [lra|]. pose proof (Rle_0_sqr (y1 v - y2 v)). unfold Rsqr in *. lra. Qed.
Lemma sumsq_in l y1 y2 v : In v l -> Rabs (y1 v - y2 v) <= sqrt (sumsq l y1 y2).
Proof.
  intros H. rewrite <- sqrt_Rsqr_abs. apply sqrt_le_1_alt. unfold Rsqr.
  induction l as [|w l IH]; [destruct H|]. cbn [sumsq]. pose proof (sumsq_pos l y1 y2). pose proof (Rle_0_sqr (y1 w - y2 w)). unfold Rsqr in *.
  destruct H as [->|H]; [lra|]. specialize (IH H). lra.
Qed.
Lemma sumsq_zero l y1 y2 : sumsq l y1 y2 = 0 -> forall v, In v l -> y1 v = y2 v.
Proof.
  intros H v Hv. pose proof (sumsq_in l y1 y2 v Hv) as Q. rewrite H, sqrt_0 in Q. pose proof (Rabs_pos (y1 v - y2 v)).
  assert (E : Rabs (y1 v - y2 v) = 0) by lra. destruct (Req_dec (y1 v - y2 v) 0); [lra|]. apply Rabs_no_R0 in H1. lra.
Qed.
Lemma sumsq_same l y1 y2 : (forall v, In v l -> y1 v = y2 v) -> sumsq l y1 y2 = 0.
Proof. induction l as [|v l IH]; intros H; cbn [sumsq]; [reflexivity|]. rewrite IH by (intros; apply H; right; auto). rewrite (H v) by (left; auto). ring. Qed.

(** two solutions of one system that start together stay together, when the right-hand
    sides along them are near *)
Lemma unique_by_near l a b (Y1 Y2 F1 F2 : R -> st) :
  (forall v, In v l -> Y1 a v = Y2 a v) ->
  (forall t v, a < t < b -> In v l -> is_derive (fun s => Y1 s v) t (F1 t v) /\ is_derive (fun s => Y2 s v) t (F2 t v)) ->
  (forall t v, a <= t <= b -> In v l -> continuous (fun s => Y1 s v) t /\ continuous (fun s => Y2 s v) t) ->
  (forall v, In v l -> near (fun t => a < t < b) (fun t => sqrt (sumsq l (Y1 t) (Y2 t))) (fun t => F1 t v) (fun t => F2 t v)) ->
  forall t v, a <= t <= b -> In v l -> Y1 t v = Y2 t v.
Proof.
  intros H0 HD HC HN. set (N := fun t => sqrt (sumsq l (Y1 t) (Y2 t))) in *.
  assert (B : exists K, forall t, a < t < b -> dsumsq l (Y1 t) (Y2 t) (F1 t) (F2 t) <= K * sumsq l (Y1 t) (Y2 t)).
  { assert (Q : forall l', incl l' l -> exists K, forall t, a < t < b -> dsumsq l' (Y1 t) (Y2 t) (F1 t) (F2 t) <= K * sumsq l (Y1 t) (Y2 t)).
    { induction l' as [|v l' IH]; intros Hi.
      - exists 0. intros t Ht. cbn [dsumsq]. lra.
      - destruct IH as [K HK]; [intros x Hx; apply Hi; right; auto|]. destruct (HN v (Hi v (or_introl eq_refl))) as (Kv & M & A1 & _ & H).
        exists (2 * Kv + K). intros t Ht. cbn [dsumsq]. specialize (HK t Ht). destruct (H t Ht) as (X & _).
        pose proof (sumsq_in l (Y1 t) (Y2 t) v (Hi v (or_introl eq_refl))) as X2. fold (N t) in X2.
        pose proof (sumsq_pos l (Y1 t) (Y2 t)) as P. assert (NN : N t * N t = sumsq l (Y1 t) (Y2 t)) by (apply sqrt_sqrt; auto).
        assert (Rabs (Y1 t v - Y2 t v) * Rabs (F1 t v - F2 t v) <= N t * (Kv * N t)) by (apply Rmult_le_compat; auto; apply Rabs_pos).
        pose proof (Rle_abs ((Y1 t v - Y2 t v) * (F1 t v - F2 t v))) as R1. rewrite Rabs_mult in R1.
        replace (N t * (Kv * N t)) with (Kv * (N t * N t)) in H1 by ring. rewrite NN in H1. lra. }
    apply Q. apply incl_refl. }
  destruct B as [K HK]. intros t v Ht Hv. apply (sumsq_zero l); auto.
  apply (gronwall (fun s => sumsq l (Y1 s) (Y2 s)) (fun s => dsumsq l (Y1 s) (Y2 s) (F1 s) (F2 s)) a b K); auto.
  - apply sumsq_same. auto.
  - intros s. apply sumsq_pos.
  - intros s Hs. clear HN HK HC N Hv H0. induction l as [|w l IH]; cbn [sumsq dsumsq].
    + apply (is_derive_const (V := R_NormedModule) 0 s).
    + destruct (HD s w Hs (or_introl eq_refl)) as [D1 D2].
      assert (D : is_derive (fun q => Y1 q w - Y2 q w) s (F1 s w - F2 s w)) by (apply (is_derive_minus (V := R_NormedModule) (fun q => Y1 q w) (fun q => Y2 q w)); auto).
      assert (DD : is_derive (fun q => (Y1 q w - Y2 q w) * (Y1 q w - Y2 q w)) s (2 * (Y1 s w - Y2 s w) * (F1 s w - F2 s w))).
      { evar_last; [apply (is_derive_mult (fun q => Y1 q w - Y2 q w) (fun q => Y1 q w - Y2 q w)); [exact D|exact D|intros; apply Rmult_comm]|]. unfold plus, mult; simpl. ring. }
      apply (is_derive_plus (V := R_NormedModule) (fun q => (Y1 q w - Y2 q w) * (Y1 q w - Y2 q w)) (fun q => sumsq l (Y1 q) (Y2 q))); [exact DD|].
      apply IH. intros q x Hq Hx. apply HD; auto. right; auto.
  - intros s Hs. clear HN HK HD N Hv H0. induction l as [|w l IH]; cbn [sumsq].
    + apply continuous_const.
    + destruct (HC s w Hs (or_introl eq_refl)) as [D1 D2].
      assert (D : continuous (fun q => Y1 q w - Y2 q w) s) by (apply (continuous_minus (V := R_NormedModule) (fun q => Y1 q w) (fun q => Y2 q w)); auto).
      apply (continuous_plus (V := R_NormedModule) (fun q => (Y1 q w - Y2 q w) * (Y1 q w - Y2 q w)) (fun q => sumsq l (Y1 q) (Y2 q))).
      * apply (continuous_mult (K := R_AbsRing)); auto.
      * apply IH. intros q x Hq Hx. apply HC; auto. right; auto.
Qed.

(** a distance that starts at zero and cannot leave zero stays zero *)
Lemma no_departure (D : R -> R) a b : (forall t, a <= t <= b -> continuous D t) -> D a = 0 ->
  (forall T, a <= T < b -> D T = 0 -> exists h, 0 < h /\ T + h <= b /\ forall t, T <= t <= T + h -> D t = 0) ->
  forall t, a <= t <= b -> D t = 0.
Proof.
  intros HC H0 HS t0 Ht0.
  set (A := fun s => a <= s <= t0 /\ forall r, a <= r <= s -> D r = 0).
  assert (Aa : A a). { split; [lra|]. intros r Hr. replace r with a by lra. exact H0. }
  destruct (completeness A) as (T & HU & HL).
  - exists t0. intros s [Hs _]. lra.
  - exists a. exact Aa.
  - assert (aT : a <= T) by (apply HU; exact Aa). assert (Tt : T <= t0) by (apply HL; intros s [Hs _]; lra).
    assert (Before : forall r, a <= r < T -> D r = 0).
    { intros r Hr. destruct (Req_dec (D r) 0) as [|Hn]; auto. exfalso. assert (T <= r); [|lra]. apply HL. intros s [Hs As].
      destruct (Rle_lt_dec s r); auto. exfalso. apply Hn, As. lra. }
    assert (AtT : D T = 0).
    { destruct (Req_dec a T) as [<-|]; [exact H0|]. destruct (Req_dec (D T) 0) as [|Hn]; auto. exfalso.
      assert (CT : continuity_pt D T) by (apply continuity_pt_filterlim; apply HC; lra).
      destruct (CT (Rabs (D T))) as (d & Hd & Hdd); [apply Rabs_pos_lt; auto|].
      set (r := Rmax a (T - d / 2)). assert (a <= r < T) by (unfold r; split; [apply Rmax_l|apply Rmax_lub_lt; lra]).
      assert (T - d / 2 <= r) by apply Rmax_r.
      specialize (Hdd r). unfold dist, R_dist in Hdd. simpl in Hdd. unfold R_dist in Hdd. rewrite (Before r) in Hdd by auto.
      replace (0 - D T) with (- D T) in Hdd by ring. rewrite Rabs_Ropp in Hdd.
      assert (Rabs (D T) < Rabs (D T)); [|lra]. apply Hdd. split; [split; [exact I|lra]|]. apply Rabs_def1; lra. }
    destruct (Rle_lt_dec t0 T) as [Le|Lt]; [replace t0 with T by lra; exact AtT|]. exfalso.
    destruct (HS T) as (h & Hh & Hb & Hz); [lra|exact AtT|].
    assert (Rmin (T + h) t0 <= T); [|pose proof (Rmin_glb_lt (T + h) t0 T); lra]. apply HU. split.
    + split; [apply Rmin_glb; lra|apply Rmin_r].
    + intros r Hr. pose proof (Rmin_l (T + h) t0). destruct (Rlt_le_dec r T); [apply Before; lra|apply Hz; lra].
Qed.
