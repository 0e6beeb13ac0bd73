(** Two facts about functions of one real variable, used for the trajectory-level
    bounds in BoundProperties.v. *)
From Coquelicot Require Import Coquelicot.
From Verif Require Import RBase.
Import RBase.
Open Scope R_scope.

(** mean value theorem with two-sided derivatives inside and continuity on the
    closed interval *)
Lemma mean_value (f df : R -> R) a b : a < b ->
  (forall t, a < t < b -> is_derive f t (df t)) -> (forall t, a <= t <= b -> continuous f t) ->
  exists c, a < c < b /\ f b - f a = df c * (b - a).
Proof.
  intros Hab D C.
  assert (Pr : forall t, a < t < b -> derivable_pt f t).
  { intros t Ht. apply ex_derive_Reals_0. eexists; apply D; auto. }
  assert (Pr2 : forall t, a < t < b -> derivable_pt id t) by (intros; apply derivable_pt_id).
  destruct (MVT f id a b Pr Pr2 Hab) as (t & Hc & M).
  { intros; apply continuity_pt_filterlim, C; auto. } { intros; apply derivable_continuous_pt, derivable_pt_id. }
  exists t. split; auto. unfold id in M at 1 2.
  rewrite (Derive_Reals f t (Pr t Hc)) in M. rewrite (is_derive_unique _ _ _ (D t Hc)) in M.
  replace (derive_pt id t (Pr2 t Hc)) with 1 in M by (symmetry; apply derive_pt_eq_0, derivable_pt_lim_id).
  lra.
Qed.

(** A function that cannot increase while it is above M stays below M. *)
Lemma barrier (f df : R -> R) a b M :
  (forall t, a < t < b -> is_derive f t (df t)) -> (forall t, a <= t <= b -> continuous f t) ->
  (forall t, a < t < b -> M < f t -> df t <= 0) -> f a <= M ->
  forall t, a <= t <= b -> f t <= M.
Proof.
  intros D C N H0 t Ht. apply Rnot_lt_le. intros Hbad.
  set (S := fun s => a <= s <= t /\ f s <= M).
  assert (Sb : bound S) by (exists t; intros s [Hs _]; lra).
  assert (Se : exists s, S s) by (exists a; split; lra).
  destruct (completeness S Sb Se) as (s0 & U & L).
  assert (s0a : a <= s0) by (apply U; split; lra).
  assert (s0t : s0 <= t) by (apply L; intros s [Hs _]; lra).
  assert (F0 : f s0 <= M).
  { apply Rnot_lt_le. intros K.
    assert (Cs : continuity_pt f s0) by (apply continuity_pt_filterlim, C; lra).
    destruct (Cs (f s0 - M)) as (d & Hd & Hc); [lra|]. cbn in Hc. unfold R_dist in Hc.
    assert (UB : is_upper_bound S (s0 - d / 2)).
    { intros s [Hs Fs]. apply Rnot_lt_le. intros Hlt.
      assert (s <= s0) by (apply U; split; auto).
      destruct (Req_dec s s0) as [->|Hne]; [lra|].
      assert (Rabs (f s - f s0) < f s0 - M).
      { apply Hc. split; [unfold D_x, no_cond; split; auto|]. apply Rabs_def1; lra. }
      apply Rabs_def2 in H1. lra. }
    specialize (L _ UB). lra. }
  assert (s0 < t) by (destruct s0t as [|E]; [auto|rewrite <- E in Hbad; lra]).
  destruct (mean_value f df s0 t) as (c & Hc & E); auto.
  { intros; apply D; lra. } { intros; apply C; lra. }
  assert (M < f c).
  { apply Rnot_le_lt. intros K. assert (c <= s0); [|lra]. apply U. split; [lra|auto]. }
  assert (df c <= 0) by (apply N; auto; lra). nra.
Qed.

(** two-sided version *)
Lemma barrier_abs (f df : R -> R) a b M :
  (forall t, a < t < b -> is_derive f t (df t)) -> (forall t, a <= t <= b -> continuous f t) ->
  (forall t, a < t < b -> M < Rabs (f t) -> df t * f t <= 0) -> Rabs (f a) <= M ->
  forall t, a <= t <= b -> Rabs (f t) <= M.
Proof.
  intros D C N H0 t Ht. pose proof (Rabs_pos (f a)) as P0.
  pose proof (Rle_abs (f a)) as P1. pose proof (Rle_abs (- f a)) as P2. rewrite Rabs_Ropp in P2.
  apply Rabs_le. split.
  - apply Ropp_le_cancel. rewrite Ropp_involutive.
    apply (barrier (fun s => - f s) (fun s => - df s) a b M); auto; try lra.
    + intros s Hs. apply (is_derive_opp (V := R_NormedModule) f). auto.
    + intros s Hs. apply (continuous_opp (V := R_NormedModule)). auto.
    + intros s Hs Hm. cbv beta in *. assert (K : M < Rabs (f s)) by (rewrite <- Rabs_Ropp; pose proof (Rle_abs (- f s)); lra).
      specialize (N s Hs K). nra.
  - apply (barrier f df a b M); auto; try lra.
    intros s Hs Hm. assert (K : M < Rabs (f s)) by (pose proof (Rle_abs (f s)); lra).
    specialize (N s Hs K). nra.
Qed.

(** A damped, rotating pair driven by a bounded input: the norm decays at the rate
    R/L towards the ratio of the input bound and the damping, whatever the rotation. *)
Lemma damped_pair (L Rr D : R) (r q f g w : R -> R) a b : 0 < L -> 0 < Rr -> 0 <= D ->
  (forall t, a < t < b -> is_derive r t (1 / L * (- Rr * r t + f t) + w t * q t)) ->
  (forall t, a < t < b -> is_derive q t (1 / L * (- Rr * q t + g t) - w t * r t)) ->
  (forall t, a <= t <= b -> continuous r t) -> (forall t, a <= t <= b -> continuous q t) ->
  (forall t, a < t < b -> f t * f t + g t * g t <= D * D) ->
  forall t, a <= t <= b ->
  sqrt (r t * r t + q t * q t) <= D / Rr + (sqrt (r a * r a + q a * q a) - D / Rr) * exp (- (Rr / L * (t - a))).
Proof.
  intros HL HR HD Dr Dq Cr Cq Hin t Ht.
  destruct (Req_dec a t) as [<-|Hne].
  { rewrite Rminus_eq_0, Rmult_0_r, Ropp_0, exp_0. lra. }
  assert (Hat : a < t) by lra.
  apply le_epsilon. intros eps He.
  set (k := Rr / L). assert (Hk : 0 < k) by (apply Rdiv_lt_0_compat; auto).
  set (n := fun s => r s * r s + q s * q s).
  set (z := fun s => sqrt (n s + eps * eps)).
  assert (Npos : forall s, 0 <= n s) by (intros; unfold n; nra).
  assert (Zpos : forall s, 0 < n s + eps * eps) by (intros; specialize (Npos s); nra).
  assert (Zp : forall s, eps <= z s).
  { intros s. unfold z. rewrite <- (sqrt_square eps) at 1 by lra. apply sqrt_le_1_alt. specialize (Npos s); lra. }
  set (c := D / Rr + eps).
  set (h := fun s => (z s - c) * exp (k * s)).
  set (dn := fun s => 2 * (r s * (1 / L * (- Rr * r s + f s) + w s * q s) + q s * (1 / L * (- Rr * q s + g s) - w s * r s))).
  set (dh := fun s => (dn s / (2 * z s)) * exp (k * s) + (z s - c) * (k * exp (k * s))).
  assert (Dn : forall s, a < s < b -> is_derive n s (dn s)).
  { intros s Hs. unfold n, dn. evar_last.
    - apply (is_derive_plus (V := R_NormedModule) (fun s => r s * r s) (fun s => q s * q s)).
      + apply (is_derive_mult r r); [apply Dr; auto|apply Dr; auto|intros; apply Rmult_comm].
      + apply (is_derive_mult q q); [apply Dq; auto|apply Dq; auto|intros; apply Rmult_comm].
    - unfold plus, mult. simpl. ring. }
  assert (Dz : forall s, a < s < b -> is_derive z s (dn s / (2 * z s))).
  { intros s Hs. unfold z. evar_last.
    - apply (is_derive_sqrt (fun s => n s + eps * eps)); [|apply Zpos].
      apply (is_derive_plus (V := R_NormedModule) n (fun _ => eps * eps)); [apply Dn; auto|apply (is_derive_const (eps * eps))].
    - unfold plus, zero. simpl. rewrite Rplus_0_r. reflexivity. }
  assert (Dexp : forall s, is_derive (fun s => exp (k * s)) s (k * exp (k * s))).
  { intros s. auto_derive; auto. ring. }
  assert (Dh : forall s, a < s < t -> is_derive h s (dh s)).
  { intros s Hs. unfold h, dh. evar_last.
    - apply (is_derive_mult (fun s => z s - c) (fun s => exp (k * s))).
      + apply (is_derive_minus (V := R_NormedModule) z (fun _ => c)); [apply Dz; lra|apply (is_derive_const c)].
      + apply Dexp.
      + intros; apply Rmult_comm.
    - unfold plus, mult, minus, opp, zero. simpl. unfold plus. simpl. rewrite Ropp_0, Rplus_0_r. reflexivity. }
  assert (Ch : forall s, a <= s <= t -> continuous h s).
  { intros s Hs. unfold h. apply (continuous_mult (fun s => z s - c) (fun s => exp (k * s))).
    - apply (continuous_minus (V := R_NormedModule) z (fun _ => c)); [|apply continuous_const].
      unfold z. apply (continuous_comp (fun s => n s + eps * eps) sqrt).
      + apply (continuous_plus (V := R_NormedModule) n (fun _ => eps * eps)); [|apply continuous_const].
        unfold n. apply (continuous_plus (V := R_NormedModule) (fun s => r s * r s) (fun s => q s * q s)).
        * apply (continuous_mult r r); apply Cr; lra.
        * apply (continuous_mult q q); apply Cq; lra.
      + apply continuity_pt_filterlim, continuity_pt_sqrt. specialize (Zpos s). lra.
    - apply (ex_derive_continuous (V := R_NormedModule) (fun s => exp (k * s))). eexists. apply Dexp. }
  destruct (mean_value h dh a t Hat Dh Ch) as (s & Hs & E).
  assert (Neg : dh s <= 0).
  { unfold dh. assert (Zs := Zp s). assert (Ns := Npos s).
    assert (Zsq : z s * z s = n s + eps * eps) by (apply sqrt_sqrt; specialize (Zpos s); lra).
    assert (CS : r s * f s + q s * g s <= D * z s).
    { assert (Hfg : f s * f s + g s * g s <= D * D) by (apply Hin; lra).
      apply Rsqr_incr_0_var; [|assert (0 <= z s) by lra; nra]. unfold Rsqr.
      apply (Rle_trans _ (n s * (f s * f s + g s * g s))).
      - unfold n. pose proof (pow2_ge_0 (r s * g s - q s * f s)). nra.
      - replace (D * z s * (D * z s)) with ((z s * z s) * (D * D)) by ring. rewrite Zsq.
        apply Rmult_le_compat; nra. }
    assert (Edn : dn s = 2 / L * (- Rr * n s + (r s * f s + q s * g s))).
    { unfold dn, n. field. lra. }
    assert (B : dn s / (2 * z s) <= k * (c - z s)).
    { rewrite Edn. unfold k, c. apply (Rmult_le_reg_r (2 * z s * L)); [nra|].
      replace (2 / L * (- Rr * n s + (r s * f s + q s * g s)) / (2 * z s) * (2 * z s * L))
        with (2 * (- Rr * n s + (r s * f s + q s * g s))) by (field; lra).
      replace (Rr / L * (D / Rr + eps - z s) * (2 * z s * L))
        with (2 * (D * z s + Rr * eps * z s - Rr * (z s * z s))) by (field; lra).
      rewrite Zsq. assert (Rr * (eps * eps) <= Rr * eps * z s) by (rewrite Rmult_assoc; apply Rmult_le_compat_l; nra). nra. }
    pose proof (exp_pos (k * s)) as Pe.
    replace (dn s / (2 * z s) * exp (k * s) + (z s - c) * (k * exp (k * s)))
      with ((dn s / (2 * z s) - k * (c - z s)) * exp (k * s)) by ring.
    apply Rmult_le_0_r; lra. }
  assert (Mon : h t <= h a) by nra.
  unfold h in Mon.
  assert (Ex : exp (k * a) = exp (k * t) * exp (- (k * (t - a)))) by (rewrite <- exp_plus; f_equal; ring).
  pose proof (exp_pos (k * t)) as Pt. pose proof (exp_pos (- (k * (t - a)))) as Pd.
  rewrite Ex in Mon. rewrite <- Rmult_assoc, (Rmult_comm (z a - c)), Rmult_assoc, (Rmult_comm (z t - c)) in Mon.
  apply Rmult_le_reg_l in Mon; [|auto].
  assert (Zt : sqrt (r t * r t + q t * q t) <= z t) by (unfold z, n; apply sqrt_le_1_alt; nra).
  assert (Za : z a <= sqrt (r a * r a + q a * q a) + eps).
  { unfold z, n. rewrite <- (sqrt_square (sqrt (r a * r a + q a * q a) + eps)).
    - apply sqrt_le_1_alt. pose proof (sqrt_pos (r a * r a + q a * q a)).
      rewrite Rmult_plus_distr_r, !Rmult_plus_distr_l, sqrt_sqrt by nra. nra.
    - pose proof (sqrt_pos (r a * r a + q a * q a)). lra. }
  unfold c in Mon. set (e := exp (- (k * (t - a)))) in *. nra.
Qed.
