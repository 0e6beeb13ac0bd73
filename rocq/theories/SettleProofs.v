(** A damped complex pair under proportional-integral control of its filtered error:
    a quadratic function of the error that decays exponentially, whatever the
    rotation, and robustly against bounded disturbances.  Used in SettleProperties.v. *)
From Coquelicot Require Import Coquelicot.
From Verif Require Import RBase BoundProofs.
Import RBase.
Open Scope R_scope.

(** a quantity with W' <= - l W + c *)
Lemma comparison (W dW : R -> R) a b l c : 0 < l -> 0 <= c ->
  (forall t, a < t < b -> is_derive W t (dW t)) -> (forall t, a <= t <= b -> continuous W t) ->
  (forall t, a < t < b -> dW t <= - l * W t + c) ->
  forall t, a <= t <= b -> W t <= exp (- l * (t - a)) * W a + c / l.
Proof.
  intros Hl Hc D C H t Ht.
  assert (Hcl : 0 <= c / l) by (apply Rmult_le_pos; [lra|left; apply Rinv_0_lt_compat; auto]).
  destruct (Req_dec a t) as [<-|N].
  - rewrite Rminus_eq_0, Rmult_0_r, exp_0. lra.
  - set (g := fun s => exp (l * (s - a)) * (W s - c / l)).
    set (dg := fun s => l * exp (l * (s - a)) * (W s - c / l) + exp (l * (s - a)) * dW s).
    assert (De : forall s, is_derive (fun s => exp (l * (s - a))) s (l * exp (l * (s - a)))) by (intros s; auto_derive; [auto|unfold Rminus; ring]).
    destruct (mean_value g dg a t) as (x & Hx & E); [lra| | |].
    + intros s Hs. unfold g, dg.
      assert (Dw : is_derive (fun s => W s - c / l) s (dW s)).
      { pose proof (is_derive_minus (V := R_NormedModule) W (fun _ => c / l) s (dW s) 0 (D s ltac:(lra)) (is_derive_const _ _)) as K.
        evar_last; [exact K|]. unfold minus, plus, opp; simpl. ring. }
      pose proof (is_derive_mult (fun s => exp (l * (s - a))) (fun s => W s - c / l) s _ _ (De s) Dw (fun u v => Rmult_comm u v)) as K.
      evar_last; [exact K|]. unfold plus, mult; simpl. ring.
    + intros s Hs. unfold g. apply (continuous_mult (fun s => exp (l * (s - a))) (fun s => W s - c / l)).
      * apply (ex_derive_continuous (V := R_NormedModule) (fun s => exp (l * (s - a)))). eexists. apply De.
      * apply (continuous_minus (V := R_NormedModule) W (fun _ => c / l)); [apply C; lra|apply continuous_const].
    + assert (Hd : dg x <= 0).
      { unfold dg. specialize (H x ltac:(lra)). pose proof (exp_pos (l * (x - a))) as Pe.
        replace (l * exp (l * (x - a)) * (W x - c / l) + exp (l * (x - a)) * dW x) with (exp (l * (x - a)) * (l * W x - c + dW x)) by (field; lra).
        nra. }
      assert (G : g t <= g a) by nra. unfold g in G. rewrite Rminus_eq_0, Rmult_0_r, exp_0 in G.
      pose proof (exp_pos (l * (t - a))) as P1. pose proof (exp_pos (- l * (t - a))) as P2.
      assert (P3 : exp (- l * (t - a)) * exp (l * (t - a)) = 1).
      { rewrite <- exp_plus. replace (- l * (t - a) + l * (t - a)) with 0 by ring. apply exp_0. }
      pose proof (Rmult_le_compat_l _ _ _ (Rlt_le _ _ P2) G) as Q1. rewrite <- Rmult_assoc, P3 in Q1.
      assert (0 <= exp (- l * (t - a)) * (c / l)) by (apply Rmult_le_pos; lra). lra.
Qed.

Lemma young a1 a2 b1 b2 s q : 0 < s -> 1 <= 4 * s * q ->
  Rabs (a1 * b1 + a2 * b2) <= s * (a1 * a1 + a2 * a2) + q * (b1 * b1 + b2 * b2).
Proof.
  intros Hs Hq.
  assert (Y : forall a b, a * b <= s * (a * a) + q * (b * b) /\ - (a * b) <= s * (a * a) + q * (b * b)).
  { intros a b. assert (0 <= s * (a - b / (2 * s)) ^ 2) by (apply Rmult_le_pos; [lra|apply pow2_ge_0]).
    assert (0 <= s * (a + b / (2 * s)) ^ 2) by (apply Rmult_le_pos; [lra|apply pow2_ge_0]).
    replace (s * (a - b / (2 * s)) ^ 2) with (s * (a * a) - a * b + b * b * (/ (4 * s))) in * by (field; lra).
    replace (s * (a + b / (2 * s)) ^ 2) with (s * (a * a) + a * b + b * b * (/ (4 * s))) in * by (field; lra).
    assert (/ (4 * s) <= q). { apply Rmult_le_reg_l with (4 * s); [lra|]. rewrite Rinv_r by lra. lra. }
    assert (b * b * / (4 * s) <= q * (b * b)) by (pose proof (Rle_0_sqr b); unfold Rsqr in *; nra). lra. }
  destruct (Y a1 b1), (Y a2 b2). apply Rabs_le. split; lra.
Qed.

(** ** The derivative of the quadratic function *)
(** i: error of the current, u: filtered error, x: deviation of the integrator, d:
    voltage disturbance, r: deviation of the reference, y: reactance of the rotation *)
Section Quadratic.
Variables (L Rr Kp Ki w k G : R).
Hypothesis (HL : 0 < L) (HR : 0 < Rr) (HKp : 0 < Kp) (HKi : 0 < Ki) (Hw : 0 < w) (Hk : 0 < k) (HG : 0 <= G).
Hypothesis Hgain : Ki < Kp * w.
Let ka := Kp * w - Ki.
Let a1 := 2 * ((Rr + G) * (Rr + G)) / k + 2 * (G * G) / k + Ki * L / 2.
Let a2 := 2 * k * (Kp * Kp) + Ki * L / 2.
Let g := ka / Ki.
Variable e : R.
Hypothesis (He : 0 < e) (E1 : e <= 1) (Ea1 : e * a1 <= Kp * w * Rr / 4) (Ea2 : e * a2 <= k * ka * Kp / 4) (Eg : 8 * e * L <= k * g * (Kp * w)).

Definition quad (i1 i2 u1 u2 x1 x2 : R) : R :=
  (Kp * w * L * (i1 * i1 + i2 * i2) + k * ((Kp * u1 + x1) * (Kp * u1 + x1) + (Kp * u2 + x2) * (Kp * u2 + x2)) + k * (Kp * w - Ki) / Ki * (x1 * x1 + x2 * x2)) / 2
  - e * L * (i1 * x1 + i2 * x2).
Definition dquad (i1 i2 u1 u2 x1 x2 di1 di2 du1 du2 dx1 dx2 : R) : R :=
  Kp * w * L * (i1 * di1 + i2 * di2) + k * ((Kp * u1 + x1) * (Kp * du1 + dx1) + (Kp * u2 + x2) * (Kp * du2 + dx2)) + k * (Kp * w - Ki) / Ki * (x1 * dx1 + x2 * dx2)
  - e * L * (di1 * x1 + di2 * x2 + i1 * dx1 + i2 * dx2).
Definition Kd : R := (Kp * w) * (Kp * w) / (Kp * w * Rr) + 2 * e / k.
Definition Kr : R := (k * (Kp * Kp) * w) * (k * (Kp * Kp) * w) / (k * ka * Kp) + 2 * ((k * Kp * w) * (k * Kp * w)) / (e * k).

Lemma ka_pos : 0 < ka. Proof. unfold ka. lra. Qed.

Lemma quad_decay i1 i2 u1 u2 x1 x2 z y d1 d2 r1 r2 : 0 <= z <= G -> Rabs y <= G ->
  dquad i1 i2 u1 u2 x1 x2
    ((- (Rr + z) * i1 + y * i2 + k * (Kp * u1 + x1) - d1) / L) ((- (Rr + z) * i2 - y * i1 + k * (Kp * u2 + x2) - d2) / L)
    (w * (- u1 - i1 + r1)) (w * (- u2 - i2 + r2)) (Ki * u1) (Ki * u2)
  <= - (Kp * w * Rr / 2) * (i1 * i1 + i2 * i2) - (k * ka * Kp / 2) * (u1 * u1 + u2 * u2) - (3 * e * k / 8) * (x1 * x1 + x2 * x2)
     + Kd * (d1 * d1 + d2 * d2) + Kr * (r1 * r1 + r2 * r2).
Proof.
  intros Hz Hy. pose proof ka_pos as Hka.
  set (P := Kp * w * Rr). set (Q := k * ka * Kp). set (X := e * k).
  assert (HP : 0 < P) by (unfold P; repeat apply Rmult_lt_0_compat; auto).
  assert (HQ : 0 < Q) by (unfold Q; repeat apply Rmult_lt_0_compat; auto).
  assert (HX : 0 < X) by (unfold X; apply Rmult_lt_0_compat; auto).
  set (Ai := i1 * i1 + i2 * i2). set (Au := u1 * u1 + u2 * u2). set (Ax := x1 * x1 + x2 * x2).
  set (Ad := d1 * d1 + d2 * d2). set (Ar := r1 * r1 + r2 * r2).
  assert (E : dquad i1 i2 u1 u2 x1 x2
    ((- (Rr + z) * i1 + y * i2 + k * (Kp * u1 + x1) - d1) / L) ((- (Rr + z) * i2 - y * i1 + k * (Kp * u2 + x2) - d2) / L)
    (w * (- u1 - i1 + r1)) (w * (- u2 - i2 + r2)) (Ki * u1) (Ki * u2) =
    - (P + Kp * w * z) * Ai - Q * Au - X * Ax
    - (i1 * (Kp * w * d1) + i2 * (Kp * w * d2))
    + (u1 * (k * (Kp * Kp) * w * r1) + u2 * (k * (Kp * Kp) * w * r2))
    + (x1 * (k * Kp * w * r1) + x2 * (k * Kp * w * r2))
    + e * ((Rr + z) * i1 * x1 + (Rr + z) * i2 * x2)
    - e * (y * i2 * x1 + (- y * i1) * x2)
    - e * (k * Kp * u1 * x1 + k * Kp * u2 * x2)
    + e * (d1 * x1 + d2 * x2)
    - e * (Ki * L) * (i1 * u1 + i2 * u2)).
  { unfold dquad, P, Q, X, Ai, Au, Ax, ka. field. split; lra. }
  rewrite E. clear E.
  assert (Y1 := young i1 i2 (Kp * w * d1) (Kp * w * d2) (P / 4) (1 / P) ltac:(lra) ltac:(right; field; lra)).
  assert (Y2 := young u1 u2 (k * (Kp * Kp) * w * r1) (k * (Kp * Kp) * w * r2) (Q / 4) (1 / Q) ltac:(lra) ltac:(right; field; lra)).
  assert (Y3 := young x1 x2 (k * Kp * w * r1) (k * Kp * w * r2) (X / 8) (2 / X) ltac:(lra) ltac:(right; field; lra)).
  assert (Y4 := young x1 x2 ((Rr + z) * i1) ((Rr + z) * i2) (k / 8) (2 / k) ltac:(lra) ltac:(right; field; lra)).
  assert (Y5 := young x1 x2 (y * i2) (- y * i1) (k / 8) (2 / k) ltac:(lra) ltac:(right; field; lra)).
  assert (Y6 := young x1 x2 (k * Kp * u1) (k * Kp * u2) (k / 8) (2 / k) ltac:(lra) ltac:(right; field; lra)).
  assert (Y7 := young x1 x2 d1 d2 (k / 8) (2 / k) ltac:(lra) ltac:(right; field; lra)).
  assert (Y8 := young i1 i2 u1 u2 (1 / 2) (1 / 2) ltac:(lra) ltac:(lra)).
  assert (Habs : forall q, q <= Rabs q /\ - q <= Rabs q) by (intros q; split; [apply Rle_abs|rewrite <- Rabs_Ropp; apply Rle_abs]).
  assert (N4 : (Rr + z) * (Rr + z) <= (Rr + G) * (Rr + G)) by nra.
  assert (N5 : y * y <= G * G). { rewrite <- (Rabs_pos_eq G HG) in Hy. apply Rsqr_le_abs_1 in Hy. exact Hy. }
  assert (PAi : 0 <= Ai) by (unfold Ai; nra). assert (PAu : 0 <= Au) by (unfold Au; nra). assert (PAx : 0 <= Ax) by (unfold Ax; nra).
  (* the terms one by one *)
  assert (T1 : - (i1 * (Kp * w * d1) + i2 * (Kp * w * d2)) <= P / 4 * Ai + (Kp * w) * (Kp * w) / P * Ad).
  { eapply Rle_trans; [apply Habs|]. eapply Rle_trans; [exact Y1|]. right. unfold Ai, Ad. field. lra. }
  assert (T2 : u1 * (k * (Kp * Kp) * w * r1) + u2 * (k * (Kp * Kp) * w * r2) <= Q / 4 * Au + (k * (Kp * Kp) * w) * (k * (Kp * Kp) * w) / Q * Ar).
  { eapply Rle_trans; [apply Habs|]. eapply Rle_trans; [exact Y2|]. right. unfold Au, Ar. field. lra. }
  assert (T3 : x1 * (k * Kp * w * r1) + x2 * (k * Kp * w * r2) <= X / 8 * Ax + 2 * ((k * Kp * w) * (k * Kp * w)) / X * Ar).
  { eapply Rle_trans; [apply Habs|]. eapply Rle_trans; [exact Y3|]. right. unfold Ax, Ar. field. lra. }
  assert (T4 : e * ((Rr + z) * i1 * x1 + (Rr + z) * i2 * x2) <= X / 8 * Ax + e * (2 * ((Rr + G) * (Rr + G)) / k) * Ai).
  { apply Rle_trans with (e * (k / 8 * Ax + 2 / k * ((Rr + z) * (Rr + z) * Ai))).
    - apply Rmult_le_compat_l; [lra|]. eapply Rle_trans; [|eapply Rle_trans; [exact Y4|]]; [|right; unfold Ax, Ai; field; lra].
      eapply Rle_trans; [apply Habs|]. right. f_equal. ring.
    - apply Rle_trans with (e * (k / 8 * Ax + 2 / k * ((Rr + G) * (Rr + G) * Ai))).
      + apply Rmult_le_compat_l; [lra|]. apply Rplus_le_compat_l. apply Rmult_le_compat_l; [apply Rmult_le_pos; [lra|left; apply Rinv_0_lt_compat; auto]|].
        apply Rmult_le_compat_r; auto.
      + right. unfold X. field. lra. }
  assert (T5 : - (e * (y * i2 * x1 + (- y * i1) * x2)) <= X / 8 * Ax + e * (2 * (G * G) / k) * Ai).
  { apply Rle_trans with (e * (k / 8 * Ax + 2 / k * (y * y * Ai))).
    - replace (- (e * (y * i2 * x1 + (- y * i1) * x2))) with (e * - (y * i2 * x1 + (- y * i1) * x2)) by ring.
      apply Rmult_le_compat_l; [lra|]. eapply Rle_trans; [|eapply Rle_trans; [exact Y5|]]; [|right; unfold Ax, Ai; field; lra].
      eapply Rle_trans; [apply Habs|]. right. f_equal. ring.
    - apply Rle_trans with (e * (k / 8 * Ax + 2 / k * (G * G * Ai))).
      + apply Rmult_le_compat_l; [lra|]. apply Rplus_le_compat_l. apply Rmult_le_compat_l; [apply Rmult_le_pos; [lra|left; apply Rinv_0_lt_compat; auto]|].
        apply Rmult_le_compat_r; auto.
      + right. unfold X. field. lra. }
  assert (T6 : - (e * (k * Kp * u1 * x1 + k * Kp * u2 * x2)) <= X / 8 * Ax + e * (2 * k * (Kp * Kp)) * Au).
  { replace (- (e * (k * Kp * u1 * x1 + k * Kp * u2 * x2))) with (e * - (x1 * (k * Kp * u1) + x2 * (k * Kp * u2))) by ring.
    apply Rle_trans with (e * (k / 8 * Ax + 2 / k * (k * Kp * (k * Kp) * Au))); [|right; unfold X; field; lra].
    apply Rmult_le_compat_l; [lra|]. eapply Rle_trans; [|eapply Rle_trans; [exact Y6|]]; [|right; unfold Ax, Au; field; lra]. apply Habs. }
  assert (T7 : e * (d1 * x1 + d2 * x2) <= X / 8 * Ax + 2 * e / k * Ad).
  { replace (e * (d1 * x1 + d2 * x2)) with (e * (x1 * d1 + x2 * d2)) by ring.
    apply Rle_trans with (e * (k / 8 * Ax + 2 / k * Ad)); [|right; unfold X; field; lra].
    apply Rmult_le_compat_l; [lra|]. eapply Rle_trans; [|eapply Rle_trans; [exact Y7|]]; [|right; unfold Ax, Ad; field; lra]. apply Habs. }
  assert (T8 : - (e * (Ki * L) * (i1 * u1 + i2 * u2)) <= e * (Ki * L / 2) * (Ai + Au)).
  { replace (- (e * (Ki * L) * (i1 * u1 + i2 * u2))) with (e * (Ki * L) * - (i1 * u1 + i2 * u2)) by ring.
    apply Rle_trans with (e * (Ki * L) * (1 / 2 * Ai + 1 / 2 * Au)); [|right; field].
    apply Rmult_le_compat_l; [apply Rmult_le_pos; [lra|apply Rmult_le_pos; lra]|]. eapply Rle_trans; [|exact Y8]. apply Habs. }
  assert (T9 : 0 <= Kp * w * z * Ai) by (repeat apply Rmult_le_pos; lra).
  assert (T10 : e * a1 * Ai <= P / 4 * Ai) by (apply Rmult_le_compat_r; auto).
  assert (T11 : e * a2 * Au <= Q / 4 * Au) by (apply Rmult_le_compat_r; auto).
  assert (F1 : e * a1 * Ai = e * (2 * ((Rr + G) * (Rr + G)) / k) * Ai + e * (2 * (G * G) / k) * Ai + e * (Ki * L / 2) * Ai) by (unfold a1; ring).
  assert (F2 : e * a2 * Au = e * (2 * k * (Kp * Kp)) * Au + e * (Ki * L / 2) * Au) by (unfold a2; ring).
  unfold Kd, Kr. fold P Q X Ai Au Ax Ad Ar.
  replace (3 * e * k / 8) with (3 * X / 8) by (unfold X; field).
  rewrite F1 in T10. rewrite F2 in T11.
  generalize dependent (e * (2 * ((Rr + G) * (Rr + G)) / k)). generalize dependent (e * (2 * (G * G) / k)). generalize dependent (e * (2 * k * (Kp * Kp))). generalize dependent (e * (Ki * L / 2)).
  intros. lra.
Qed.

Definition c_up : R := Kp * w * L / 2 + k * (Kp * Kp) + k + k * ka / Ki / 2 + e * L / 2.
Lemma quad_upper i1 i2 u1 u2 x1 x2 :
  quad i1 i2 u1 u2 x1 x2 <= c_up * ((i1 * i1 + i2 * i2) + (u1 * u1 + u2 * u2) + (x1 * x1 + x2 * x2)).
Proof.
  pose proof ka_pos as Hka. unfold quad.
  set (Ai := i1 * i1 + i2 * i2). set (Au := u1 * u1 + u2 * u2). set (Ax := x1 * x1 + x2 * x2).
  assert (PAi : 0 <= Ai) by (unfold Ai; nra). assert (PAu : 0 <= Au) by (unfold Au; nra). assert (PAx : 0 <= Ax) by (unfold Ax; nra).
  pose proof (young i1 i2 x1 x2 (1/2) (1/2) ltac:(lra) ltac:(lra)) as Y. fold Ai Ax in Y.
  assert (Y' : - (i1 * x1 + i2 * x2) <= 1 / 2 * Ai + 1 / 2 * Ax) by (eapply Rle_trans; [|exact Y]; rewrite <- Rabs_Ropp; apply Rle_abs).
  assert (B1 : - (e * L * (i1 * x1 + i2 * x2)) <= e * L * (1 / 2 * Ai + 1 / 2 * Ax)).
  { replace (- (e * L * (i1 * x1 + i2 * x2))) with (e * L * - (i1 * x1 + i2 * x2)) by ring. apply Rmult_le_compat_l; auto. apply Rmult_le_pos; lra. }
  assert (B2 : (Kp * u1 + x1) * (Kp * u1 + x1) + (Kp * u2 + x2) * (Kp * u2 + x2) <= 2 * (Kp * Kp) * Au + 2 * Ax).
  { unfold Au, Ax. pose proof (Rle_0_sqr (Kp * u1 - x1)). pose proof (Rle_0_sqr (Kp * u2 - x2)). unfold Rsqr in *. lra. }
  assert (B3 : k * ((Kp * u1 + x1) * (Kp * u1 + x1) + (Kp * u2 + x2) * (Kp * u2 + x2)) <= k * (2 * (Kp * Kp) * Au + 2 * Ax)) by (apply Rmult_le_compat_l; lra).
  fold ka. unfold c_up.
  assert (H1 : 0 <= Kp * w * L) by (repeat apply Rmult_le_pos; lra).
  assert (H2 : 0 <= k * (Kp * Kp)) by (repeat apply Rmult_le_pos; lra).
  assert (H3 : 0 <= k * ka / Ki) by (apply Rmult_le_pos; [apply Rmult_le_pos; lra|left; apply Rinv_0_lt_compat; auto]).
  assert (H4 : 0 <= e * L) by (apply Rmult_le_pos; lra).
  replace (k * (2 * (Kp * Kp) * Au + 2 * Ax)) with (2 * (k * (Kp * Kp)) * Au + 2 * k * Ax) in B3 by ring.
  set (q1 := Kp * w * L) in *. set (q2 := k * (Kp * Kp)) in *. set (q3 := k * ka / Ki) in *. set (q4 := e * L) in *.
  assert (M : forall q A, 0 <= q -> 0 <= A -> 0 <= q * A) by (intros; apply Rmult_le_pos; auto).
  pose proof (M q1 Au H1 PAu). pose proof (M q1 Ax H1 PAx). pose proof (M q2 Ai H2 PAi). pose proof (M q2 Ax H2 PAx).
  pose proof (M k Ai ltac:(lra) PAi). pose proof (M k Au ltac:(lra) PAu). pose proof (M q3 Ai H3 PAi). pose proof (M q3 Au H3 PAu). pose proof (M q4 Au H4 PAu).
  lra.
Qed.
Definition c_low : R := Rmin (Kp * w * L / 4) (Rmin (k * (g / (2 + g)) * (Kp * Kp) / 2) (k * g / 8)).
Lemma g_pos : 0 < g. Proof. unfold g. apply Rdiv_lt_0_compat; [apply ka_pos|auto]. Qed.
Lemma c_low_pos : 0 < c_low.
Proof.
  pose proof g_pos as Hg. unfold c_low. repeat apply Rmin_pos.
  - apply Rdiv_lt_0_compat; [repeat apply Rmult_lt_0_compat; auto|lra].
  - apply Rdiv_lt_0_compat; [|lra]. apply Rmult_lt_0_compat; [apply Rmult_lt_0_compat; [auto|apply Rdiv_lt_0_compat; lra]|apply Rmult_lt_0_compat; auto].
  - apply Rdiv_lt_0_compat; [apply Rmult_lt_0_compat; auto|lra].
Qed.
Lemma quad_lower i1 i2 u1 u2 x1 x2 :
  c_low * ((i1 * i1 + i2 * i2) + (u1 * u1 + u2 * u2) + (x1 * x1 + x2 * x2)) <= quad i1 i2 u1 u2 x1 x2.
Proof.
  pose proof g_pos as Hg. pose proof ka_pos as Hka. unfold quad.
  set (Ai := i1 * i1 + i2 * i2). set (Au := u1 * u1 + u2 * u2). set (Ax := x1 * x1 + x2 * x2).
  assert (PAi : 0 <= Ai) by (unfold Ai; nra). assert (PAu : 0 <= Au) by (unfold Au; nra). assert (PAx : 0 <= Ax) by (unfold Ax; nra).
  fold ka. replace (k * ka / Ki) with (k * g) by (unfold g; field; lra).
  set (t := g / (2 + g)).
  assert (Ht : 0 < t < 1).
  { unfold t. split; [apply Rdiv_lt_0_compat; lra|]. apply Rmult_lt_reg_r with (2 + g); [lra|]. unfold Rdiv. rewrite Rmult_assoc, Rinv_l by lra. lra. }
  assert (Tg : g * (1 - t) = 2 * t) by (unfold t; field; lra).
  (* |a + b|^2 >= t |a|^2 - (g/2) |b|^2 *)
  assert (S1 : forall a b, t * (a * a) - g / 2 * (b * b) <= (a + b) * (a + b)).
  { intros a b. assert (Hsq : 0 <= (1 - t) * ((a + b / (1 - t)) * (a + b / (1 - t)))) by (apply Rmult_le_pos; [lra|apply Rle_0_sqr]).
    replace ((1 - t) * ((a + b / (1 - t)) * (a + b / (1 - t)))) with ((1 - t) * (a * a) + 2 * a * b + b * b / (1 - t)) in Hsq by (field; lra).
    assert (F : b * b / (1 - t) = b * b + g / 2 * (b * b)).
    { apply Rmult_eq_reg_r with (1 - t); [|lra]. unfold Rdiv at 1. rewrite Rmult_assoc, Rinv_l by lra.
      replace ((b * b + g / 2 * (b * b)) * (1 - t)) with (b * b * (1 - t) + (g * (1 - t)) / 2 * (b * b)) by field. rewrite Tg. field. }
    rewrite F in Hsq. lra. }
  pose proof (S1 (Kp * u1) x1) as A1. pose proof (S1 (Kp * u2) x2) as A2.
  assert (B : t * (Kp * Kp) * Au - g / 2 * Ax <= (Kp * u1 + x1) * (Kp * u1 + x1) + (Kp * u2 + x2) * (Kp * u2 + x2)) by (unfold Au, Ax; lra).
  apply (Rmult_le_compat_l k) in B; [|lra].
  (* cross term *)
  set (q1 := Kp * w * L) in *. assert (Hq1 : 0 < q1) by (unfold q1; repeat apply Rmult_lt_0_compat; auto).
  assert (Hkg : 0 < k * g) by (apply Rmult_lt_0_compat; auto).
  pose proof (young i1 i2 (e * L * x1) (e * L * x2) (q1 / 4) (1 / q1) ltac:(lra) ltac:(right; field; lra)) as Y.
  assert (C1 : e * L * (i1 * x1 + i2 * x2) <= q1 / 4 * Ai + k * g / 8 * Ax).
  { replace (e * L * (i1 * x1 + i2 * x2)) with (i1 * (e * L * x1) + i2 * (e * L * x2)) by ring.
    eapply Rle_trans; [apply Rle_abs|]. eapply Rle_trans; [exact Y|]. apply Rplus_le_compat_l.
    replace (1 / q1 * (e * L * x1 * (e * L * x1) + e * L * x2 * (e * L * x2))) with ((e * e * L * L / q1) * Ax) by (unfold Ax; field; lra).
    apply Rmult_le_compat_r; auto. apply Rmult_le_reg_r with q1; auto. unfold Rdiv at 1. rewrite Rmult_assoc, Rinv_l, Rmult_1_r by lra.
    unfold q1. assert (e * e * L <= e * L) by (apply Rmult_le_compat_r; [lra|]; rewrite <- (Rmult_1_r e) at 3; apply Rmult_le_compat_l; lra). replace (k * g / 8 * (Kp * w * L)) with (k * g * (Kp * w) / 8 * L) by field.
    replace (e * e * L * L) with ((e * e * L) * L) by ring. apply Rmult_le_compat_r; lra. }
  assert (Hc : c_low <= q1 / 4 /\ c_low <= k * t * (Kp * Kp) / 2 /\ c_low <= k * g / 8).
  { unfold c_low, t, q1. repeat split; [apply Rmin_l|eapply Rle_trans; [apply Rmin_r|apply Rmin_l]|eapply Rle_trans; [apply Rmin_r|apply Rmin_r]]. }
  destruct Hc as (H1 & H2 & H3).
  apply (Rmult_le_compat_r Ai) in H1; auto. apply (Rmult_le_compat_r Au) in H2; auto. apply (Rmult_le_compat_r Ax) in H3; auto.
  replace (k * (t * (Kp * Kp) * Au - g / 2 * Ax)) with (k * t * (Kp * Kp) * Au - k * g / 2 * Ax) in B by field.
  lra.
Qed.
End Quadratic.

(** ** Exponential decay, for every function that obeys the equations *)
Lemma settle L Rr Kp Ki w k G :
  0 < L -> 0 < Rr -> 0 < Kp -> 0 < Ki -> 0 < w -> 0 < k -> 0 <= G -> Ki < Kp * w ->
  exists C l, 0 < C /\ 0 < l /\
  forall (i1 i2 u1 u2 x1 x2 z y d1 d2 r1 r2 : R -> R) a b D,
  (forall t, a < t < b -> 0 <= z t <= G /\ Rabs (y t) <= G /\ d1 t * d1 t + d2 t * d2 t + (r1 t * r1 t + r2 t * r2 t) <= D) ->
  (forall t, a < t < b ->
     is_derive i1 t ((- (Rr + z t) * i1 t + y t * i2 t + k * (Kp * u1 t + x1 t) - d1 t) / L) /\
     is_derive i2 t ((- (Rr + z t) * i2 t - y t * i1 t + k * (Kp * u2 t + x2 t) - d2 t) / L) /\
     is_derive u1 t (w * (- u1 t - i1 t + r1 t)) /\ is_derive u2 t (w * (- u2 t - i2 t + r2 t)) /\
     is_derive x1 t (Ki * u1 t) /\ is_derive x2 t (Ki * u2 t)) ->
  (forall t, a <= t <= b -> continuous i1 t /\ continuous i2 t /\ continuous u1 t /\ continuous u2 t /\ continuous x1 t /\ continuous x2 t) ->
  0 <= D ->
  forall t, a <= t <= b ->
  (i1 t * i1 t + i2 t * i2 t) + (u1 t * u1 t + u2 t * u2 t) + (x1 t * x1 t + x2 t * x2 t) <=
  C * (exp (- l * (t - a)) * ((i1 a * i1 a + i2 a * i2 a) + (u1 a * u1 a + u2 a * u2 a) + (x1 a * x1 a + x2 a * x2 a)) + D).
Proof.
  intros HL HR HKp HKi Hw Hk HG Hgain.
  set (ka := Kp * w - Ki). assert (Hka : 0 < ka) by (unfold ka; lra).
  set (a1 := 2 * ((Rr + G) * (Rr + G)) / k + 2 * (G * G) / k + Ki * L / 2).
  set (a2 := 2 * k * (Kp * Kp) + Ki * L / 2).
  set (g := ka / Ki). assert (Hg : 0 < g) by (unfold g; apply Rdiv_lt_0_compat; auto).
  assert (Ha1 : 0 < a1).
  { unfold a1. assert (0 < 2 * ((Rr + G) * (Rr + G)) / k) by (apply Rdiv_lt_0_compat; auto; nra).
    assert (0 <= 2 * (G * G) / k) by (apply Rmult_le_pos; [nra|left; apply Rinv_0_lt_compat; auto]). assert (0 < Ki * L) by (apply Rmult_lt_0_compat; auto). lra. }
  assert (Ha2 : 0 < a2). { unfold a2. assert (0 < Kp * Kp) by (apply Rmult_lt_0_compat; auto). assert (0 < k * (Kp * Kp)) by (apply Rmult_lt_0_compat; auto). assert (0 < Ki * L) by (apply Rmult_lt_0_compat; auto). lra. }
  set (P := Kp * w * Rr / 4). set (Q := k * ka * Kp / 4). set (T := k * g * (Kp * w)).
  assert (HP : 0 < P) by (unfold P; apply Rdiv_lt_0_compat; [repeat apply Rmult_lt_0_compat; auto|lra]).
  assert (HQ : 0 < Q) by (unfold Q; apply Rdiv_lt_0_compat; [apply Rmult_lt_0_compat; [apply Rmult_lt_0_compat|]; auto|lra]).
  assert (HT : 0 < T) by (unfold T; apply Rmult_lt_0_compat; [|apply Rmult_lt_0_compat; auto]; apply Rmult_lt_0_compat; auto).
  set (e := Rmin 1 (Rmin (P / a1) (Rmin (Q / a2) (T / (8 * L))))).
  assert (He : 0 < e) by (unfold e; repeat apply Rmin_pos; [lra|apply Rdiv_lt_0_compat; lra..]).
  assert (E1 : e <= 1) by apply Rmin_l.
  assert (Dv : forall q A B, 0 < B -> q <= A / B -> q * B <= A) by (intros q A B HB Hq; apply (Rmult_le_compat_r B) in Hq; [|lra]; unfold Rdiv in Hq; rewrite Rmult_assoc, Rinv_l in Hq; lra).
  assert (Ea1 : e * a1 <= P) by (apply Dv; auto; eapply Rle_trans; [apply Rmin_r|apply Rmin_l]).
  assert (Ea2 : e * a2 <= Q) by (apply Dv; auto; eapply Rle_trans; [apply Rmin_r|eapply Rle_trans; [apply Rmin_r|apply Rmin_l]]).
  assert (Eg : 8 * e * L <= T).
  { replace (8 * e * L) with (e * (8 * L)) by ring. apply Dv; [lra|]. eapply Rle_trans; [apply Rmin_r|eapply Rle_trans; [apply Rmin_r|apply Rmin_r]]. }
  clearbody e.
  set (cl := c_low L Kp Ki w k). set (cu := c_up L Kp Ki w k e).
  assert (Hcl : 0 < cl) by (apply c_low_pos; auto).
  assert (Hcu : 0 < cu).
  { unfold cu, c_up. fold ka. assert (0 < Kp * w * L) by (repeat apply Rmult_lt_0_compat; auto). assert (0 < k * (Kp * Kp)) by (repeat apply Rmult_lt_0_compat; auto).
    assert (0 < k * ka / Ki) by (apply Rdiv_lt_0_compat; auto; apply Rmult_lt_0_compat; auto). assert (0 < e * L) by (apply Rmult_lt_0_compat; auto). lra. }
  set (mu := Rmin (2 * P) (Rmin (2 * Q) (3 * e * k / 8))).
  assert (Hmu : 0 < mu). { unfold mu. repeat apply Rmin_pos; try lra. apply Rdiv_lt_0_compat; [|lra]. apply Rmult_lt_0_compat; auto. lra. }
  set (l := mu / cu). assert (Hl : 0 < l) by (apply Rdiv_lt_0_compat; auto).
  set (K := Rmax (Kd Rr Kp w k e) (Kr Kp Ki w k e)).
  assert (HK : 0 < K).
  { eapply Rlt_le_trans; [|apply Rmax_l]. unfold Kd. assert (0 < Kp * w) by (apply Rmult_lt_0_compat; auto).
    assert (0 < Kp * w * (Kp * w) / (Kp * w * Rr)) by (apply Rdiv_lt_0_compat; apply Rmult_lt_0_compat; auto).
    assert (0 < 2 * e / k) by (apply Rdiv_lt_0_compat; lra). lra. }
  exists (Rmax (cu / cl) (K / l / cl)), l.
  split. { eapply Rlt_le_trans; [|apply Rmax_l]. apply Rdiv_lt_0_compat; auto. }
  split; [exact Hl|].
  intros i1 i2 u1 u2 x1 x2 z y d1 d2 r1 r2 a b D Hb HD HC HD0 t Ht.
  set (N := fun t => (i1 t * i1 t + i2 t * i2 t) + (u1 t * u1 t + u2 t * u2 t) + (x1 t * x1 t + x2 t * x2 t)).
  set (W := fun t => quad L Kp Ki w k e (i1 t) (i2 t) (u1 t) (u2 t) (x1 t) (x2 t)).
  set (dW := fun t => dquad L Kp Ki w k e (i1 t) (i2 t) (u1 t) (u2 t) (x1 t) (x2 t)
    ((- (Rr + z t) * i1 t + y t * i2 t + k * (Kp * u1 t + x1 t) - d1 t) / L) ((- (Rr + z t) * i2 t - y t * i1 t + k * (Kp * u2 t + x2 t) - d2 t) / L)
    (w * (- u1 t - i1 t + r1 t)) (w * (- u2 t - i2 t + r2 t)) (Ki * u1 t) (Ki * u2 t)).
  assert (PN : forall t, 0 <= N t) by (intros s; unfold N; nra).
  assert (WU : forall t, W t <= cu * N t) by (intros s; apply quad_upper; auto).
  assert (WL : forall t, cl * N t <= W t) by (intros s; apply (quad_lower L Kp Ki w k HL HKp HKi Hw Hk Hgain e); auto).
  assert (dWb : forall t, a < t < b -> dW t <= - l * W t + K * D).
  { intros s Hs. destruct (Hb s Hs) as (Hz & Hy & Hd).
    eapply Rle_trans; [apply (quad_decay L Rr Kp Ki w k G); auto|].
    fold ka. set (Ai := i1 s * i1 s + i2 s * i2 s). set (Au := u1 s * u1 s + u2 s * u2 s). set (Ax := x1 s * x1 s + x2 s * x2 s).
    set (Ad := d1 s * d1 s + d2 s * d2 s) in *. set (Ar := r1 s * r1 s + r2 s * r2 s) in *.
    assert (PAi : 0 <= Ai) by (unfold Ai; nra). assert (PAu : 0 <= Au) by (unfold Au; nra). assert (PAx : 0 <= Ax) by (unfold Ax; nra).
    assert (PAd : 0 <= Ad) by (unfold Ad; nra). assert (PAr : 0 <= Ar) by (unfold Ar; nra).
    assert (M1 : mu <= Kp * w * Rr / 2). { eapply Rle_trans; [apply Rmin_l|]. unfold P. lra. }
    assert (M2 : mu <= k * ka * Kp / 2). { eapply Rle_trans; [apply Rmin_r|]. eapply Rle_trans; [apply Rmin_l|]. unfold Q. lra. }
    assert (M3 : mu <= 3 * e * k / 8). { eapply Rle_trans; [apply Rmin_r|]. apply Rmin_r. }
    apply (Rmult_le_compat_r Ai) in M1; auto. apply (Rmult_le_compat_r Au) in M2; auto. apply (Rmult_le_compat_r Ax) in M3; auto.
    assert (K1 : Kd Rr Kp w k e * Ad <= K * Ad) by (apply Rmult_le_compat_r; auto; apply Rmax_l).
    assert (K2 : Kr Kp Ki w k e * Ar <= K * Ar) by (apply Rmult_le_compat_r; auto; apply Rmax_r).
    assert (K3 : K * (Ad + Ar) <= K * D) by (apply Rmult_le_compat_l; lra).
    assert (LW : l * W s <= mu * N s).
    { apply Rle_trans with (l * (cu * N s)); [apply Rmult_le_compat_l; [lra|apply WU]|]. right. unfold l. field. lra. }
    unfold N in LW. fold Ai Au Ax in LW. rewrite Rmult_plus_distr_l in K3. lra. }
  assert (DW : forall s, a < s < b -> is_derive W s (dW s)).
  { intros s Hs. destruct (HD s Hs) as (D1 & D2 & D3 & D4 & D5 & D6). unfold W, dW, quad, dquad.
    revert D1 D2 D3 D4 D5 D6.
    generalize ((- (Rr + z s) * i1 s + y s * i2 s + k * (Kp * u1 s + x1 s) - d1 s) / L) as e1, ((- (Rr + z s) * i2 s - y s * i1 s + k * (Kp * u2 s + x2 s) - d2 s) / L) as e2,
      (w * (- u1 s - i1 s + r1 s)) as e3, (w * (- u2 s - i2 s + r2 s)) as e4, (Ki * u1 s) as e5, (Ki * u2 s) as e6.
    intros e1 e2 e3 e4 e5 e6 D1 D2 D3 D4 D5 D6.
    auto_derive.
    - repeat split; eexists; eassumption.
    - assert (Q1 : Derive (fun x0 => i1 x0) s = e1) by exact (is_derive_unique _ _ _ D1).
      assert (Q2 : Derive (fun x0 => i2 x0) s = e2) by exact (is_derive_unique _ _ _ D2).
      assert (Q3 : Derive (fun x0 => u1 x0) s = e3) by exact (is_derive_unique _ _ _ D3).
      assert (Q4 : Derive (fun x0 => u2 x0) s = e4) by exact (is_derive_unique _ _ _ D4).
      assert (Q5 : Derive (fun x0 => x1 x0) s = e5) by exact (is_derive_unique _ _ _ D5).
      assert (Q6 : Derive (fun x0 => x2 x0) s = e6) by exact (is_derive_unique _ _ _ D6).
      rewrite Q1, Q2, Q3, Q4, Q5, Q6.
      field. lra. }
  assert (CW : forall s, a <= s <= b -> continuous W s).
  { intros s Hs. destruct (HC s Hs) as (C1 & C2 & C3 & C4 & C5 & C6).
    assert (Cm : forall f h : R -> R, continuous f s -> continuous h s -> continuous (fun t => f t * h t) s) by (intros f h Cf Ch; apply (continuous_mult f h); auto).
    assert (Cp : forall f h : R -> R, continuous f s -> continuous h s -> continuous (fun t => f t + h t) s) by (intros f h Cf Ch; apply (continuous_plus (V := R_NormedModule) f h); auto).
    assert (Cs : forall f h : R -> R, continuous f s -> continuous h s -> continuous (fun t => f t - h t) s) by (intros f h Cf Ch; apply (continuous_minus (V := R_NormedModule) f h); auto).
    assert (Cc : forall c : R, continuous (fun _ : R => c) s) by (intros c; apply continuous_const).
    unfold W, quad, Rdiv.
    repeat first [ apply Cs | apply Cp | apply Cm | apply Cc | assumption ]. }
  pose proof (comparison W dW a b l (K * D) Hl ltac:(apply Rmult_le_pos; lra) DW CW dWb t Ht) as F.
  fold (N t). fold (N a).
  assert (F2 : cl * N t <= exp (- l * (t - a)) * (cu * N a) + K * D / l).
  { eapply Rle_trans; [apply WL|]. eapply Rle_trans; [exact F|]. apply Rplus_le_compat_r. apply Rmult_le_compat_l; [left; apply exp_pos|apply WU]. }
  apply Rmult_le_reg_l with cl; auto. eapply Rle_trans; [exact F2|].
  set (m := Rmax (cu / cl) (K / l / cl)). set (x := exp (- l * (t - a)) * N a).
  assert (Hx : 0 <= x) by (unfold x; apply Rmult_le_pos; [left; apply exp_pos|apply PN]).
  assert (m1 : cu <= cl * m). { apply Rle_trans with (cl * (cu / cl)); [right; field; lra|]. apply Rmult_le_compat_l; [lra|apply Rmax_l]. }
  assert (m2 : K / l <= cl * m). { apply Rle_trans with (cl * (K / l / cl)); [right; field; lra|]. apply Rmult_le_compat_l; [lra|apply Rmax_r]. }
  apply (Rmult_le_compat_r x) in m1; auto. apply (Rmult_le_compat_r D) in m2; auto.
  replace (exp (- l * (t - a)) * (cu * N a)) with (cu * x) by (unfold x; ring). replace (K * D / l) with (K / l * D) by (field; lra). lra.
Qed.
