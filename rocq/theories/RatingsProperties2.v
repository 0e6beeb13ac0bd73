(** Property C84: what a converged steady-state calculation means. *)
From Verif Require Import RBase CxField PhasorModel PVModel ODEModel PhasorProperties PhasorProperties2 RatingsModel RatingsProperties.
Open Scope R_scope.

(** * C84: a small error means a solution of the circuit *)
Lemma sq_bound x y eps : 0 <= eps -> 0 <= y -> x ^ 2 + y <= eps ^ 2 -> Rabs x <= eps.
Proof. intros He Hy H. apply Rabs_le. split; nra. Qed.

(** Per-phase power, in per unit. *)
Definition power (v i : cx) : cx := cscale (1/2) (cmul v (conj i)).
Definition total_power (v i : phase -> cx) : cx := cadd (cadd (power (v PA) (i PA)) (power (v PB) (i PB))) (power (v PC) (i PC)).

(** Single phase: error at most eps^2 bounds the active power mismatch at the
    inverter, the reactive power mismatch at the PCC and the voltage mismatch over
    the filter by eps. *)
Theorem C84_single_phase_residuals :
  forall p e Zf o x eps, 0 <= eps -> error1 p e Zf o (unk1 x) <= eps ^ 2 ->
  let m := Cx (x 0%nat) (x 1%nat) in let i := Cx (x 2%nat) (x 3%nat) in
  let vt := cscale (op_Vdc o / 2) m in let v := v_calc p e PA i in
  Rabs (re (power vt i) - op_Ppv o) <= eps /\ Rabs (im (power v i) - op_Qref o) <= eps /\
  cabs (csub (csub vt v) (cmul i Zf)) <= eps.
Proof.
  intros p e Zf o x eps He H m i vt v. unfold error1 in H.
  change (k_i (unk1 x) PA) with i in H. change (k_vt o (unk1 x) PA) with vt in H. change (k_v p e (unk1 x) PA) with v in H.
  change (half_S) with power in H. change (k_drop p e Zf o (unk1 x) PA) with (csub (csub vt v) (cmul i Zf)) in H.
  set (a := re (power vt i) - op_Ppv o) in *. set (b := im (power v i) - op_Qref o) in *.
  pose proof (cabs_nonneg (csub (csub vt v) (cmul i Zf))). set (d := cabs _) in *. clearbody a b d.
  repeat split.
  - apply (sq_bound a (b ^ 2 + 0 + d ^ 2)); nra.
  - apply (sq_bound b (a ^ 2 + 0 + d ^ 2)); nra.
  - rewrite <- (Rabs_right d) by lra. apply (sq_bound d (a ^ 2 + b ^ 2)); nra.
Qed.
Print Assumptions C84_single_phase_residuals.

Lemma m_error_nonneg p e ub o u : 0 <= m_error p e ub o u.
Proof.
  unfold m_error. destruct ub; [apply pow2_ge_0|].
  repeat apply Rplus_le_le_0_compat; apply pow2_ge_0.
Qed.
(** Three phases, with balanced or free duty cycles; in addition the currents
    add up to at most eps. *)
Theorem C84_three_phase_residuals :
  forall p e Zf ub o x eps, 0 <= eps -> error3 p e Zf ub o (unk3 ub x) <= eps ^ 2 ->
  exists m i : phase -> cx,
  (m PA = Cx (x 0%nat) (x 1%nat) /\ i PA = Cx (x 2%nat) (x 3%nat)) /\
  (if ub then m PB = Cx (x 4%nat) (x 5%nat) /\ i PB = Cx (x 6%nat) (x 7%nat) /\ m PC = Cx (x 8%nat) (x 9%nat) /\ i PC = Cx (x 10%nat) (x 11%nat)
   else forall k, m k = rot k (m PA) /\ i k = rot k (i PA)) /\
  let vt k := cscale (op_Vdc o / 2) (m k) in let v k := v_calc p e k (i k) in
  Rabs (re (total_power vt i) - op_Ppv o) <= eps /\ Rabs (im (total_power v i) - op_Qref o) <= eps /\
  (forall k, cabs (csub (csub (vt k) (v k)) (cmul (i k) Zf)) <= eps) /\
  cabs (cadd (cadd (i PA) (i PB)) (i PC)) <= eps.
Proof.
  intros p e Zf ub o x eps He H. exists (k_m (unk3 ub x)), (k_i (unk3 ub x)).
  split; [destruct ub; split; reflexivity|]. split; [destruct ub; [repeat split; reflexivity|intros []; split; reflexivity]|].
  cbv zeta. set (u := unk3 ub x) in *. clearbody u. unfold error3 in H.
  assert (ES : forall v, S_sum v u = total_power v (k_i u)).
  { intros v. unfold S_sum, total_power, half_S, power. apply cx_eq; cbn [re im cadd cscale cmul]; ring. }
  rewrite !ES in H.
  change (fun k => cscale (op_Vdc o / 2) (k_m u k)) with (k_vt o u). change (fun k => v_calc p e k (k_i u k)) with (k_v p e u).
  pose proof (m_error_nonneg p e ub o u) as M. set (mm := m_error p e ub o u) in *. clearbody mm.
  change (sum3 (k_i u)) with (cadd (cadd (k_i u PA) (k_i u PB)) (k_i u PC)) in H.
  set (a := re _ - op_Ppv o) in *. set (b := im _ - op_Qref o) in *.
  pose proof (cabs_nonneg (cadd (cadd (k_i u PA) (k_i u PB)) (k_i u PC))). set (s := cabs (cadd (cadd (k_i u PA) (k_i u PB)) (k_i u PC))) in *.
  assert (D : forall k, 0 <= cabs (k_drop p e Zf o u k)) by (intros; apply cabs_nonneg).
  pose proof (D PA) as D1. pose proof (D PB) as D2. pose proof (D PC) as D3. clear D.
  set (d1 := cabs (k_drop p e Zf o u PA)) in *. set (d2 := cabs (k_drop p e Zf o u PB)) in *. set (d3 := cabs (k_drop p e Zf o u PC)) in *.
  assert (T : s + d1 + d2 + d3 <= eps).
  { rewrite <- (Rabs_right (s + d1 + d2 + d3)) by lra. apply (sq_bound (s + d1 + d2 + d3) (a ^ 2 + b ^ 2 + mm)); [lra| |nra].
    pose proof (pow2_ge_0 a). pose proof (pow2_ge_0 b). lra. }
  split; [|split; [|split]].
  - apply (sq_bound a (b ^ 2 + mm + (s + d1 + d2 + d3) ^ 2)); [lra| |lra].
    pose proof (pow2_ge_0 (s + d1 + d2 + d3)). pose proof (pow2_ge_0 b). lra.
  - apply (sq_bound b (a ^ 2 + mm + (s + d1 + d2 + d3) ^ 2)); [lra| |lra].
    pose proof (pow2_ge_0 (s + d1 + d2 + d3)). pose proof (pow2_ge_0 a). lra.
  - intros k. change (cabs (k_drop p e Zf o u k) <= eps). destruct k; fold d1 d2 d3; lra.
  - lra.
Qed.
Print Assumptions C84_three_phase_residuals.

(** The modulation term does not get in the way: for balanced duty cycles other
    than zero it vanishes. *)
Lemma cexp_inj a b : 0 <= a < 2 * PI -> 0 <= b < 2 * PI -> cexp a = cexp b -> a = b.
Proof.
  intros Ha Hb E. pose proof (f_equal re E) as E1. pose proof (f_equal im E) as E2. unfold cexp in *. cbn [re im] in *.
  assert (C : cos (a - b) = 1). { rewrite cos_minus, E1, E2. pose proof (sin2_cos2 b). unfold Rsqr in *. lra. }
  assert (Hd : - (2 * PI) < a - b < 2 * PI) by lra. set (d := a - b) in *.
  assert (Z : sin (d / 2) = 0).
  { assert (C2 : cos (2 * (d / 2)) = 1) by (replace (2 * (d / 2)) with d by field; auto). rewrite cos_2a_sin in C2. nra. }
  assert (d = 0); [|unfold d in *; lra].
  pose proof PI_RGT_0.
  destruct (Rtotal_order d 0) as [L|[L|L]]; auto.
  - assert (0 < sin (- (d / 2))) by (apply sin_gt_0; lra). rewrite sin_neg in *. lra.
  - assert (0 < sin (d / 2)) by (apply sin_gt_0; lra). lra.
Qed.
Lemma rel_phase_rot u th d : u <> Cx 0 0 -> 0 <= th < 2 * PI -> cmul u (cexp d) = cmul u (cexp (- th)) ->
  relative_phase_calc u (cmul u (cexp d)) false = th.
Proof.
  intros Hu Hth Hd. rewrite Hd. destruct (C67_relative_phase u (cmul u (cexp (- th)))) as (R1 & _ & R2).
  set (x := relative_phase_calc _ _ _) in *. clearbody x. apply cexp_inj; auto.
  assert (N : 0 < cnorm2 u) by (now apply cnorm2_pos).
  rewrite cabs_mul, cabs_cexp, Rmult_1_r, cabs_sq in R2. rewrite conj_mul in R2.
  assert (E : cmul u (cmul (conj u) (conj (cexp (- th)))) = cscale (cnorm2 u) (cexp th)).
  { unfold cexp, conj, cmul, cscale, cnorm2. cbn [re im]. rewrite cos_neg, sin_neg. apply cx_eq; cbn [re im]; ring. }
  rewrite E in R2. pose proof (f_equal re R2) as E1. pose proof (f_equal im R2) as E2. cbn [re im cscale] in *.
  apply cx_eq; [apply (Rmult_eq_reg_l (cnorm2 u)); auto; lra | apply (Rmult_eq_reg_l (cnorm2 u)); auto; lra].
Qed.
Theorem C84_balanced_modulation_term :
  forall p e o x, Cx (x 0%nat) (x 1%nat) <> Cx 0 0 -> m_error p e false o (unk3 false x) = 0.
Proof.
  intros p e o x Hm. unfold m_error. set (m := Cx (x 0%nat) (x 1%nat)) in *. cbn [unk3 k_m]. fold m. cbv zeta.
  pose proof PI_RGT_0 as HP. cbn [rot].
  assert (P120 : PHASE_120 = 2/3 * PI) by (unfold PHASE_120; field).
  assert (A1 : relative_phase_calc m (Ub_calc m) false = 2/3 * PI).
  { unfold Ub_calc. apply rel_phase_rot; auto; [lra|]. do 2 f_equal. ring. }
  assert (A2 : relative_phase_calc m (Uc_calc m) false = 4/3 * PI).
  { unfold Uc_calc. apply rel_phase_rot; auto; [lra|]. f_equal. rewrite cexp_p. unfold cexp. rewrite cos_neg, sin_neg.
    pose proof cexp_4 as E4. unfold cexp in E4. pose proof (f_equal re E4) as E41. pose proof (f_equal im E4) as E42. cbn [re im] in *.
    rewrite E41, E42. f_equal. ring. }
  assert (A3 : relative_phase_calc (Ub_calc m) (Uc_calc m) false = 2/3 * PI).
  { assert (EU : Uc_calc m = cmul (Ub_calc m) (cexp (4/3 * PI))).
    { unfold Uc_calc, Ub_calc. rewrite cexp_4, cexp_p, cexp_m. 
      assert (E2 : Cx (- (1/2)) w3 = cmul (Cx (- (1/2)) (- w3)) (Cx (- (1/2)) (- w3))).
      { pose proof w3_sq as W. unfold cmul. apply cx_eq; cbn [re im]; lra. }
      rewrite E2. ring. }
    rewrite EU. apply rel_phase_rot; [|lra|].
    - intros Z. assert (0 < cnorm2 m) by (now apply cnorm2_pos). unfold Ub_calc in Z. apply (f_equal cnorm2) in Z.
      rewrite cnorm2_mul, cnorm2_cexp in Z. unfold cnorm2 at 2 in Z. cbn [re im] in Z. lra.
    - f_equal. rewrite cexp_4_3. f_equal. ring. }
  assert (B : cabs (Ub_calc m) = cabs m /\ cabs (Uc_calc m) = cabs m).
  { unfold Ub_calc, Uc_calc. rewrite !cabs_mul, !cabs_cexp. lra. }
  destruct B as [B1 B2]. rewrite A1, A2, A3, B1, B2, P120. unfold fold_angle.
  assert (F1 : rlt PI (2/3 * PI) = false) by (apply rlt_false; lra). assert (F2 : rlt PI (4/3 * PI) = true) by (apply rlt_iff; lra).
  rewrite F1, F2. rewrite Rabs_left by lra.
  replace (2/3 * PI - 2/3 * PI) with 0 by lra. replace (- (4/3 * PI - 2 * PI) - 2/3 * PI) with 0 by lra.
  replace (cabs m - cabs m) with 0 by lra. simpl. lra.
Qed.
Print Assumptions C84_balanced_modulation_term.

