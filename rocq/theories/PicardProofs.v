(** Existence of solutions: a system of differential equations whose right-hand side is
    Lipschitz in time and state on a box around the initial state has a solution for a
    positive time (Picard iteration). *)
From Coquelicot Require Import Coquelicot.
From Verif Require Import RBase PhasorModel ODEModel.
Import RBase.
Open Scope R_scope.

Lemma lip_cont (f : R -> R) L : (forall s t, Rabs (f s - f t) <= L * Rabs (s - t)) -> forall t, continuous f t.
Proof.
  intros H t. apply continuity_pt_filterlim. intros eps He.
  assert (LP : 0 < Rabs L + 1) by (pose proof (Rabs_pos L); lra).
  exists (eps / (Rabs L + 1)). split; [apply Rdiv_lt_0_compat; auto|]. intros x [_ Hx]. simpl in Hx |- *. unfold R_dist in *.
  eapply Rle_lt_trans; [apply H|]. pose proof (Rabs_pos (x - t)). pose proof (Rle_abs L).
  apply Rle_lt_trans with ((Rabs L + 1) * Rabs (x - t)); [apply Rmult_le_compat_r; lra|].
  replace eps with ((Rabs L + 1) * (eps / (Rabs L + 1))) by (field; lra). apply Rmult_lt_compat_l; auto.
Qed.
Lemma cont_int (f : R -> R) s t : (forall x, continuous f x) -> ex_RInt f s t.
Proof. intros H. apply (ex_RInt_continuous (V := R_CompleteNormedModule)). intros; apply H. Qed.
(** the integral, as a plain real number *)
Definition integ (f : R -> R) (s t : R) : R := RInt f s t.
Lemma int_bound (f : R -> R) s t M : (forall x, continuous f x) -> (forall x, Rmin s t <= x <= Rmax s t -> Rabs (f x) <= M) -> Rabs (integ f s t) <= M * Rabs (t - s).
Proof.
  unfold integ.   intros Hc HM. destruct (Rle_lt_dec s t) as [Le|Lt].
  - rewrite (Rabs_pos_eq (t - s)) by lra. rewrite Rmult_comm. apply abs_RInt_le_const; auto; [apply cont_int; auto|].
    intros x Hx. apply HM. rewrite Rmin_left, Rmax_right; lra.
  - rewrite (Rabs_left (t - s)) by lra. rewrite <- (opp_RInt_swap (V := R_CompleteNormedModule) f t s) by (apply cont_int; auto). unfold opp; simpl.
    rewrite Rabs_Ropp, Rmult_comm. replace (- (t - s)) with (s - t) by ring. apply abs_RInt_le_const; [lra|apply cont_int; auto|].
    intros x Hx. apply HM. rewrite Rmin_right, Rmax_left; lra.
Qed.
Lemma int_diff (f : R -> R) a s t : (forall x, continuous f x) -> integ f a t - integ f a s = integ f s t.
Proof.
  unfold integ.   intros H. pose proof (RInt_Chasles (V := R_CompleteNormedModule) f a s t (cont_int f a s H) (cont_int f s t H)) as E.
  unfold plus in E; simpl in E. lra.
Qed.
Lemma int_minus (f g : R -> R) s t : (forall x, continuous f x) -> (forall x, continuous g x) -> integ f s t - integ g s t = integ (fun x => f x - g x) s t.
Proof. intros Hf Hg. symmetry. exact (RInt_minus (V := R_CompleteNormedModule) f g s t (cont_int f s t Hf) (cont_int g s t Hg)). Qed.
(** a sequence with geometrically decreasing steps *)
Lemma geometric (u : nat -> R) r : 0 <= r -> (forall n, Rabs (u (Datatypes.S n) - u n) <= r * (1/2) ^ n) ->
  forall n, Rabs (real (Lim_seq u) - u n) <= 2 * r * (1/2) ^ n.
Proof.
  intros Hr H.
  assert (HP : forall n, 0 < (1/2) ^ n) by (intros; apply pow_lt; lra).
  assert (K : forall n k, Rabs (u (k + n)%nat - u n) <= 2 * r * ((1/2) ^ n - (1/2) ^ (k + n))).
  { intros n k. induction k as [|k IH]; [cbn [plus]; rewrite !Rminus_eq_0, Rabs_R0; lra|].
    cbn [Nat.add]. replace (u (Datatypes.S (k + n)) - u n) with ((u (Datatypes.S (k + n)) - u (k + n)%nat) + (u (k + n)%nat - u n)) by ring.
    eapply Rle_trans; [apply Rabs_triang|]. specialize (H (k + n)%nat). cbn [pow]. lra. }
  assert (Small : forall eps : posreal, exists n0, forall n, (n0 <= n)%nat -> 2 * r * (1/2) ^ n < eps).
  { intros eps. assert (Hq : Rabs (1/2) < 1) by (rewrite Rabs_pos_eq; lra).
    assert (D : 0 < eps / (2 * r + 1)) by (apply Rdiv_lt_0_compat; [apply eps|lra]).
    destruct (pow_lt_1_zero (1/2) Hq _ D) as (n0 & Hn). exists n0. intros n Hn'.
    specialize (Hn n Hn'). rewrite Rabs_pos_eq in Hn by (left; apply HP). pose proof (HP n).
    apply Rle_lt_trans with ((2 * r + 1) * (1/2) ^ n); [apply Rmult_le_compat_r; lra|].
    replace (pos eps) with ((2 * r + 1) * (eps / (2 * r + 1))) by (field; lra). apply Rmult_lt_compat_l; lra. }
  assert (Ca : ex_finite_lim_seq u).
  { apply ex_lim_seq_cauchy_corr. intros eps. destruct (Small eps) as (n0 & Hn0). exists n0.
    assert (Q : forall n m, (n0 <= n)%nat -> (n <= m)%nat -> Rabs (u n - u m) < eps).
    { intros n m Hn Hm. rewrite Rabs_minus_sym. replace m with ((m - n) + n)%nat by (apply Nat.sub_add; auto).
      eapply Rle_lt_trans; [apply K|]. specialize (Hn0 n Hn). pose proof (HP (m - n + n)%nat).
      assert (0 <= 2 * r * (1/2) ^ (m - n + n)) by (apply Rmult_le_pos; lra). lra. }
    intros n m Hn Hm. destruct (Nat.le_ge_cases n m); [apply Q; auto|]. rewrite Rabs_minus_sym. apply Q; auto. }
  apply Lim_seq_correct' in Ca. apply is_lim_seq_spec in Ca. cbn [is_lim_seq'] in Ca.
  intros n. apply le_epsilon. intros eps He. destruct (Ca (mkposreal eps He)) as (n1 & Hn1). cbn [pos] in Hn1.
  specialize (Hn1 (n1 + n)%nat (Nat.le_add_r _ _)). specialize (K n n1). pose proof (HP (n1 + n)%nat).
  assert (0 <= 2 * r * (1/2) ^ (n1 + n)) by (apply Rmult_le_pos; lra).
  replace (real (Lim_seq u) - u n) with (- (u (n1 + n)%nat - real (Lim_seq u)) + (u (n1 + n)%nat - u n)) by ring.
  eapply Rle_trans; [apply Rabs_triang|]. rewrite Rabs_Ropp. lra.
Qed.

Section Picard.
  Variables (F : R -> st -> var -> R) (a : R) (y0 : st) (r tau K B : R).
  Hypothesis (Hr : 0 < r) (Htau : 0 < tau) (HK : 0 <= K) (HB : 0 <= B).
  Definition in_box (y : st) : Prop := forall v, Rabs (y v - y0 v) <= r.
  Hypothesis HL : forall t1 t2 y1 y2 N, Rabs (t1 - a) <= tau -> Rabs (t2 - a) <= tau -> in_box y1 -> in_box y2 ->
    Rabs (t1 - t2) <= N -> (forall v, Rabs (y1 v - y2 v) <= N) -> forall v, Rabs (F t1 y1 v - F t2 y2 v) <= K * N.
  Hypothesis HBd : forall t y v, Rabs (t - a) <= tau -> in_box y -> Rabs (F t y v) <= B.
  Definition width : R := Rmin tau (Rmin (r / (B + 1)) (/ (2 * (K + 1)))).
  Lemma width_pos : 0 < width.
  Proof. unfold width. repeat apply Rmin_glb_lt; auto; [apply Rdiv_lt_0_compat; lra|apply Rinv_0_lt_compat; lra]. Qed.
  Lemma width_tau : width <= tau. Proof. apply Rmin_l. Qed.
  Lemma width_r : B * width <= r.
  Proof.
    assert (H : width <= r / (B + 1)) by (eapply Rle_trans; [apply Rmin_r|apply Rmin_l]). pose proof width_pos.
    apply Rle_trans with ((B + 1) * width); [apply Rmult_le_compat_r; lra|].
    assert (E : (B + 1) * (r / (B + 1)) = r) by (field; lra). rewrite <- E. apply Rmult_le_compat_l; lra.
  Qed.
  Lemma width_K : K * width <= 1/2.
  Proof.
    assert (H : width <= / (2 * (K + 1))) by (eapply Rle_trans; [apply Rmin_r|apply Rmin_r]). pose proof width_pos.
    apply Rle_trans with ((K + 1) * width); [apply Rmult_le_compat_r; lra|].
    assert (E : (K + 1) * (/ (2 * (K + 1))) = 1/2) by (field; lra). rewrite <- E. apply Rmult_le_compat_l; lra.
  Qed.
  (** time kept within the interval *)
  Definition clamp (t : R) : R := Rmax (a - width) (Rmin (a + width) t).
  Lemma clamp_in t : Rabs (clamp t - a) <= width.
  Proof. pose proof width_pos. unfold clamp, Rmax, Rmin. repeat destruct Rle_dec; apply Rabs_le; lra. Qed.
  Lemma clamp_id t : Rabs (t - a) <= width -> clamp t = t.
  Proof. intros H. apply Rabs_le_between in H. unfold clamp, Rmax, Rmin. repeat destruct Rle_dec; lra. Qed.
  Lemma clamp_lip s t : Rabs (clamp s - clamp t) <= Rabs (s - t).
  Proof. unfold clamp, Rmax, Rmin. repeat destruct Rle_dec; unfold Rabs; repeat destruct Rcase_abs; lra. Qed.
  Lemma clamp_clamp t : clamp (clamp t) = clamp t.
  Proof. apply clamp_id, clamp_in. Qed.
  (** functions with values in the box that move no faster than B *)
  Definition good (Y : R -> st) : Prop := (forall t, in_box (Y t)) /\ (forall s t v, Rabs (Y s v - Y t v) <= B * Rabs (s - t)).
  Definition rate (Y : R -> st) (v : var) (s : R) : R := F (clamp s) (Y (clamp s)) v.
  Lemma rate_cont Y v : good Y -> forall s, continuous (rate Y v) s.
  Proof.
    intros [G1 G2]. apply (lip_cont (rate Y v) (K * (B + 1))). intros s t. unfold rate. rewrite Rmult_assoc. apply HL; auto.
    - eapply Rle_trans; [apply clamp_in|apply width_tau].
    - eapply Rle_trans; [apply clamp_in|apply width_tau].
    - eapply Rle_trans; [apply clamp_lip|]. pose proof (Rabs_pos (s - t)). rewrite <- (Rmult_1_l (Rabs (s - t))) at 1. apply Rmult_le_compat_r; lra.
    - intros w. eapply Rle_trans; [apply G2|]. pose proof (Rabs_pos (clamp s - clamp t)). pose proof (clamp_lip s t). apply Rmult_le_compat; lra.
  Qed.
  Lemma rate_bound Y v s : good Y -> Rabs (rate Y v s) <= B.
  Proof. intros [G1 _]. apply HBd; auto. eapply Rle_trans; [apply clamp_in|apply width_tau]. Qed.
  Definition step (Y : R -> st) : R -> st := fun t v => y0 v + integ (rate Y v) a (clamp t).
  Lemma step_good Y : good Y -> good (step Y).
  Proof.
    intros G. split.
    - intros t v. unfold step. replace (y0 v + integ (rate Y v) a (clamp t) - y0 v) with (integ (rate Y v) a (clamp t)) by ring.
      eapply Rle_trans; [apply (int_bound _ _ _ B); [apply rate_cont; auto|intros; apply rate_bound; auto]|].
      eapply Rle_trans; [|apply width_r]. apply Rmult_le_compat_l; auto. apply clamp_in.
    - intros s t v. unfold step. replace (y0 v + integ (rate Y v) a (clamp s) - (y0 v + integ (rate Y v) a (clamp t))) with (integ (rate Y v) a (clamp s) - integ (rate Y v) a (clamp t)) by ring.
      rewrite int_diff by (apply rate_cont; auto).
      eapply Rle_trans; [apply (int_bound _ _ _ B); [apply rate_cont; auto|intros; apply rate_bound; auto]|].
      apply Rmult_le_compat_l; auto. apply clamp_lip.
  Qed.
  Lemma step_contract Y Z d : good Y -> good Z -> (forall t v, Rabs (Y t v - Z t v) <= d) ->
    forall t v, Rabs (step Y t v - step Z t v) <= d / 2.
  Proof.
    intros GY GZ Hd t v. unfold step.
    assert (Hd0 : 0 <= d) by (eapply Rle_trans; [apply Rabs_pos|apply (Hd 0 VDC)]).
    replace (y0 v + integ (rate Y v) a (clamp t) - (y0 v + integ (rate Z v) a (clamp t))) with (integ (rate Y v) a (clamp t) - integ (rate Z v) a (clamp t)) by ring.
    rewrite int_minus by (apply rate_cont; auto).
    eapply Rle_trans; [apply (int_bound _ _ _ (K * d))|].
    - intros x. apply (continuous_minus (V := R_NormedModule) (rate Y v) (rate Z v)); apply rate_cont; auto.
    - intros x _. unfold rate. change (Rabs (F (clamp x) (Y (clamp x)) v - F (clamp x) (Z (clamp x)) v) <= K * d).
      assert (Q : Rabs (clamp x - a) <= tau) by (eapply Rle_trans; [apply clamp_in|apply width_tau]). apply HL; auto; try apply GY; try apply GZ.
      rewrite Rminus_eq_0, Rabs_R0. auto.
    - replace (K * d * Rabs (clamp t - a)) with (d * (K * Rabs (clamp t - a))) by ring. replace (d / 2) with (d * (1/2)) by field.
      apply Rmult_le_compat_l; auto. eapply Rle_trans; [|apply width_K]. apply Rmult_le_compat_l; auto. apply clamp_in.
  Qed.
  Fixpoint iter (n : nat) : R -> st := match n with O => fun _ => y0 | Datatypes.S n' => step (iter n') end.
  Lemma iter_good n : good (iter n).
  Proof.
    induction n as [|n IH]; cbn [iter]; [|apply step_good; auto]. split.
    - intros t v. rewrite Rminus_eq_0, Rabs_R0. lra.
    - intros s t v. rewrite Rminus_eq_0, Rabs_R0. apply Rmult_le_pos; auto. apply Rabs_pos.
  Qed.
  Lemma iter_step n : forall t v, Rabs (iter (Datatypes.S n) t v - iter n t v) <= r * (1/2) ^ n.
  Proof.
    induction n as [|n IH]; intros t v.
    - cbn [pow]. rewrite Rmult_1_r. apply (proj1 (iter_good 1)).
    - cbn [pow]. replace (r * (1 / 2 * (1/2) ^ n)) with ((r * (1/2) ^ n) / 2) by field.
      change (iter (Datatypes.S (Datatypes.S n))) with (step (iter (Datatypes.S n))). change (iter (Datatypes.S n) t v) with (step (iter n) t v).
      apply step_contract; auto using iter_good.
  Qed.
  Definition sol (t : R) : st := fun v => real (Lim_seq (fun n => iter n t v)).
  Lemma sol_near n t v : Rabs (sol t v - iter n t v) <= 2 * r * (1/2) ^ n.
  Proof. apply (geometric (fun n => iter n t v)); [lra|]. intros k. apply iter_step. Qed.
  Lemma small_all c x : (forall n, x <= c * (1/2) ^ n) -> x <= 0.
  Proof.
    intros H. apply le_epsilon. intros eps He. rewrite Rplus_0_l.
    assert (Hq : Rabs (1/2) < 1) by (rewrite Rabs_pos_eq; lra). assert (CP : 0 < Rabs c + 1) by (pose proof (Rabs_pos c); lra).
    assert (D : 0 < eps / (Rabs c + 1)) by (apply Rdiv_lt_0_compat; auto).
    destruct (pow_lt_1_zero (1/2) Hq _ D) as (n & Hn). specialize (Hn n (le_n n)). specialize (H n).
    assert (HP : 0 < (1/2) ^ n) by (apply pow_lt; lra). rewrite Rabs_pos_eq in Hn by lra.
    eapply Rle_trans; [exact H|]. apply Rle_trans with ((Rabs c + 1) * (1/2) ^ n); [apply Rmult_le_compat_r; [lra|pose proof (Rle_abs c); lra]|].
    replace eps with ((Rabs c + 1) * (eps / (Rabs c + 1))) by (field; lra). apply Rmult_le_compat_l; lra.
  Qed.
  Lemma sol_good : good sol.
  Proof.
    split.
    - intros t v. apply Rminus_le. apply (small_all (2 * r)). intros n. pose proof (sol_near n t v) as H1. pose proof (proj1 (iter_good n) t v) as H2.
      replace (sol t v - y0 v) with ((sol t v - iter n t v) + (iter n t v - y0 v)) by ring. pose proof (Rabs_triang (sol t v - iter n t v) (iter n t v - y0 v)). lra.
    - intros s t v. apply Rminus_le. apply (small_all (4 * r)). intros n. pose proof (sol_near n t v) as H1. pose proof (sol_near n s v) as H0. pose proof (proj2 (iter_good n) s t v) as H2.
      replace (sol s v - sol t v) with ((sol s v - iter n s v) + ((iter n s v - iter n t v) + - (sol t v - iter n t v))) by ring.
      pose proof (Rabs_triang (sol s v - iter n s v) ((iter n s v - iter n t v) + - (sol t v - iter n t v))).
      pose proof (Rabs_triang (iter n s v - iter n t v) (- (sol t v - iter n t v))) as H3. rewrite Rabs_Ropp in H3. lra.
  Qed.
  Lemma sol_fixed t v : sol t v = step sol t v.
  Proof.
    assert (Z : Rabs (sol t v - step sol t v) <= 0).
    { apply (small_all (3 * r)). intros n. pose proof (sol_near (Datatypes.S n) t v) as H1. cbn [iter pow] in H1.
      pose proof (step_contract (iter n) sol (2 * r * (1/2) ^ n) (iter_good n) sol_good (fun t v => eq_ind _ (fun x => x <= _) (sol_near n t v) _ (Rabs_minus_sym _ _)) t v) as H2.
      replace (sol t v - step sol t v) with ((sol t v - step (iter n) t v) + (step (iter n) t v - step sol t v)) by ring.
      pose proof (Rabs_triang (sol t v - step (iter n) t v) (step (iter n) t v - step sol t v)). assert (0 < (1/2) ^ n) by (apply pow_lt; lra). nra. }
    pose proof (Rabs_pos (sol t v - step sol t v)). assert (E : Rabs (sol t v - step sol t v) = 0) by lra.
    destruct (Req_dec (sol t v - step sol t v) 0) as [|Hn]; [lra|]. apply Rabs_no_R0 in Hn. lra.
  Qed.
  (** the fixed point starts at y0 and solves the equations *)
  Lemma sol_start v : sol a v = y0 v.
  Proof.
    rewrite sol_fixed. unfold step. rewrite clamp_id by (rewrite Rminus_eq_0, Rabs_R0; left; apply width_pos).
    unfold integ. rewrite (RInt_point (V := R_CompleteNormedModule)). unfold zero; simpl. ring.
  Qed.
  Lemma sol_derive t v : Rabs (t - a) < width -> is_derive (fun s => sol s v) t (F t (sol t) v).
  Proof.
    intros Ht. assert (Hle : Rabs (t - a) <= width) by lra.
    replace (F t (sol t) v) with (rate sol v t) by (unfold rate; rewrite clamp_id by auto; reflexivity).
    apply (is_derive_ext_loc (K := R_AbsRing) (V := R_NormedModule) (fun s => y0 v + integ (rate sol v) a s)).
    - assert (D : 0 < width - Rabs (t - a)) by lra. exists (mkposreal _ D). intros s Hs. cbn [pos] in Hs.
      unfold ball in Hs; simpl in Hs; unfold AbsRing_ball, abs, minus, plus, opp in Hs; simpl in Hs.
      rewrite (sol_fixed s v). unfold step. rewrite clamp_id; [reflexivity|].
      replace (s - a) with ((s + - t) + (t - a)) by ring. eapply Rle_trans; [apply Rabs_triang|]. lra.
    - evar_last.
      + apply (is_derive_plus (V := R_NormedModule) (fun _ => y0 v) (fun s => integ (rate sol v) a s)); [apply (is_derive_const (V := R_NormedModule))|].
        apply (is_derive_RInt (V := R_NormedModule) (rate sol v) (fun s => integ (rate sol v) a s) a t).
        * exists (mkposreal 1 Rlt_0_1). intros s _. apply (RInt_correct (V := R_CompleteNormedModule)). apply cont_int. apply rate_cont. apply sol_good.
        * apply rate_cont. apply sol_good.
      + unfold plus, zero; simpl. ring.
  Qed.
End Picard.
