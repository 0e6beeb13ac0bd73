(** C121: time constant of a recorded first-order response. *)
From Verif Require Import RBase TimeConstModel.
From Coq Require Import Reals List Lra Lia Sorted.
Import ListNotations.
Open Scope R_scope.

(** * Specification *)
(** a first-order response: value [y0] before the event, then an exponential
    approach to [yinf] *)
Definition response (y0 yinf tau t_event t : R) : R :=
  if Rle_dec t t_event then y0 else yinf + (y0 - yinf) * exp (- (t - t_event) / tau).

(** * Proofs *)
Lemma exp_double x a b : 0 <= a -> a <= exp x -> b <= a * a -> b <= exp (2 * x).
Proof. intros H1 H2 H3. replace (2 * x) with (x + x) by lra. rewrite exp_plus. nra. Qed.
Lemma e_low : 2.703 <= exp 1.
Proof.
  assert (A : 1 + 1/128 <= exp (1/128)) by (left; apply exp_ineq1; lra).
  assert (A1 : 1.01568 <= exp (2 * (1/128))) by (apply (exp_double _ (1 + 1/128)); lra).
  assert (A2 : 1.03160 <= exp (2 * (2 * (1/128)))) by (apply (exp_double _ 1.01568); lra).
  assert (A3 : 1.06419 <= exp (2 * (2 * (2 * (1/128))))) by (apply (exp_double _ 1.03160); lra).
  assert (A4 : 1.13250 <= exp (2 * (2 * (2 * (2 * (1/128)))))) by (apply (exp_double _ 1.06419); lra).
  assert (A5 : 1.28255 <= exp (2 * (2 * (2 * (2 * (2 * (1/128))))))) by (apply (exp_double _ 1.13250); lra).
  assert (A6 : 1.64493 <= exp (2 * (2 * (2 * (2 * (2 * (2 * (1/128)))))))) by (apply (exp_double _ 1.28255); lra).
  assert (A7 : 2.703 <= exp (2 * (2 * (2 * (2 * (2 * (2 * (2 * (1/128))))))))) by (apply (exp_double _ 1.64493); lra).
  replace (2 * (2 * (2 * (2 * (2 * (2 * (2 * (1/128)))))))) with 1 in A7 by lra. exact A7.
Qed.
Lemma em1_high : exp (- 1) < 0.37.
Proof.
  assert (H : exp 1 * exp (- 1) = 1) by (rewrite <- exp_plus; replace (1 + - 1) with 0 by lra; apply exp_0).
  pose proof e_low. pose proof (exp_pos (- 1)). nra.
Qed.
Lemma em09_low : 0.384 <= exp (- 0.9).
Proof.
  assert (A : 1 - 0.9/8 <= exp (- 0.9/8)) by (pose proof (exp_ineq1_le (- 0.9/8)); lra).
  assert (A1 : 0.7876 <= exp (2 * (- 0.9/8))) by (apply (exp_double _ (1 - 0.9/8)); lra).
  assert (A2 : 0.6203 <= exp (2 * (2 * (- 0.9/8)))) by (apply (exp_double _ 0.7876); lra).
  assert (A3 : 0.384 <= exp (2 * (2 * (2 * (- 0.9/8))))) by (apply (exp_double _ 0.6203); lra).
  replace (2 * (2 * (2 * (- 0.9/8)))) with (- 0.9) in A3 by lra. exact A3.
Qed.
Lemma em5_high : exp (- 5) <= 0.021.
Proof.
  assert (A : 1 + 5/8 <= exp (5/8)) by (left; apply exp_ineq1; lra).
  assert (A1 : 2.64 <= exp (2 * (5/8))) by (apply (exp_double _ (1 + 5/8)); lra).
  assert (A2 : 6.96 <= exp (2 * (2 * (5/8)))) by (apply (exp_double _ 2.64); lra).
  assert (A3 : 48.4 <= exp (2 * (2 * (2 * (5/8))))) by (apply (exp_double _ 6.96); lra).
  replace (2 * (2 * (2 * (5/8)))) with 5 in A3 by lra.
  assert (H : exp 5 * exp (- 5) = 1) by (rewrite <- exp_plus; replace (5 + - 5) with 0 by lra; apply exp_0).
  pose proof (exp_pos (- 5)). nra.
Qed.

Lemma search_spec target te tys :
  match search target te tys with
  | None => forall t y, In (t, y) tys -> target <= y
  | Some (d, y, e) => exists pre t post, tys = pre ++ (t, y) :: post /\ d = t - te /\ e = target /\ y < target /\
                      (forall t' y', In (t', y') pre -> target <= y')
  end.
Proof.
  induction tys as [|[t y] r IH]; cbn [search]; [intros ? ? []|].
  destruct (Rlt_dec y target) as [L|L].
  - exists [], t, r. repeat split; auto. intros ? ? [].
  - destruct (search target te r) as [[[d y'] e]|].
    + destruct IH as (pre & t' & post & -> & -> & -> & Hy & Hp). exists ((t, y) :: pre), t', post. repeat split; auto.
      intros a b [E|Hi]; [injection E as <- <-; lra|eauto].
    + intros a b [E|Hi]; [injection E as <- <-; lra|eauto].
Qed.

(** What is printed, for every recorded series: the first sample that is below the
    63 % level between the first and the last value, with its time counted from the
    event; nothing only if there is no such sample. *)
Theorem C121_reported : forall ts ys te,
  let level := hd 0 ys - 63/100 * (hd 0 ys - last ys 0) in
  match find_first_order_time_constant ts ys te with
  | None => forall t y, In (t, y) (combine ts ys) -> level <= y
  | Some (d, y, e) => e = level /\ exists pre t post, combine ts ys = pre ++ (t, y) :: post /\ d = t - te /\ y < level /\
                      (forall t' y', In (t', y') pre -> level <= y')
  end.
Proof.
  intros ts ys te level. unfold find_first_order_time_constant.
  assert (E : expected ys = level) by (unfold expected, level; lra). rewrite E.
  pose proof (search_spec level te (combine ts ys)) as H. destruct (search level te (combine ts ys)) as [[[d y] e]|]; [|exact H].
  destruct H as (pre & t & post & H1 & H2 & H3 & H4 & H5). split; [auto|]. exists pre, t, post. auto.
Qed.
Print Assumptions C121_reported.

Lemma combine_map {A B} (f : A -> B) l : combine l (map f l) = map (fun a => (a, f a)) l.
Proof. induction l; cbn; congruence. Qed.
Lemma last_map {A B} (f : A -> B) l d d' : l <> [] -> last (map f l) d = f (last l d').
Proof. induction l as [|a l IH]; [contradiction|]. intros _. destruct l; [reflexivity|]. cbn [map last] in *. apply IH. discriminate. Qed.

(** A falling first-order response, recorded from before (or at) the event until
    [D] after it: the reported constant is the first sample time after
    [-tau ln (1 - 0.63 (1 - exp (-D/tau)))], which is less than tau, and more than
    0.9 tau if the record lasts at least 5 tau; so with samples at most [h] apart
    the reported value is less than [tau + h] and then more than [0.9 tau]. *)
Theorem C121_falling_partial : forall y0 yinf tau te ts t0 D h,
  0 < tau -> yinf < y0 -> hd 0 ts = t0 -> ts <> [] -> t0 <= te -> last ts 0 = te + D -> 0 < D ->
  (forall a b pre post, ts = pre ++ a :: b :: post -> a < b <= a + h) ->
  exists d y e, find_first_order_time_constant ts (map (response y0 yinf tau te) ts) te = Some (d, y, e) /\
    let T := - tau * ln (1 - 63/100 * (1 - exp (- D / tau))) in
    0 < T < tau /\ T < d <= T + h /\ d < tau + h /\ (5 * tau <= D -> 0.9 * tau < d).
Proof.
  intros y0 yinf tau te ts t0 D h Htau Hy H0 Hne Ht0 HN HD Hs.
  set (x := exp (- D / tau)). set (T := - tau * ln (1 - 63/100 * (1 - x))).
  assert (Dt : 0 < D / tau) by (apply Rdiv_lt_0_compat; lra).
  assert (Hx : 0 < x < 1).
  { split; [apply exp_pos|]. unfold x. rewrite <- exp_0. apply exp_increasing. unfold Rdiv in *. rewrite Ropp_mult_distr_l_reverse. lra. }
  set (c := 1 - 63/100 * (1 - x)). assert (Hc : 0.37 < c < 1) by (unfold c; lra).
  assert (HT0 : 0 < T).
  { unfold T. fold c. assert (ln c < 0) by (rewrite <- ln_1; apply ln_increasing; lra). nra. }
  assert (HT1 : T < tau).
  { unfold T. fold c. assert (- 1 < ln c). { rewrite <- (ln_exp (- 1)). apply ln_increasing; [apply exp_pos|]. pose proof em1_high. lra. } nra. }
  assert (HT9 : 5 * tau <= D -> 0.9 * tau <= T).
  { intros H5. unfold T. fold c. assert (ln c <= - 0.9); [|nra]. rewrite <- (ln_exp (- 0.9)).
    assert (x <= 0.021).
    { apply Rle_trans with (exp (- 5)); [|apply em5_high]. unfold x. assert (5 <= D / tau) by (apply Rmult_le_reg_r with tau; [lra|]; unfold Rdiv; rewrite Rmult_assoc, Rinv_l by lra; lra).
      assert (Q5 : - D / tau <= - 5) by (unfold Rdiv in *; rewrite Ropp_mult_distr_l_reverse; lra).
      destruct (Rle_lt_or_eq_dec _ _ Q5) as [L|E]; [left; now apply exp_increasing|rewrite E; lra]. }
    assert (Q9 : c <= exp (- 0.9)) by (pose proof em09_low; unfold c; lra).
    destruct (Rle_lt_or_eq_dec _ _ Q9) as [L|E]; [left; apply ln_increasing; lra|rewrite E; lra]. }
  pose proof (C121_reported ts (map (response y0 yinf tau te) ts) te) as R. cbv zeta in R.
  assert (F0 : hd 0 (map (response y0 yinf tau te) ts) = y0).
  { destruct ts as [|a ts]; [contradiction|]. cbn in *. subst a. unfold response. destruct (Rle_dec t0 te); [reflexivity|contradiction]. }
  assert (FN : last (map (response y0 yinf tau te) ts) 0 = yinf + (y0 - yinf) * x).
  { rewrite (last_map _ _ 0 0) by assumption. rewrite HN. unfold response. destruct (Rle_dec (te + D) te); [lra|]. unfold x. do 3 f_equal. lra. }
  rewrite F0, FN, combine_map in R.
  set (level := y0 - 63/100 * (y0 - (yinf + (y0 - yinf) * x))) in R.
  assert (Lv : level = yinf + (y0 - yinf) * c) by (unfold level, c; lra).
  (* a sample is below the level exactly when it is later than te + T *)
  assert (Below : forall t, response y0 yinf tau te t < level <-> te + T < t).
  { intros t. rewrite Lv. unfold response. destruct (Rle_dec t te) as [L|L].
    - split; intros; [exfalso; nra|lra].
    - assert (E : exp (- T / tau) = c).
      { replace (- T / tau) with (ln c) by (unfold T; fold c; field; lra). apply exp_ln. lra. }
      assert (M : - (t - te) / tau < - T / tau <-> te + T < t).
      { unfold Rdiv. assert (0 < / tau) by now apply Rinv_0_lt_compat. split; intros; nra. }
      rewrite <- M. split.
      + intros H. apply exp_lt_inv. rewrite E. nra.
      + intros H. apply exp_increasing in H. rewrite E in H. nra. }
  assert (TD : T < D).
  { assert (T * / tau < D * / tau); [|assert (0 < / tau) by (now apply Rinv_0_lt_compat); nra].
    change (T / tau < D / tau). cut (- D / tau < - T / tau); [unfold Rdiv; rewrite !Ropp_mult_distr_l_reverse; lra|].
    apply exp_lt_inv. replace (- T / tau) with (ln c) by (unfold T; fold c; field; lra). rewrite exp_ln by lra. fold x. unfold c. lra. }
  destruct (find_first_order_time_constant ts (map (response y0 yinf tau te) ts) te) as [[[d y] e]|].
  - destruct R as (Re & pre & t & post & Hc' & Hd & Hlt & Hpre). exists d, y, e. split; [reflexivity|]. fold x. fold T.
    assert (Hy' : y = response y0 yinf tau te t).
    { assert (Hi : In (t, y) (map (fun a => (a, response y0 yinf tau te a)) ts)) by (rewrite Hc'; apply in_or_app; right; now left).
      apply in_map_iff in Hi. destruct Hi as (a & Ea & _). congruence. }
    assert (Et : te + T < t) by (apply Below; congruence).
    assert (Split : exists p q, ts = p ++ t :: q /\ forall a, In a p -> a <= te + T).
    { exists (map fst pre), (map fst post).
      assert (Hts : ts = map fst (map (fun a => (a, response y0 yinf tau te a)) ts)) by (rewrite map_map; cbn; now rewrite map_id).
      split; [rewrite Hts, Hc', map_app; reflexivity|].
      intros a Ha. apply in_map_iff in Ha. destruct Ha as ([a' b] & <- & Hi). cbn.
      assert (b = response y0 yinf tau te a').
      { assert (Hj : In (a', b) (map (fun a => (a, response y0 yinf tau te a)) ts)) by (rewrite Hc'; apply in_or_app; now left).
        apply in_map_iff in Hj. destruct Hj as (z & Ez & _). congruence. }
      destruct (Rle_dec a' (te + T)); [assumption|]. exfalso. specialize (Hpre _ _ Hi). assert (response y0 yinf tau te a' < level) by (apply Below; lra). subst b. lra. }
    destruct Split as (p & q & Ets & Hp).
    assert (Hup : t <= te + T + h).
    { destruct p as [|b p'] using rev_ind.
      - rewrite Ets in H0. cbn in H0. lra.
      - clear IHp'. rewrite <- app_assoc in Ets. cbn [app] in Ets. destruct (Hs _ _ _ _ Ets) as [_ U].
        assert (b <= te + T) by (apply Hp; apply in_or_app; right; now left). lra. }
    subst d. split; [lra|]. split; [lra|]. split; [lra|]. intros H5. specialize (HT9 H5). lra.
  - exfalso. destruct (exists_last Hne) as (p & b & Eb). assert (b = te + D) by (rewrite Eb, last_last in HN; exact HN). subst b.
    assert (level <= response y0 yinf tau te (te + D)).
    { apply (R (te + D)). apply in_map_iff. exists (te + D). split; [reflexivity|]. rewrite Eb. apply in_or_app. right. now left. }
    assert (response y0 yinf tau te (te + D) < level) by (apply Below; lra). lra.
Qed.
Print Assumptions C121_falling_partial.

(** A rising response is always reported wrongly: the result is the time of the
    first sample, whatever the time constant (zero or negative if the record starts
    at or before the event). *)
Theorem C121_rising_refuted : forall t ts y ys te,
  y < last (y :: ys) 0 -> exists e, find_first_order_time_constant (t :: ts) (y :: ys) te = Some (t - te, y, e).
Proof.
  intros t ts y ys te H. unfold find_first_order_time_constant, expected. cbn [combine hd search].
  set (l := last (y :: ys) 0) in *. destruct (Rlt_dec y (y - (y - l) * (63 / 100))) as [L|L]; [eauto|exfalso; lra].
Qed.
Print Assumptions C121_rising_refuted.

Example C121_hypotheses_met :
  exists d y e, find_first_order_time_constant [0; 1; 2; 3] (map (response 2 1 1 1) [0; 1; 2; 3]) 1 = Some (d, y, e) /\ 0 < d < 1 + 1.
Proof.
  destruct (C121_falling_partial 2 1 1 1 [0; 1; 2; 3] 0 2 1) as (d & y & e & H & A & B & C & _); try lra; try reflexivity; try discriminate.
  - intros a b pre post E. destruct pre as [|p0 [|p1 [|p2 [|p3 pre]]]]; cbn in E; try congruence; try (injection E; intros; subst; lra).
    exfalso. apply (f_equal (@List.length R)) in E. cbn in E. rewrite app_length in E. cbn in E. lia.
  - exists d, y, e. split; [exact H|]. lra.
Qed.
