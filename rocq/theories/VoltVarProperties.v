(** Properties C30, C31, C32, C66, C67: Volt-VAR control. *)
From Verif Require Import RBase VoltVarModel.

(** * C32 *)
Lemma Rmax_case2 a b : (Rmax a b = a /\ b <= a) \/ (Rmax a b = b /\ a <= b).
Proof. unfold Rmax. destruct (Rle_dec a b); [right|left]; split; auto; lra. Qed.
Lemma Rmin_case2 a b : (Rmin a b = a /\ a <= b) \/ (Rmin a b = b /\ b <= a).
Proof. unfold Rmin. destruct (Rle_dec a b); [left|right]; split; auto; lra. Qed.

Lemma clamp_range x s : 0 <= s -> - s <= Rmax (- s) (Rmin x s) <= s.
Proof.
  intros. destruct (Rmin_case2 x s) as [[-> ?]|[-> ?]]; [destruct (Rmax_case2 (-s) x) as [[-> ?]|[-> ?]]|destruct (Rmax_case2 (-s) s) as [[-> ?]|[-> ?]]]; lra.
Qed.

Theorem C32_reactive_capability :
  forall s m, 0 <= v_S s -> 0 <= v_n s -> 0 <= v_Xf s ->
  exists q, Qlimit_calc s m = Ok q /\ 0 <= q <= v_S s /\
    (Rabs (mP m) <= v_S s -> mP m ^ 2 + q ^ 2 <= v_S s ^ 2) /\
    (v_S s <= Rabs (mP m) -> q = 0).
Proof.
  intros s m HS Hn HX. unfold Qlimit_calc, py_sqrt.
  pose proof (clamp_range (mP m) _ HS) as Hc.
  assert (Hcl : Rabs (mP m) <= v_S s -> Rmax (- v_S s) (Rmin (mP m) (v_S s)) = mP m).
  { intros H. assert (H' : - v_S s <= mP m <= v_S s) by (unfold Rabs in H; destruct (Rcase_abs (mP m)); lra).
    rewrite Rmin_left, Rmax_right; lra. }
  assert (Hcl2 : v_S s <= Rabs (mP m) -> (Rmax (- v_S s) (Rmin (mP m) (v_S s)))^2 = (v_S s)^2).
  { intros H. unfold Rabs in H. destruct (Rcase_abs (mP m)).
    - rewrite Rmin_left, Rmax_left by lra. ring.
    - rewrite Rmin_right, Rmax_right by lra. ring. }
  set (p := Rmax (- v_S s) (Rmin (mP m) (v_S s))) in *. clearbody p.
  assert (Hp : 0 <= v_S s ^ 2 - p ^ 2) by nra.
  assert (E : rlt (v_S s ^ 2 - p ^ 2) 0 = false) by (apply rlt_false; auto). rewrite E. cbn [bindR].
  pose proof (sqrt_pos (v_S s ^ 2 - p ^ 2)) as H1.
  pose proof (sqrt_sqrt _ Hp) as H2. set (r := sqrt (v_S s ^ 2 - p ^ 2)) in *. clearbody r.
  assert (Hf : 0 <= v_n s * v_Xf s * (mI m / sqrt 2) ^ 2).
  { apply Rmult_le_pos; [apply Rmult_le_pos; auto|]. nra. }
  set (f := v_n s * v_Xf s * (mI m / sqrt 2) ^ 2) in *. clearbody f.
  eexists. split; [reflexivity|].
  assert (Hr : r <= v_S s) by nra.
  destruct (Rmax_case2 0 (r - f)) as [[-> K]|[-> K]].
  - split; [lra|]. split; [|auto]. intros Ha. rewrite (Hcl Ha) in *. nra.
  - split; [lra|]. split.
    + intros Ha. rewrite (Hcl Ha) in *. assert (r - f <= r) by lra. nra.
    + intros Ha. rewrite (Hcl2 Ha) in *. assert (r * r = 0) by lra. assert (r = 0) by nra. lra.
Qed.
Print Assumptions C32_reactive_capability.

Example C32_hypotheses_met :
  let s := vv_init 1 1 3 (1/10) true false 0 in
  0 <= v_S s /\ 0 <= v_n s /\ 0 <= v_Xf s /\ Rabs (mP (VMeas 1 (3/5) 1)) <= v_S s.
Proof. simpl. unfold Rabs. destruct (Rcase_abs (3/5)); lra. Qed.

(** * Specification of the characteristic (IEEE 1547-2018 category B points)
    Reactive power, as a fraction of the rating, at relative voltage v. *)
Definition curve (v : R) : R :=
  if rle v (98/100) then 44/100 * (98/100 - v) / (6/100) else
  if rle v (102/100) then 0 else - (44/100) * (v - 102/100) / (6/100).

Lemma slope_inj v : v * m_inject + c_inject = 44/100 * (98/100 - v) / (6/100).
Proof. unfold c_inject, m_inject, Q1, Q2, V1, V2. field. Qed.
Lemma slope_abs v : v * m_absorb + c_absorb = - (44/100) * (v - 102/100) / (6/100).
Proof. unfold c_absorb, m_absorb, Q3, Q4, V3, V4. field. Qed.

Definition in_inject v := 92/100 <= v <= 98/100.
Definition in_absorb v := 102/100 <= v <= 108/100.
Definition in_hold v := 91/100 <= v < 92/100 \/ 98/100 < v <= 99/100 \/ 101/100 <= v < 102/100 \/ 108/100 < v <= 109/100.

(** symmetric saturation *)
Definition sat (lim q : R) : R := Rmax (- lim) (Rmin lim q).

Lemma range_iff lo hi vref V : 0 < vref -> (rle (lo * vref) V && rle V (hi * vref) = true <-> lo <= V / vref <= hi).
Proof.
  intros H. split.
  - intros K. rb. split.
    + apply Rmult_le_reg_r with vref; auto. replace (V / vref * vref) with V by (field; lra). auto.
    + apply Rmult_le_reg_r with vref; auto. replace (V / vref * vref) with V by (field; lra). auto.
  - intros [A B]. apply andb_true_iff. rewrite !rle_iff. replace V with (V / vref * vref) by (field; lra).
    split; apply Rmult_le_compat_r; lra.
Qed.
Lemma range_false lo hi vref V : 0 < vref -> (rle (lo * vref) V && rle V (hi * vref) = false <-> ~ (lo <= V / vref <= hi)).
Proof. intros. rewrite <- (range_iff lo hi vref V) by auto. destruct (_ && _)%bool; intuition congruence. Qed.

(** ** C30: the complete input/output behaviour at a new time *)
Theorem C30_volt_var_output :
  forall s t m, 0 < v_vref s -> 0 <= v_S s -> 0 <= v_n s -> 0 <= v_Xf s ->
  v_en s = true -> v_t s < t ->
  exists s' q lim, update_Qref s t m = (s', Ok q) /\ Qlimit_calc s m = Ok lim /\ v_q s' = q /\
    let v := mV m / v_vref s in
    (in_inject v -> q = sat lim (curve v * v_S s) /\ 0 <= q <= Rmin lim (44/100 * v_S s)) /\
    (in_absorb v -> q = sat lim (curve v * v_S s) /\ - Rmin lim (44/100 * v_S s) <= q <= 0) /\
    (in_hold v -> q = v_q s) /\
    (~ in_inject v -> ~ in_absorb v -> ~ in_hold v -> q = 0).
Proof.
  intros s t m Hv HS Hn HX He Ht.
  destruct (C32_reactive_capability s m HS Hn HX) as (lim & Hlim & [Hl0 Hl1] & _).
  unfold update_Qref. rewrite He. unfold Volt_VAR_logic. rewrite Hlim.
  assert (E : rlt (v_t s) t = true) by (apply rlt_iff; auto). rewrite E.
  unfold Q_inject, Q_absorb, inject_range, absorb_range, deadband, in_inject, in_absorb, in_hold, V1, V2, V3, V4.
  set (v := mV m / v_vref s).
  assert (Ci : v <= 98/100 -> curve v = 44/100 * (98/100 - v) / (6/100)).
  { intros H. unfold curve. assert (K : rle v (98/100) = true) by (apply rle_iff; auto). rewrite K. auto. }
  assert (Ca : 102/100 <= v -> curve v = - (44/100) * (v - 102/100) / (6/100)).
  { intros H. unfold curve. assert (K : rle v (98/100) = false) by (apply rle_false; lra). rewrite K.
    destruct (rle v (102/100)) eqn:F; auto. rb. assert (v = 102/100) by lra. rewrite H0. field. }
  destruct (rle ((92/100 - 1/100) * v_vref s) (mV m) && rle (mV m) ((98/100 + 1/100) * v_vref s)) eqn:R1.
  - apply range_iff in R1; auto. fold v in R1. do 3 eexists. split; [reflexivity|]. split; [reflexivity|]. split; [reflexivity|].
    destruct (rle ((92/100 - 0) * v_vref s) (mV m) && rle (mV m) ((98/100 + 0) * v_vref s)) eqn:R2.
    + apply range_iff in R2; auto. fold v in R2. rewrite slope_inj.
      assert (B : 0 <= 44/100 * (98/100 - v) / (6/100) * v_S s <= 44/100 * v_S s).
      { split; [apply Rmult_le_pos; lra|]. apply Rmult_le_compat_r; lra. }
      split; [intros _|split; [intros; lra|split; [intros; lra|intros; lra]]].
      rewrite Ci by lra. set (q := 44/100 * (98/100 - v) / (6/100) * v_S s) in *. clearbody q.
      rewrite (Rmax_right 0 q) by lra. unfold sat.
      destruct (Rmin_case2 lim q) as [[-> ?]|[-> ?]]; destruct (Rmin_case2 lim (44/100 * v_S s)) as [[-> ?]|[-> ?]];
      rewrite Rmax_right by lra; lra.
    + apply range_false in R2; auto. fold v in R2. split; [intros; lra|]. split; [intros; lra|]. split; [auto|].
      intros A B C. elim C. lra.
  - apply range_false in R1; auto. fold v in R1.
    destruct (rle ((102/100 - 1/100) * v_vref s) (mV m) && rle (mV m) ((108/100 + 1/100) * v_vref s)) eqn:R2.
    + apply range_iff in R2; auto. fold v in R2. do 3 eexists. split; [reflexivity|]. split; [reflexivity|]. split; [reflexivity|].
      destruct (rle ((102/100 - 0) * v_vref s) (mV m) && rle (mV m) ((108/100 + 0) * v_vref s)) eqn:R3.
      * apply range_iff in R3; auto. fold v in R3. rewrite slope_abs.
        assert (B : - (44/100 * v_S s) <= - (44/100) * (v - 102/100) / (6/100) * v_S s <= 0).
        { split; [|assert (0 <= (44/100) * (v - 102/100) / (6/100) * v_S s) by (apply Rmult_le_pos; lra); lra].
          assert ((44/100) * (v - 102/100) / (6/100) * v_S s <= 44/100 * v_S s) by (apply Rmult_le_compat_r; lra). lra. }
        split; [intros; lra|]. split; [intros _|split; [intros; lra|intros; lra]].
        rewrite Ca by lra. set (q := - (44/100) * (v - 102/100) / (6/100) * v_S s) in *. clearbody q.
        rewrite (Rmin_right 0 q) by lra. unfold sat. rewrite (Rmin_right lim q) by lra. split; [auto|].
        destruct (Rmax_case2 (-lim) q) as [[-> ?]|[-> ?]]; destruct (Rmin_case2 lim (44/100 * v_S s)) as [[-> ?]|[-> ?]]; lra.
      * apply range_false in R3; auto. fold v in R3. split; [intros; lra|]. split; [intros; lra|]. split; [auto|].
        intros A B C. elim C. lra.
    + apply range_false in R2; auto. fold v in R2. do 3 eexists. split; [reflexivity|]. split; [reflexivity|]. split; [reflexivity|].
      split; [intros; lra|]. split; [intros; lra|]. split; [intros; lra|]. auto.
Qed.
Print Assumptions C30_volt_var_output.

(** edges of the characteristic *)
Theorem C30_curve_edges :
  curve (92/100) = 44/100 /\ curve (98/100) = 0 /\ curve (102/100) = 0 /\ curve (108/100) = - (44/100) /\
  (forall v w, v <= w -> curve w <= curve v).
Proof.
  unfold curve. repeat split.
  - assert (K : rle (92/100) (98/100) = true) by (apply rle_iff; lra). rewrite K. field.
  - assert (K : rle (98/100) (98/100) = true) by (apply rle_iff; lra). rewrite K. field.
  - assert (K : rle (102/100) (98/100) = false) by (apply rle_false; lra). rewrite K.
    assert (K' : rle (102/100) (102/100) = true) by (apply rle_iff; lra). rewrite K'. auto.
  - assert (K : rle (108/100) (98/100) = false) by (apply rle_false; lra). rewrite K.
    assert (K' : rle (108/100) (102/100) = false) by (apply rle_false; lra). rewrite K'. field.
  - intros v w H. destruct (rle v (98/100)) eqn:A, (rle w (98/100)) eqn:B; [| |rb; lra|]; rb.
    + lra.
    + destruct (rle w (102/100)) eqn:C; rb; lra.
    + destruct (rle v (102/100)) eqn:D, (rle w (102/100)) eqn:C; rb; lra.
Qed.
Print Assumptions C30_curve_edges.

(** non-increasing in the voltage, everything else equal *)
Theorem C30_non_increasing :
  forall s t m1 m2 s1 s2 q1 q2, 0 < v_vref s -> 0 <= v_S s -> 0 <= v_n s -> 0 <= v_Xf s ->
  v_en s = true -> v_t s < t -> mP m1 = mP m2 -> mI m1 = mI m2 -> mV m1 <= mV m2 ->
  (in_inject (mV m1 / v_vref s) \/ in_absorb (mV m1 / v_vref s)) ->
  (in_inject (mV m2 / v_vref s) \/ in_absorb (mV m2 / v_vref s)) ->
  update_Qref s t m1 = (s1, Ok q1) -> update_Qref s t m2 = (s2, Ok q2) -> q2 <= q1.
Proof.
  intros s t m1 m2 s1 s2 q1 q2 Hv HS Hn HX He Ht HP HI HV D1 D2 E1 E2.
  destruct (C30_volt_var_output s t m1 Hv HS Hn HX He Ht) as (s1' & q1' & l1 & E1' & L1 & _ & A1 & B1 & _).
  destruct (C30_volt_var_output s t m2 Hv HS Hn HX He Ht) as (s2' & q2' & l2 & E2' & L2 & _ & A2 & B2 & _).
  assert (q1' = q1) by congruence. assert (q2' = q2) by congruence. subst q1' q2'.
  assert (L : l1 = l2) by (unfold Qlimit_calc in *; rewrite HP, HI in *; congruence). subst l2.
  assert (F1 : q1 = sat l1 (curve (mV m1 / v_vref s) * v_S s)) by (destruct D1 as [D|D]; [apply A1|apply B1]; auto).
  assert (F2 : q2 = sat l1 (curve (mV m2 / v_vref s) * v_S s)) by (destruct D2 as [D|D]; [apply A2|apply B2]; auto).
  assert (K : curve (mV m2 / v_vref s) * v_S s <= curve (mV m1 / v_vref s) * v_S s).
  { apply Rmult_le_compat_r; auto. apply C30_curve_edges. apply Rmult_le_compat_r; auto. left. apply Rinv_0_lt_compat; auto. }
  rewrite F1, F2. unfold sat. apply Rle_max_compat_l. apply Rle_min_compat_l. auto.
Qed.
Print Assumptions C30_non_increasing.

Example C30_hypotheses_met :
  let s := vv_init 1 1 3 0 true false 0 in
  0 < v_vref s /\ v_t s < 1 /\ in_inject (95/100 / v_vref s) /\ in_absorb (105/100 / v_vref s) /\
  in_hold (985/1000 / v_vref s) /\ ~ in_hold (1 / v_vref s).
Proof. simpl. unfold in_inject, in_absorb, in_hold. repeat split; lra. Qed.

(** * C31 *)
Lemma Qlimit_S s m : Qlimit_calc s m = Qlimit_calc (v_set s (v_active s) (v_t s) (v_q s) (v_lim s)) m.
Proof. reflexivity. Qed.

(** every value returned at any time of any history is within the capability
    computed in that evaluation *)
Definition C31_claim : Prop :=
  forall S vref n Xf lim0 xs x s rs q lim, 0 < vref -> 0 <= S -> 0 <= n -> 0 <= Xf ->
  vv_run (vv_init S vref n Xf true false lim0) xs = (s, rs) ->
  snd (vv_eval s x) = Ok q -> Qlimit_calc s (e_m x) = Ok lim -> Rabs q <= lim.

Lemma update_sets s t m s' q : update_Qref s t m = (s', Ok q) ->
  v_S s' = v_S s /\ v_vref s' = v_vref s /\ v_n s' = v_n s /\ v_Xf s' = v_Xf s /\ v_en s' = v_en s /\
  v_ext s' = v_ext s /\ v_q s' = q.
Proof.
  unfold update_Qref, Volt_VAR_logic. destruct (v_en s) eqn:E.
  - destruct (Qlimit_calc s m); [|discriminate].
    destruct (rlt _ _); [destruct (inject_range _ _ _); [|destruct (absorb_range _ _ _)]|]; intros H; injection H as <- <-; simpl; auto 10.
  - destruct (v_ext s) eqn:F; intros H; injection H as <- <-; simpl; rewrite ?E, ?F; auto 10.
Qed.

Lemma eval_sets s x s' q : vv_eval s x = (s', Ok q) ->
  v_S s' = v_S s /\ v_vref s' = v_vref s /\ v_n s' = v_n s /\ v_Xf s' = v_Xf s /\ v_ext s' = v_ext s /\
  (v_q s' = q \/ v_q s' = 0).
Proof.
  unfold vv_eval. destruct (update_Qref s (e_t x) (e_m x)) as [s1 [q1|]] eqn:E; [|discriminate].
  apply update_sets in E as (A & B & C & D & F & G & H). destruct (e_disconnected x); intros K; injection K as <- <-; simpl; auto 10.
Qed.

Lemma v_of s t m : 0 < v_vref s -> 0 <= v_S s -> 0 <= v_n s -> 0 <= v_Xf s ->
  exists s' q, update_Qref s t m = (s', Ok q) /\ (Rabs q <= 44/100 * v_S s \/ q = v_q s).
Proof.
  intros Hv HS Hn HX.
  destruct (v_en s) eqn:He.
  2:{ unfold update_Qref. rewrite He. destruct (v_ext s); do 2 eexists; (split; [reflexivity|]); auto.
      left. rewrite Rabs_R0. lra. }
  destruct (Rlt_le_dec (v_t s) t) as [Ht|Ht].
  - destruct (C30_volt_var_output s t m Hv HS Hn HX He Ht) as (s' & q & lim & E & L & _ & A & B & C & D).
    exists s', q. split; auto. cbv zeta in *. set (v := mV m / v_vref s) in *.
    assert (Q : in_inject v \/ in_absorb v \/ in_hold v \/ (~ in_inject v /\ ~ in_absorb v /\ ~ in_hold v))
      by (unfold in_inject, in_absorb, in_hold; lra).
    destruct Q as [Q|[Q|[Q|(Q1' & Q2' & Q3')]]].
    + left. destruct (A Q) as [_ K]. pose proof (Rmin_r lim (44/100 * v_S s)). rewrite Rabs_pos_eq; lra.
    + left. destruct (B Q) as [_ K]. pose proof (Rmin_r lim (44/100 * v_S s)). rewrite Rabs_left1; lra.
    + right. auto.
    + left. rewrite D by auto. rewrite Rabs_R0. lra.
  - unfold update_Qref. rewrite He. unfold Volt_VAR_logic.
    destruct (C32_reactive_capability s m HS Hn HX) as (lim & -> & _).
    assert (E : rlt (v_t s) t = false) by (apply rlt_false; auto). rewrite E.
    do 2 eexists. split; [reflexivity|]. auto.
Qed.

Definition at_ t V P := Vin t (VMeas V P 0) false.

Lemma Qlim_at (s : vvar) P V : v_S s = 1 -> v_n s = 3 -> v_Xf s = 0 -> 0 <= P <= 1 ->
  Qlimit_calc s (VMeas V P 0) = Ok (sqrt (1 - P^2)).
Proof.
  intros HS Hn HX HP. unfold Qlimit_calc, py_sqrt. rewrite HS, Hn, HX. cbn [mP mI].
  rewrite Rmin_left, Rmax_right by lra.
  assert (E : rlt (1 ^ 2 - P ^ 2) 0 = false) by (apply rlt_false; nra). rewrite E. cbn [bindR].
  f_equal. rewrite Rmax_right.
  - replace (1^2 - P^2) with (1 - P^2) by ring. ring.
  - pose proof (sqrt_pos (1^2 - P^2)). lra.
Qed.

(** At V = 0.92 with no active power the reference is 0.44; the voltage moves
    into the hysteresis band (0.985) while the active power reaches the rating:
    the capability is 0 but 0.44 is still requested. *)
Theorem C31_capability_refuted : ~ C31_claim.
Proof.
  intros H.
  pose (s0 := vv_init 1 1 3 0 true false 0).
  pose (x1 := at_ 1 (92/100) 0). pose (x2 := at_ 2 (985/1000) 1).
  assert (E1 : exists s1, vv_eval s0 x1 = (s1, Ok (44/100)) /\ v_en s1 = true /\ v_t s1 = 1).
  { unfold vv_eval. destruct (C30_volt_var_output s0 (e_t x1) (e_m x1)) as (s1 & q & lim & E & L & _ & A & _); try (simpl; lra); auto.
    rewrite E. simpl e_disconnected. cbv iota. exists s1. cbv zeta in A. simpl mV in A. simpl v_vref in A.
    assert (I : in_inject (92/100/1)) by (unfold in_inject; lra). destruct (A I) as [Eq _].
    simpl e_m in L. rewrite (Qlim_at s0 0 (92/100)) in L by (simpl; lra). 
    assert (El : lim = 1).
    { transitivity (sqrt (1 - 0^2)); [congruence|]. replace (1 - 0^2) with 1 by ring. apply sqrt_1. }
    subst lim.
    replace (92/100/1) with (92/100) in Eq by field. rewrite (proj1 C30_curve_edges) in Eq. simpl v_S in Eq.
    unfold sat in Eq. rewrite Rmin_right, Rmax_right in Eq by lra. rewrite Rmult_1_r in Eq. subst q.
    split; [auto|].
    pose proof (update_sets _ _ _ _ _ E) as U. decompose [and] U.
    split; [transitivity (v_en s0); auto|]. unfold update_Qref in E. change (v_en s0) with true in E. cbv iota in E.
    unfold Volt_VAR_logic in E. destruct (Qlimit_calc s0 (e_m x1)); [|discriminate].
    assert (R1 : rlt (v_t s0) (e_t x1) = true) by (apply rlt_iff; simpl; lra). rewrite R1 in E.
    destruct (inject_range _ _ _); [|destruct (absorb_range _ _ _)]; injection E as E _; subst s1; reflexivity. }
  destruct E1 as (s1 & E1 & En & Ht).
  pose proof (eval_sets _ _ _ _ E1) as (A1 & A2 & A3 & A4 & A5 & _).
  assert (Eq1 : v_q s1 = 44/100).
  { unfold vv_eval in E1. destruct (update_Qref s0 (e_t x1) (e_m x1)) as [s' [q'|]] eqn:E; [|discriminate].
    simpl e_disconnected in E1. cbv iota in E1. injection E1 as <- <-. apply update_sets in E. tauto. }
  assert (E2 : snd (vv_eval s1 x2) = Ok (44/100)).
  { unfold vv_eval. destruct (C30_volt_var_output s1 (e_t x2) (e_m x2)) as (s2 & q & lim & E & L & _ & _ & _ & C & _);
      try (rewrite ?A1, ?A2, ?A3, ?A4, ?Ht; simpl; lra); auto.
    rewrite E. simpl. f_equal. rewrite <- Eq1. apply C. rewrite A2. simpl. unfold in_hold. lra. }
  assert (Eq : Qlimit_calc s1 (e_m x2) = Ok 0).
  { simpl e_m. rewrite Qlim_at; rewrite ?A1, ?A3, ?A4; simpl; try lra. f_equal. replace (1 - 1 * (1 * 1)) with 0 by ring. apply sqrt_0. }
  specialize (H 1 1 3 0 0 [x1] x2 s1 [Ok (44/100)] (44/100) 0).
  assert (K : Rabs (44/100) <= 0).
  { apply H; try lra; auto. fold s0. cbn [vv_run]. rewrite E1. reflexivity. }
  rewrite Rabs_pos_eq in K; lra.
Qed.
Print Assumptions C31_capability_refuted.

(** What holds: a freshly computed reference (new time, voltage outside the
    hysteresis bands) respects the capability of that evaluation. *)
Theorem C31_fresh_output_partial :
  forall s x s' q lim, 0 < v_vref s -> 0 <= v_S s -> 0 <= v_n s -> 0 <= v_Xf s -> v_en s = true ->
  v_t s < e_t x -> ~ in_hold (mV (e_m x) / v_vref s) ->
  vv_eval s x = (s', Ok q) -> Qlimit_calc s (e_m x) = Ok lim -> Rabs q <= lim.
Proof.
  intros s x s' q lim Hv HS Hn HX He Ht Hh E L. unfold vv_eval in E.
  destruct (C30_volt_var_output s (e_t x) (e_m x) Hv HS Hn HX He Ht) as (s1 & q1 & l1 & E1 & L1 & _ & A & B & C & D).
  rewrite E1 in E. injection E as _ <-. assert (l1 = lim) by congruence. subst l1. cbv zeta in *.
  set (v := mV (e_m x) / v_vref s) in *.
  destruct (C32_reactive_capability s (e_m x) HS Hn HX) as (l & L' & [L0 _] & _). assert (l = lim) by congruence. subst l.
  assert (Q : in_inject v \/ in_absorb v \/ (~ in_inject v /\ ~ in_absorb v)) by (unfold in_inject, in_absorb; lra).
  pose proof (Rmin_l lim (44/100 * v_S s)).
  destruct Q as [Q|[Q|(Q1' & Q2')]].
  - destruct (A Q) as [_ K]. rewrite Rabs_pos_eq; lra.
  - destruct (B Q) as [_ K]. rewrite Rabs_left1; lra.
  - rewrite D by auto. rewrite Rabs_R0. lra.
Qed.
Print Assumptions C31_fresh_output_partial.

(** ... and over every history (any times, voltages, disconnections) no
    evaluation raises and every reference is within 44% of the rating. *)
Theorem C31_history_bound_partial :
  forall S vref n Xf en lim0 xs, 0 < vref -> 0 <= S -> 0 <= n -> 0 <= Xf ->
  forall r, In r (snd (vv_run (vv_init S vref n Xf en false lim0) xs)) ->
  exists q, r = Ok q /\ Rabs q <= 44/100 * S.
Proof.
  intros S vref n Xf en lim0 xs Hv HS Hn HX.
  assert (G : forall xs s, v_S s = S -> v_vref s = vref -> v_n s = n -> v_Xf s = Xf -> Rabs (v_q s) <= 44/100 * S ->
     forall r, In r (snd (vv_run s xs)) -> exists q, r = Ok q /\ Rabs q <= 44/100 * S).
  { clear xs. induction xs as [|x xs IH]; intros s H1 H2 H3 H4 H5 r Hr; [destruct Hr|].
    cbn [vv_run] in Hr. destruct (v_of s (e_t x) (e_m x)) as (s1 & q & E & B); try congruence.
    assert (Bq : Rabs q <= 44/100 * S) by (destruct B as [B|B]; [rewrite <- H1; auto|rewrite B; auto]).
    destruct (vv_eval s x) as [s2 r2] eqn:Ev. assert (Er : r2 = Ok q).
    { unfold vv_eval in Ev. rewrite E in Ev. congruence. }
    subst r2. destruct (vv_run s2 xs) as [s3 rs] eqn:Rn. simpl in Hr. destruct Hr as [<-|Hr]; [eauto|].
    destruct (eval_sets _ _ _ _ Ev) as (A1 & A2 & A3 & A4 & A5 & A6).
    apply (IH s2); try congruence; [|rewrite Rn; auto].
    destruct A6 as [-> | ->]; auto. rewrite Rabs_R0. lra. }
  intros r Hr. eapply (G xs); [..|exact Hr]; auto. simpl. rewrite Rabs_R0. lra.
Qed.
Print Assumptions C31_history_bound_partial.

Example C31_hypotheses_met :
  let s := vv_init 1 1 3 0 true false 0 in
  0 < v_vref s /\ 0 <= v_S s /\ 0 <= v_n s /\ 0 <= v_Xf s /\ v_en s = true /\ v_t s < e_t (at_ 1 (95/100) 0) /\
  ~ in_hold (mV (e_m (at_ 1 (95/100) 0)) / v_vref s).
Proof. simpl. unfold in_hold. repeat split; lra. Qed.

(** * C66: the reactive power never acts against the voltage deviation
    (no absorption below, no injection above the reference voltage) *)
Definition right_direction (vref V q : R) : Prop := (V < vref -> 0 <= q) /\ (vref < V -> q <= 0).

Definition C66_claim : Prop :=
  forall S vref n Xf lim0 xs x s rs q, 0 < vref -> 0 <= S -> 0 <= n -> 0 <= Xf ->
  vv_run (vv_init S vref n Xf true false lim0) xs = (s, rs) ->
  snd (vv_eval s x) = Ok q -> v_t s < e_t x -> right_direction vref (mV (e_m x)) q.

(** Absorbing at 1.08; then the voltage drops to 0.985 (hysteresis band of the
    injection range): the negative reference is kept. *)
Theorem C66_direction_refuted : ~ C66_claim.
Proof.
  intros H.
  pose (s0 := vv_init 1 1 3 0 true false 0).
  pose (x1 := at_ 1 (108/100) 0). pose (x2 := at_ 2 (985/1000) 0).
  assert (E1 : exists s1, vv_eval s0 x1 = (s1, Ok (- (44/100))) /\ v_en s1 = true /\ v_t s1 = 1 /\ v_q s1 = - (44/100)).
  { unfold vv_eval. destruct (C30_volt_var_output s0 (e_t x1) (e_m x1)) as (s1 & q & lim & E & L & _ & _ & A & _); try (simpl; lra); auto.
    rewrite E. simpl e_disconnected. cbv iota. exists s1. cbv zeta in A. simpl mV in A. simpl v_vref in A.
    assert (I : in_absorb (108/100/1)) by (unfold in_absorb; lra). destruct (A I) as [Eq _].
    simpl e_m in L. rewrite (Qlim_at s0 0 (108/100)) in L by (simpl; lra). 
    assert (El : lim = 1).
    { transitivity (sqrt (1 - 0^2)); [congruence|]. replace (1 - 0^2) with 1 by ring. apply sqrt_1. }
    subst lim.
    replace (108/100/1) with (108/100) in Eq by field.
    rewrite (proj1 (proj2 (proj2 (proj2 C30_curve_edges)))) in Eq. simpl v_S in Eq.
    unfold sat in Eq. rewrite Rmin_right, Rmax_right in Eq by lra. rewrite Rmult_1_r in Eq. subst q.
    split; [auto|].
    pose proof (update_sets _ _ _ _ _ E) as U. decompose [and] U.
    split; [transitivity (v_en s0); auto|]. split; [|auto]. unfold update_Qref in E. change (v_en s0) with true in E. cbv iota in E.
    unfold Volt_VAR_logic in E. destruct (Qlimit_calc s0 (e_m x1)); [|discriminate].
    assert (R1 : rlt (v_t s0) (e_t x1) = true) by (apply rlt_iff; simpl; lra). rewrite R1 in E.
    destruct (inject_range _ _ _); [|destruct (absorb_range _ _ _)]; injection E as E _; subst s1; reflexivity. }
  destruct E1 as (s1 & E1 & En & Ht & Eq1).
  pose proof (eval_sets _ _ _ _ E1) as (A1 & A2 & A3 & A4 & A5 & _).
  assert (E2 : snd (vv_eval s1 x2) = Ok (- (44/100))).
  { unfold vv_eval. destruct (C30_volt_var_output s1 (e_t x2) (e_m x2)) as (s2 & q & lim & E & L & _ & _ & _ & C & _);
      try (rewrite ?A1, ?A2, ?A3, ?A4, ?Ht; simpl; lra); auto.
    rewrite E. simpl. f_equal. rewrite <- Eq1. apply C. rewrite A2. simpl. unfold in_hold. lra. }
  specialize (H 1 1 3 0 0 [x1] x2 s1 [Ok (- (44/100))] (- (44/100))).
  destruct H as [K _]; try lra; auto.
  - fold s0. cbn [vv_run]. rewrite E1. reflexivity.
  - rewrite Ht. simpl. lra.
  - simpl in K. lra.
Qed.
Print Assumptions C66_direction_refuted.

Theorem C66_direction_partial :
  forall s x s' q, 0 < v_vref s -> 0 <= v_S s -> 0 <= v_n s -> 0 <= v_Xf s -> v_en s = true ->
  v_t s < e_t x -> ~ in_hold (mV (e_m x) / v_vref s) ->
  vv_eval s x = (s', Ok q) -> right_direction (v_vref s) (mV (e_m x)) q.
Proof.
  intros s x s' q Hv HS Hn HX He Ht Hh E. unfold vv_eval in E.
  destruct (C30_volt_var_output s (e_t x) (e_m x) Hv HS Hn HX He Ht) as (s1 & q1 & l1 & E1 & L1 & _ & A & B & C & D).
  rewrite E1 in E. injection E as _ <-. cbv zeta in *.
  assert (Ev : mV (e_m x) = mV (e_m x) / v_vref s * v_vref s) by (field; lra).
  set (v := mV (e_m x) / v_vref s) in *.
  assert (Q : in_inject v \/ in_absorb v \/ (~ in_inject v /\ ~ in_absorb v)) by (unfold in_inject, in_absorb; lra).
  unfold right_direction. destruct Q as [Q|[Q|(Q1' & Q2')]].
  - destruct (A Q) as [_ K]. split; [lra|]. intros M. exfalso. destruct Q. rewrite Ev in M. nra.
  - destruct (B Q) as [_ K]. split; [|lra]. intros M. exfalso. destruct Q. rewrite Ev in M. nra.
  - rewrite D by auto. lra.
Qed.
Print Assumptions C66_direction_partial.

(** * C26, the reactive reference after a disconnection: once an evaluation
    has disconnected the DER, no later evaluation returns anything but zero,
    whatever the voltages, powers and times, even after a reconnection. *)
Lemma off_run : forall ys s s' rs, v_en s = false -> v_q s = 0 ->
  vv_run s ys = (s', rs) -> v_q s' = 0 /\ v_en s' = false /\ Forall (fun r => r = Ok 0) rs.
Proof.
  induction ys as [|y ys IH]; intros s s' rs He Hq E.
  - cbn in E. injection E as <- <-. auto.
  - cbn [vv_run] in E. destruct (vv_eval s y) as [s1 r] eqn:E1.
    destruct (vv_run s1 ys) as [s2 rs2] eqn:E2. injection E as <- <-.
    assert (K : r = Ok 0 /\ v_en s1 = false /\ v_q s1 = 0).
    { unfold vv_eval, update_Qref in E1. rewrite He in E1.
      destruct (v_ext s); [rewrite Hq in E1|]; destruct (e_disconnected y); injection E1 as <- <-; simpl; auto. }
    destruct K as (-> & K1 & K2). destruct (IH _ _ _ K1 K2 E2) as (A & B & C). auto.
Qed.
Theorem C26_reference_zero_after_disconnect_partial :
  forall s x ys s1 q s2 rs, vv_eval s x = (s1, Ok q) -> e_disconnected x = true ->
  vv_run s1 ys = (s2, rs) -> Forall (fun r => r = Ok 0) rs /\ v_q s2 = 0.
Proof.
  intros s x ys s1 q s2 rs E D R. unfold vv_eval in E.
  destruct (update_Qref s (e_t x) (e_m x)) as [s' [q'|]]; [|discriminate].
  rewrite D in E. injection E as <- <-. apply off_run in R; auto. destruct R as (A & _ & B). auto.
Qed.
Print Assumptions C26_reference_zero_after_disconnect_partial.

Example C26_volt_var_hypotheses_met :
  exists s1 q, vv_eval (vv_init 1 1 3 0 false true 0) (Vin 1 (VMeas (1/2) 0 0) true) = (s1, Ok q) /\
  v_en s1 = false /\ v_q s1 = 0.
Proof. do 2 eexists. split; [reflexivity|]. auto. Qed.

(** ** C30: the indicator VOLT_VAR_ACTIVE *)
(** The control is reported active exactly when the relative voltage of the last
    decision lies within one hundredth of an operating range. *)
Definition operating (v : R) : Prop := 91/100 <= v <= 99/100 \/ 101/100 <= v <= 109/100.
Lemma active_step s t m s' q :
  0 < v_vref s -> v_en s = true -> update_Qref s t m = (s', Ok q) ->
  (v_t s < t -> (v_active s' = true <-> operating (mV m / v_vref s))) /\
  (t <= v_t s -> v_active s' = v_active s) /\
  v_vref s' = v_vref s /\ v_en s' = true /\ v_t s' = Rmax (v_t s) t.
Proof.
  intros Hv He H. unfold update_Qref in H. rewrite He in H. unfold Volt_VAR_logic in H.
  destruct (Qlimit_calc s m) as [lim|]; [|discriminate].
  assert (I : forall V, inject_range (v_vref s) V deadband = true <-> 91/100 <= V / v_vref s <= 99/100).
  { intros V. unfold inject_range, deadband, V1, V2. rewrite range_iff by auto. split; lra. }
  assert (A : forall V, absorb_range (v_vref s) V deadband = true <-> 101/100 <= V / v_vref s <= 109/100).
  { intros V. unfold absorb_range, deadband, V3, V4. rewrite range_iff by auto. split; lra. }
  unfold operating. destruct (rlt (v_t s) t) eqn:T.
  - destruct (inject_range _ _ _) eqn:E1; [|destruct (absorb_range _ _ _) eqn:E2];
    (match type of H with (?x, _) = _ => assert (Es : s' = x) by congruence end; clear H; rb;
     rewrite Es; cbn [v_active v_vref v_en v_t v_set]; rewrite Rmax_right by lra; repeat split; auto; try (intros; lra)).
    all: try (intros [K|K]; [apply I in K|apply A in K]; congruence).
    all: try (intros; try (left; apply I; assumption); try (right; apply A; assumption); discriminate).
  - match type of H with (?x, _) = _ => assert (Es : s' = x) by congruence end. clear H. rb.
    rewrite Es. cbn [v_active v_vref v_en v_t v_set]. rewrite Rmax_left by lra. repeat split; auto; intros; lra.
Qed.
Fixpoint increasing_from (t : R) (xs : list vin) : Prop :=
  match xs with [] => True | x :: xs' => t < e_t x /\ increasing_from (e_t x) xs' end.
Lemma run_active xs : forall s, 0 < v_vref s -> 0 <= v_S s -> 0 <= v_n s -> 0 <= v_Xf s -> v_en s = true ->
  Forall (fun x => e_disconnected x = false) xs -> increasing_from (v_t s) xs ->
  (v_active (fst (vv_run s xs)) = true <->
   match rev xs with [] => v_active s = true | x :: _ => operating (mV (e_m x) / v_vref s) end).
Proof.
  induction xs as [|x xs IH]; intros s Hv HS Hn HX He HF Hi; [cbn; tauto|].
  inversion HF; subst. destruct Hi as [Ht Hi]. cbn [vv_run rev].
  destruct (C30_volt_var_output s (e_t x) (e_m x) Hv HS Hn HX He Ht) as (s' & q & lim & E & _ & _).
  destruct (active_step _ _ _ _ _ Hv He E) as (A & _ & V & En & T).
  unfold vv_eval. rewrite E, H1. destruct (vv_run s' xs) as [s2 rs] eqn:R. cbn [fst].
  assert (SS : v_S s' = v_S s /\ v_n s' = v_n s /\ v_Xf s' = v_Xf s).
  { unfold update_Qref in E. rewrite He in E. unfold Volt_VAR_logic in E. destruct (Qlimit_calc s (e_m x)); [|discriminate].
    destruct (rlt _ _); [destruct (inject_range _ _ _); [|destruct (absorb_range _ _ _)]|];
    match type of E with (?y, _) = _ => assert (Es : s' = y) by congruence end; rewrite Es; cbn; auto. }
  destruct SS as (S1 & S2 & S3). rewrite Rmax_right in T by lra.
  specialize (IH s'). rewrite R in IH. cbn [fst] in IH. rewrite IH; auto; try congruence; try (rewrite ?S1, ?S2, ?S3; auto).
  all: try (rewrite V; auto). all: try (rewrite T; auto).
  destruct (rev xs); cbn [app]; rewrite ?V; [apply A; auto|tauto].
Qed.
Theorem C30_active_indicator :
  forall S vref n Xf ext lim0 xs, 0 < vref -> 0 <= S -> 0 <= n -> 0 <= Xf ->
  Forall (fun x => e_disconnected x = false) xs -> increasing_from 0 xs ->
  (v_active (fst (vv_run (vv_init S vref n Xf true ext lim0) xs)) = true <->
   exists x ys, xs = (ys ++ [x])%list /\ operating (mV (e_m x) / vref)).
Proof.
  intros S vref n Xf ext lim0 xs Hv HS Hn HX HF Hi. rewrite run_active by (cbn; auto). cbn [v_active vv_init v_vref].
  destruct (rev xs) as [|x ys] eqn:E.
  - split; [discriminate|]. intros (x & ys & K & _). subst xs. rewrite rev_app_distr in E. discriminate.
  - split.
    + intros K. exists x, (rev ys). split; auto. rewrite <- (rev_involutive xs), E. reflexivity.
    + intros (x' & ys' & K & L). subst xs. rewrite rev_app_distr in E. cbn in E. assert (x' = x) by congruence. subst; auto.
Qed.
Print Assumptions C30_active_indicator.
Example C30_active_hypotheses_met :
  let xs := [Vin 1 (VMeas (95/100) (1/2) 1) false; Vin 2 (VMeas 1 (1/2) 1) false] in
  increasing_from 0 xs /\ Forall (fun x => e_disconnected x = false) xs /\
  operating (mV (VMeas (95/100) (1/2) 1) / 1) /\ ~ operating (mV (VMeas 1 (1/2) 1) / 1).
Proof. cbn. unfold operating; cbn. repeat split; auto; try lra. Qed.
