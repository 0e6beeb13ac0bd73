(** C52 for the three-phase model, continued: literals, refutation, witness. *)
From Coquelicot Require Import Coquelicot.
From Coq Require Import List.
From Verif Require Import RBase PhasorModel PVModel ODEModel JacModel JacSpec JacLemmas PhasorProperties PhasorProperties2 PVProperties JacProperties JacProperties2.
Import RBase.
Import ListNotations.
Open Scope R_scope.


(** ** The decimal literals for sqrt(3)/2 *)
(** Magnitude of the entries that contain a literal. *)
Definition jac3_scale (p : prm) (e : env) (y : st) : R :=
  let V := cabs (volt e PA) + cabs (volt e PB) + cabs (volt e PC) in
  let I := cabs (i_of y PA) + cabs (i_of y PB) + cabs (i_of y PC) in
  Rabs (wp p) * (1 + Rabs (Kp_DC p) + Rabs (Kp_Q p) * V) + (Rabs (Kp_PLL p) * (1 + I / wbase) + Rabs (Ki_PLL p)) * V.
Lemma k9_close : Rabs (k9_code - w3) <= / 1000000000.
Proof.
  unfold k9_code, w3. assert (1732050806/1000000000 <= sqrt 3 <= 1732050808/1000000000); [|apply Rabs_le_between; lra].
  split; [rewrite <- (sqrt_square (1732050806/1000000000)) by lra|rewrite <- (sqrt_square (1732050808/1000000000)) by lra]; apply sqrt_le_1_alt; lra.
Qed.
Lemma k10_close : Rabs (k10_code - w3) <= / 1000000000.
Proof.
  unfold k10_code, w3. assert (1732050807/1000000000 <= sqrt 3 <= 1732050808/1000000000); [|apply Rabs_le_between; lra].
  split; [rewrite <- (sqrt_square (1732050807/1000000000)) by lra|rewrite <- (sqrt_square (1732050808/1000000000)) by lra]; apply sqrt_le_1_alt; lra.
Qed.
Lemma re_le_cabs z : Rabs (re z) <= cabs z.
Proof.
  unfold cabs, cnorm2. rewrite <- sqrt_Rsqr_abs. apply sqrt_le_1_alt. unfold Rsqr. nra.
Qed.
Lemma im_le_cabs z : Rabs (im z) <= cabs z.
Proof.
  unfold cabs, cnorm2. rewrite <- sqrt_Rsqr_abs. apply sqrt_le_1_alt. unfold Rsqr. nra.
Qed.
Lemma aw_diff s d x a b B : Rabs (a - b) <= B -> Rabs (aw s d x a - aw s d x b) <= B.
Proof.
  intros H. pose proof (Rabs_pos (a - b)). unfold aw. destruct s; auto. destruct (same_sign d x); auto.
  replace (0 - 0) with 0 by ring. rewrite Rabs_R0. lra.
Qed.
Section Literals.
Variables (p : prm) (e : env) (y : st).
Hypothesis G : e_grid e = None.
Let V := cabs (volt e PA) + cabs (volt e PB) + cabs (volt e PC).
Let I := cabs (i_of y PA) + cabs (i_of y PB) + cabs (i_of y PC).
Let S_ := jac3_scale p e y.
Let eps := / 1000000000.
Lemma wbase_pos : 0 < wbase. Proof. unfold wbase. pose proof PI_RGT_0. lra. Qed.
Lemma VI_pos : 0 <= V /\ 0 <= I /\ (forall k, cabs (volt e k) <= V) /\ (forall k, cabs (i_of y k) <= I).
Proof.
  assert (A : forall k, 0 <= cabs (volt e k)) by (intros; apply cabs_nonneg).
  assert (B : forall k, 0 <= cabs (i_of y k)) by (intros; apply cabs_nonneg).
  pose proof (A PA); pose proof (A PB); pose proof (A PC); pose proof (B PA); pose proof (B PB); pose proof (B PC).
  unfold V, I. repeat split; try lra; intros []; lra.
Qed.
Lemma S_parts : Rabs (wp p) <= S_ /\ Rabs (wp p) * Rabs (Kp_DC p) <= S_ /\ Rabs (wp p) * (Rabs (Kp_Q p) * V) <= S_ /\
  Rabs (Kp_PLL p) * V <= S_ /\ Rabs (Kp_PLL p) * (I / wbase) * V <= S_ /\ Rabs (Ki_PLL p) * V <= S_ /\ 0 <= S_.
Proof.
  destruct VI_pos as (HV & HI & _ & _). pose proof wbase_pos as HW.
  assert (HQ : 0 <= I / wbase) by (apply Rmult_le_pos; [auto|left; apply Rinv_0_lt_compat; auto]).
  unfold S_, jac3_scale. cbv zeta. fold V I.
  pose proof (Rabs_pos (wp p)). pose proof (Rabs_pos (Kp_DC p)). pose proof (Rabs_pos (Kp_Q p)). pose proof (Rabs_pos (Kp_PLL p)). pose proof (Rabs_pos (Ki_PLL p)).
  pose proof (Rmult_le_pos _ _ H H0). assert (H6 : 0 <= Rabs (wp p) * (Rabs (Kp_Q p) * V)) by (repeat apply Rmult_le_pos; auto).
  assert (H7 : 0 <= Rabs (Kp_PLL p) * V) by (apply Rmult_le_pos; auto).
  assert (H8 : 0 <= Rabs (Kp_PLL p) * (I / wbase) * V) by (apply Rmult_le_pos; [apply Rmult_le_pos; auto|auto]).
  assert (H9 : 0 <= Rabs (Ki_PLL p) * V) by (apply Rmult_le_pos; auto).
  set (q := I / wbase) in *. clearbody q.
  replace (Rabs (wp p) * (1 + Rabs (Kp_DC p) + Rabs (Kp_Q p) * V) + (Rabs (Kp_PLL p) * (1 + q) + Rabs (Ki_PLL p)) * V)
   with (Rabs (wp p) + Rabs (wp p) * Rabs (Kp_DC p) + Rabs (wp p) * (Rabs (Kp_Q p) * V) + Rabs (Kp_PLL p) * V + Rabs (Kp_PLL p) * q * V + Rabs (Ki_PLL p) * V) by ring.
  repeat split; lra.
Qed.
Lemma lit k c : Rabs (k - w3) <= eps -> Rabs c <= S_ -> Rabs ((k - w3) * c) <= eps * S_.
Proof. intros A B. rewrite Rabs_mult. apply Rmult_le_compat; auto; apply Rabs_pos. Qed.
Lemma c_u z s k : Rabs z <= cabs (volt e k) -> s = 1 \/ s = -1 -> Rabs (s * (Kp_Q p * wp p * z / 2)) <= S_.
Proof.
  intros Hz Hs. destruct VI_pos as (HV & _ & Hk & _). specialize (Hk k).
  apply Rle_trans with (Rabs (wp p) * (Rabs (Kp_Q p) * V)); [|apply S_parts].
  replace (s * (Kp_Q p * wp p * z / 2)) with (wp p * (Kp_Q p * (s * z / 2))) by field. rewrite !Rabs_mult.
  apply Rmult_le_compat_l; [apply Rabs_pos|]. apply Rmult_le_compat_l; [apply Rabs_pos|].
  unfold Rdiv. rewrite !Rabs_mult. rewrite (Rabs_pos_eq (/2)) by lra. pose proof (Rabs_pos z).
  destruct Hs as [-> | ->]; [rewrite Rabs_R1|replace (Rabs (-1)) with 1 by (rewrite Rabs_left; lra)]; lra.
Qed.
Lemma c_pll K r2 r3 c2 c3 c : Rabs K * V <= S_ -> 0 <= r2 -> 0 <= r3 -> r2 + r3 <= V -> Rabs c2 <= 1 -> Rabs c3 <= 1 -> Rabs c <= 1 ->
  Rabs (2/3 * K * (r2 * c2 * c - r3 * c3 * c)) <= S_.
Proof.
  intros HK H2 H3 HV A B C. apply Rle_trans with (Rabs K * V); auto.
  replace (2/3 * K * (r2 * c2 * c - r3 * c3 * c)) with (K * (2/3 * (c * (r2 * c2 - r3 * c3)))) by ring.
  rewrite !Rabs_mult. apply Rmult_le_compat_l; [apply Rabs_pos|]. rewrite (Rabs_pos_eq (2/3)) by lra.
  assert (X : Rabs (r2 * c2 - r3 * c3) <= V).
  { apply Rabs_le_between in A. apply Rabs_le_between in B. apply Rabs_le_between. nra. }
  pose proof (Rabs_pos c). pose proof (Rabs_pos (r2 * c2 - r3 * c3)). nra.
Qed.
Lemma trig1 x : Rabs (sin x) <= 1 /\ Rabs (cos x) <= 1.
Proof. pose proof (SIN_bound x). pose proof (COS_bound x). split; apply Rabs_le_between; lra. Qed.
Lemma cK_i K z k : Rabs z <= cabs (i_of y k) -> K = Kp_PLL p * z / wbase -> Rabs K * V <= S_.
Proof.
  intros Hz ->. destruct VI_pos as (HV & HI & _ & Hk). specialize (Hk k). pose proof wbase_pos as HW.
  apply Rle_trans with (Rabs (Kp_PLL p) * (I / wbase) * V); [|apply S_parts].
  apply Rmult_le_compat_r; auto. unfold Rdiv. rewrite !Rabs_mult. rewrite (Rabs_pos_eq (/ wbase)) by (left; apply Rinv_0_lt_compat; auto).
  rewrite Rmult_assoc. apply Rmult_le_compat_l; [apply Rabs_pos|]. apply Rmult_le_compat_r; [left; apply Rinv_0_lt_compat; auto|lra].
Qed.
Ltac same := rewrite Rminus_diag_eq by reflexivity; rewrite Rabs_R0; apply Rmult_le_pos; [unfold eps; lra|apply S_parts].
Ltac bc k := first [ apply (c_u _ 1 k); [apply re_le_cabs|auto] | apply (c_u _ 1 k); [apply im_le_cabs|auto]
                | apply (c_u _ (-1) k); [apply re_le_cabs|auto] | apply (c_u _ (-1) k); [apply im_le_cabs|auto] ].
Ltac pll_rep d K :=
  replace d with ((k10_code - w3) * (2/3 * K * (cabs (volt e PB) * cos (e_wgrid e * e_t e + cphase (volt e PB) - PI / 2) * cos (y WTE) -
              cabs (volt e PC) * cos (e_wgrid e * e_t e + cphase (volt e PC) - PI / 2) * cos (y WTE)))) by ring.
Lemma jac3_literals v w : Rabs (jac3 p e y v w - jac3_at w3 w3 p e y v w) <= eps * S_.
Proof.
  unfold jac3. 
  destruct v as [kv cv| | | | | | |]; try (destruct kv; destruct cv); destruct w as [kw cw| | | | | | |]; try (destruct kw; destruct cw); try (unfold jac3_at; same).
  all: unfold jac3_at; cbv zeta; rewrite ?(v3_form p e G y); try apply aw_diff.
  all: lazymatch goal with
  | |- context [Kp_Q p * wp p * ?f (volt e ?k) / 2] =>
      match goal with |- Rabs ?d <= _ =>
        first [ replace d with ((k9_code - w3) * (1 * (Kp_Q p * wp p * f (volt e k) / 2))) by ring
              | replace d with ((k9_code - w3) * (-1 * (Kp_Q p * wp p * f (volt e k) / 2))) by ring ];
        apply lit; [apply k9_close|apply (c_u _ _ k); [first [apply re_le_cabs|apply im_le_cabs]|auto]] end
  | |- context [cos (y WTE)] =>
      match goal with |- Rabs ?d <= _ => match d with | context [- (2/3) * ?K * _] => pll_rep d (- K) | context [(2/3) * ?K * _] => pll_rep d K end end;

      apply lit; [apply k10_close|]; apply c_pll; try apply cabs_nonneg; try apply trig1; try apply S_parts;
      [first [ rewrite Rabs_Ropp | idtac]; solve [eapply (cK_i _ _ PA); [|reflexivity]; first [apply (re_le_cabs (i_of y PA))|apply (im_le_cabs (i_of y PA))]
             | eapply (cK_i _ _ PB); [|reflexivity]; first [apply (re_le_cabs (i_of y PB))|apply (im_le_cabs (i_of y PB))]
             | eapply (cK_i _ _ PC); [|reflexivity]; first [apply (re_le_cabs (i_of y PC))|apply (im_le_cabs (i_of y PC))]
             | unfold V; pose proof (cabs_nonneg (volt e PA)); lra ] | ..]; unfold V; pose proof (cabs_nonneg (volt e PA)); try lra
  | |- _ => idtac
  end.
  all: match goal with |- Rabs ?d <= _ =>
    first [ replace d with ((k9_code - w3) * wp p) by ring
          | replace d with (- ((k9_code - w3) * wp p)) by ring; rewrite Rabs_Ropp
          | replace d with ((k10_code - w3) * wp p) by ring
          | replace d with ((k9_code - w3) * (wp p * Kp_DC p)) by ring
          | replace d with (- ((k10_code - w3) * (wp p * Kp_DC p))) by ring; rewrite Rabs_Ropp ] end;
    apply lit; try apply k9_close; try apply k10_close; rewrite ?Rabs_mult; apply S_parts.
Qed.
End Literals.

(** With exact sqrt(3)/2 in place of the decimal literals every entry except
    (Vrms, Vrms) is the partial derivative; the literals change an entry by at most
    1e-9 times [jac3_scale]; the missing (Vrms, Vrms) entry is -1/T. *)
Theorem C52_three_phase_partial :
  forall p e y, external_voltage e -> sound_parameters p -> Tfilter p <> 0 -> regular3 p e y ->
  (forall v w, In v states3 -> In w states3 -> ~ (v = VRF /\ w = VRF) ->
   exists d, partial_derivative (fun z => ode3 p e z v) w y d /\
             Rabs (jac3 p e y v w - d) <= / 1000000000 * jac3_scale p e y) /\
  (forall v w, In v states3 -> In w states3 -> ~ (v = VRF /\ w = VRF) ->
   partial_derivative (fun z => ode3 p e z v) w y (jac3_at (sqrt 3 / 2) (sqrt 3 / 2) p e y v w)) /\
  partial_derivative (fun z => ode3 p e z VRF) VRF y (- (1 / Tfilter p)).
Proof.
  intros p e y EV SP HT REG. split; [|split].
  - intros v w Hv Hw N. exists (jac3_at w3 w3 p e y v w). split; [apply C52_three_phase_sec; auto|].
    apply jac3_literals. apply EV.
  - intros v w Hv Hw N. apply (C52_three_phase_sec p e y EV SP REG v w Hv Hw N).
  - apply (C52_three_phase_vrms p e y EV HT).
Qed.
Print Assumptions C52_three_phase_partial.

Definition wit3_e : env := Env 0 0 (Cx 1 0) (Cx 0 1) (Cx 1 0) None 0 2 (PVM 1 1000 100 300) true 2.
Lemma w3_bound : 0 < w3 < 1.
Proof.
  unfold w3. split; [apply Rdiv_lt_0_compat; [apply sqrt_lt_R0|]; lra|].
  assert (sqrt 3 < 2); [|lra]. rewrite <- (sqrt_square 2) by lra. apply sqrt_lt_1; lra.
Qed.
Lemma wit_regular3 : regular3 wit_p wit3_e wit_y.
Proof.
  assert (A : forall r, Rabs r <= 3 <-> -3 <= r <= 3) by (intros; apply Rabs_le_between).
  unfold regular3. split; [|split; [|exact wit_pv]].
  - intros k. split; [|split; [|split]]; apply off_below; apply cabs_lt10; apply A; destruct k; cbn; lra.
  - rewrite (iref3_form wit_p wit3_e eq_refl). split; apply off_below; apply cabs_lt10; apply A; unfold N3_rD, N3_rQ, N3_Q, N3_Qk; cbn; lra.
Qed.
Example C52_three_phase_hypotheses_met : exists p e y, external_voltage e /\ sound_parameters p /\ Tfilter p <> 0 /\ regular3 p e y.
Proof. exists wit_p, wit3_e, wit_y. split; [split; reflexivity|]. split; [split; cbn; lra|]. split; [cbn; lra|apply wit_regular3]. Qed.

(** REFUTED for the full matrix: the row of the voltage filter is never filled. *)
Theorem C52_three_phase_refuted :
  exists p e y v w, external_voltage e /\ sound_parameters p /\ Tfilter p <> 0 /\ regular3 p e y /\ In v states3 /\ In w states3 /\
    ~ partial_derivative (fun z => ode3 p e z v) w y (jac3 p e y v w) /\
    (forall d, partial_derivative (fun z => ode3 p e z v) w y d -> Rabs (jac3 p e y v w - d) = 1 / Tfilter p).
Proof.
  exists wit_p, wit3_e, wit_y, VRF, VRF. split; [split; reflexivity|]. split; [split; cbn; lra|]. split; [cbn; lra|]. split; [apply wit_regular3|].
  split; [simpl; tauto|]. split; [simpl; tauto|].
  pose proof (C52_three_phase_vrms wit_p wit3_e wit_y ltac:(split; reflexivity) ltac:(cbn; lra)) as T.
  assert (J : jac3 wit_p wit3_e wit_y VRF VRF = 0) by reflexivity. rewrite J.
  split.
  - intros H. pose proof (uniqueness_limite _ _ _ _ H T) as E. cbn in E. lra.
  - intros d H. rewrite (uniqueness_limite _ _ _ _ H T). cbn [wit_p Tfilter]. rewrite Rabs_pos_eq; lra.
Qed.
Print Assumptions C52_three_phase_refuted.
