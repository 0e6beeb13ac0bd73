(** C132, continued: a run goes on until it meets one of its limits. *)
From Coq Require Import List Classical_Prop.
From Coquelicot Require Import Coquelicot.
From Verif Require Import RBase CxField PhasorModel PVModel ODEModel Const3Model FilterProperties BoundProperties SettleProperties SolutionSpec SolutionProofs SolutionProperties ExistProperties.
Import RBase ListNotations.
Open Scope R_scope.

(** two runs that agree on an overlap make one longer run *)
Lemma join p k E a T0 T T' Y Z : a <= T0 < T -> T <= T' -> run_between a T (rhs p k) E Y -> run_between T0 T' (rhs p k) E Z ->
  (forall t v, T0 <= t <= T -> Z t v = Y t v) ->
  exists W, run_between a T' (rhs p k) E W /\ (forall t, a <= t < T -> forall v, W t v = Y t v) /\ (forall t, T0 < t <= T' -> forall v, W t v = Z t v).
Proof.
  intros H0 HT [DY CY] [DZ CZ] Eq. set (mid := (T0 + T) / 2). assert (Hm : T0 < mid < T) by (unfold mid; lra).
  set (W := fun t => if Rle_dec t mid then Y t else Z t).
  assert (WY : forall s, s < T -> W s = Y s \/ (T0 <= s <= T /\ W s = Z s)).
  { intros s Hs. unfold W. destruct (Rle_dec s mid); [auto|right; split; [lra|reflexivity]]. }
  assert (LY : forall s v, s < T -> W s v = Y s v) by (intros s v Hs; destruct (WY s Hs) as [->|(H & ->)]; [reflexivity|apply Eq; auto]).
  assert (LZ : forall s v, T0 < s <= T' -> W s v = Z s v).
  { intros s v Hs. unfold W. destruct (Rle_dec s mid); [symmetry; apply Eq; lra|reflexivity]. }
  assert (LZ' : forall s v, mid < s -> W s v = Z s v) by (intros s v Hs; unfold W; destruct (Rle_dec s mid); [lra|reflexivity]).
  assert (NY : forall t v, t < T -> locally t (fun s => Y s v = W s v)).
  { intros t v Ht. assert (D : 0 < T - t) by lra. exists (mkposreal _ D). intros s Hs. cbn [pos] in Hs. unfold ball in Hs; simpl in Hs; unfold AbsRing_ball, abs, minus, plus, opp in Hs; simpl in Hs.
    symmetry. apply LY. apply Rabs_def2 in Hs. lra. }
  assert (NZ : forall t v, mid < t -> locally t (fun s => Z s v = W s v)).
  { intros t v Ht. assert (D : 0 < t - mid) by lra. exists (mkposreal _ D). intros s Hs. cbn [pos] in Hs. unfold ball in Hs; simpl in Hs; unfold AbsRing_ball, abs, minus, plus, opp in Hs; simpl in Hs.
    symmetry. apply LZ'. apply Rabs_def2 in Hs. lra. }
  assert (Ext : forall t (U : st), W t = U -> forall v, rhs p k (E t) (W t) v = rhs p k (E t) U v) by (intros t U -> v; reflexivity).
  exists W. split; [split|split; [intros t Ht v; apply LY; lra|intros t Ht v; apply LZ; auto]].
  - intros t v Ht. destruct (Rle_dec t mid) as [Le|Gt].
    + apply (is_derive_ext_loc (K := R_AbsRing) (V := R_NormedModule) (fun s => Y s v)); [apply NY; lra|].
      assert (WE : W t = Y t) by (unfold W; destruct (Rle_dec t mid); [reflexivity|lra]). rewrite (Ext t (Y t) WE). apply DY. lra.
    + apply (is_derive_ext_loc (K := R_AbsRing) (V := R_NormedModule) (fun s => Z s v)); [apply NZ; lra|].
      assert (WE : W t = Z t) by (unfold W; destruct (Rle_dec t mid); [lra|reflexivity]). rewrite (Ext t (Z t) WE). apply DZ. lra.
  - intros t v Ht. destruct (Rle_dec t mid) as [Le|Gt].
    + apply (continuous_ext_loc (T := R_UniformSpace) (U := R_UniformSpace) (fun s => W s v) (fun s => Y s v)); [|apply CY; lra]. apply NY. lra.
    + apply (continuous_ext_loc (T := R_UniformSpace) (U := R_UniformSpace) (fun s => W s v) (fun s => Z s v)); [|apply CZ; lra]. apply NZ. lra.
Qed.
(** As long as the inputs do not jump, the run from a state inside the limits goes on to
    the end of the interval, unless it comes closer than [d] to a limit, exceeds [M] in
    some state, or the DC voltage falls below [c] - whatever d, c and M are. *)
Theorem C132_continues_partial : forall p k E m B L a b d c M y0, a < b -> 0 < d -> 0 < c -> Cdc p <> 0 ->
  (forall t, a <= t <= b -> smooth_inputs p E t B L m) -> good_point p k E d c M a y0 ->
  exists T Y, a < T <= b /\ run_between a T (rhs p k) E Y /\ (forall v, Y a v = y0 v) /\
    (T = b \/ ~ good_point p k E d c M T (Y T)).
Proof.
  intros p k E m B L a b d c M y0 Hab Hd Hc HC HE H0.
  set (Om := fun t y => a <= t <= b /\ good_point p k E d c M t y).
  destruct (local_run p k E m B L M Om) with (d := d) (c := c / 2) as (h & Hh & Loc); auto; try lra.
  { intros t y (Ht & _ & HM & _). split; auto. }
  { intros t y (Ht & Hcl & _ & HV). split; auto. intros Hk. specialize (HV Hk). lra. }
  set (Done := exists T Y, a < T <= b /\ run_between a T (rhs p k) E Y /\ (forall v, Y a v = y0 v) /\ (T = b \/ ~ good_point p k E d c M T (Y T))).
  assert (Step : forall n, Done \/ exists Y, run_between a (a + INR n * (h / 2) + h) (rhs p k) E Y /\ (forall v, Y a v = y0 v)).
  { induction n as [|n [IH|(Y & HR & HY0)]]; [|left; exact IH|].
    - right. destruct (Loc a y0) as (Y & HR & HY0 & _); [split; [lra|exact H0]|]. exists Y. cbn [INR]. rewrite Rmult_0_l, Rplus_0_r. auto.
    - set (T1 := a + INR n * (h / 2) + h / 2). assert (P1 : 0 <= INR n) by apply pos_INR. assert (P2 : 0 <= INR n * (h / 2)) by (apply Rmult_le_pos; lra).
      assert (A1 : a < T1) by (unfold T1; lra).
      destruct (Rle_lt_dec b T1) as [Le|Lt].
      { left. exists b, Y. split; [lra|]. split; [|auto]. apply (run_sub a (a + INR n * (h / 2) + h)); auto; unfold T1 in Le; lra. }
      destruct (classic (good_point p k E d c M T1 (Y T1))) as [G|NG].
      2: { left. exists T1, Y. split; [lra|]. split; [|auto]. apply (run_sub a (a + INR n * (h / 2) + h)); auto; unfold T1; lra. }
      right. destruct (Loc T1 (Y T1)) as (Z & HZ & HZ0 & Cl & Lv); [split; [lra|exact G]|].
      assert (ET : a + INR n * (h / 2) + h = T1 + h / 2) by (unfold T1; field). rewrite ET in HR.
      assert (EI : T1 + h = a + INR (Datatypes.S n) * (h / 2) + h) by (unfold T1; rewrite S_INR; field).
      assert (Same : forall t v, T1 <= t <= T1 + h / 2 -> Z t v = Y t v).
      { intros t v Ht. apply (C132_unique_partial p k E m B T1 (T1 + h / 2) (d / 2) Z Y); auto; try lra.
        - assert (S1 : a <= T1 <= b) by lra. destruct (HE T1 S1) as (E1 & E2 & E3 & E4 & E5 & E6 & _). intros s Hs. assert (W : Rabs (s - T1) <= 1) by (apply Rabs_le; lra).
          split; [apply E1; auto|]. split; [apply (E2 s s); auto|]. split; [intros ph; apply (E3 ph s s); auto|]. split; [apply (E4 s s); auto|]. split; [apply (E5 s s); auto|]. split; [apply (E6 s s); auto|].
          apply E1; auto.
        - apply (run_sub T1 (T1 + h)); auto; lra.
        - apply (run_sub a (T1 + h / 2)); auto; lra.
        - intros s Hs. apply Cl. lra. }
      destruct (join p k E a T1 (T1 + h / 2) (T1 + h) Y Z) as (W & HW & WY & _); auto; try lra.
      exists W. rewrite <- EI. split; [exact HW|]. intros v. rewrite WY by lra. apply HY0. }
  assert (Arch : exists n, (b - a) / (h / 2) < INR n).
  { set (q := (b - a) / (h / 2)). assert (Hq : 0 <= q) by (unfold q, Rdiv; apply Rmult_le_pos; [lra|]; left; apply Rinv_0_lt_compat; lra).
    destruct (nfloor_ex q Hq) as (n & Hn). exists (Datatypes.S n). rewrite S_INR. lra. }
  destruct Arch as (n & Hn).
  destruct (Step n) as [D|(Y & HR & HY0)]; [exact D|].
  exists b, Y. split; [lra|]. split; [|auto]. apply (run_sub a (a + INR n * (h / 2) + h)); auto; try lra.
  assert (Eq : (b - a) / (h / 2) * (h / 2) = b - a) by (field; lra). assert ((b - a) / (h / 2) * (h / 2) <= INR n * (h / 2)) by (apply Rmult_le_compat_r; lra). lra.
Qed.
Print Assumptions C132_continues_partial.

(** Non-vacuity: the connected DER of [C132_exists_met] over one second. *)
Example C132_continues_met : forall m, exists T Y, 0 < T <= 1 /\ run_between 0 T (rhs decay_prm SinglePhase) (live_env m) Y /\ (forall v, Y 0 v = live_state v) /\
  (T = 1 \/ ~ good_point decay_prm SinglePhase (live_env m) (1/2) 1 10 T (Y T)).
Proof.
  intros m. apply (C132_continues_partial decay_prm SinglePhase (live_env m) m (2 * wbase) wbase 0 1 (1/2) 1 10 live_state); try lra.
  - cbn. lra.
  - intros a Ha. apply live_smooth; lra.
  - split; [apply live_clear|]. split; [|intros _; cbn; lra]. intros v. apply Rabs_le. destruct v as [[| |] [| | | | |]| | | | | | |]; cbn; lra.
Qed.
