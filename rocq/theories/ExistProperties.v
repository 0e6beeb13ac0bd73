(** C132, continued: inside the limits the differential equations have a run, and only
    one, for a positive time. *)
From Coq Require Import List.
From Coquelicot Require Import Coquelicot.
From Verif Require Import RBase CxField PhasorModel PVModel ODEModel Const3Model PhasorProperties PhasorProperties2 CircuitProperties2 CircuitProperties3 PLLProperties FilterProperties BoundProofs BoundProperties SettleProofs SettleProperties SettleProperties2 SolutionSpec SolutionProofs LipschitzProofs SolutionProperties PicardProofs.
Import RBase ListNotations.
Open Scope R_scope.

(** two points (time and state) and a bound on their distance *)
Definition pts : Type := ((R * st) * (R * st)) * R.
Definition t1 (x : pts) : R := fst (fst (fst x)).
Definition y1 (x : pts) : st := snd (fst (fst x)).
Definition t2 (x : pts) : R := fst (snd (fst x)).
Definition y2 (x : pts) : st := snd (snd (fst x)).
Definition gap (x : pts) : R := Rabs (snd x).
Definition within (a : R) (y0 : st) (r : R) (x : pts) : Prop :=
  Rabs (t1 x - a) <= r /\ Rabs (t2 x - a) <= r /\ (forall v, Rabs (y1 x v - y0 v) <= r) /\ (forall v, Rabs (y2 x v - y0 v) <= r) /\
  Rabs (t1 x - t2 x) <= gap x /\ (forall v, Rabs (y1 x v - y2 x v) <= gap x).

Lemma all_near X (D : X -> Prop) N (f g : X -> var -> R) : (forall v, near D N (fun x => f x v) (fun x => g x v)) -> (forall x, 0 <= N x) ->
  exists K M, 0 <= K /\ 0 <= M /\ forall x v, D x -> Rabs (f x v - g x v) <= K * N x /\ Rabs (f x v) <= M.
Proof.
  intros H NP.
  assert (Q : forall l, exists K M, 0 <= K /\ 0 <= M /\ forall x v, In v l -> D x -> Rabs (f x v - g x v) <= K * N x /\ Rabs (f x v) <= M).
  { induction l as [|w l (K & M & HK & HM & IH)]; [exists 0, 0; repeat split; try lra; destruct H0|].
    destruct (H w) as (K1 & M1 & HK1 & HM1 & H1). exists (K + K1), (M + M1). split; [lra|]. split; [lra|].
    intros x v Hv Dx. specialize (NP x). assert (0 <= K * N x) by (apply Rmult_le_pos; auto). assert (0 <= K1 * N x) by (apply Rmult_le_pos; auto).
    destruct Hv as [<-|Hv]; [destruct (H1 x Dx) as (A & B & _)|destruct (IH x v Hv Dx) as (A & B)]; split; lra. }
  destruct (Q core) as (K & M & HK & HM & P). exists K, M. split; auto. split; auto. intros x v Dx. apply P; auto. apply core_all.
Qed.

Section Local.
  (** [Om] is a set of starting points (time and state) *)
  Variables (p : prm) (k : kind) (E : R -> env) (m : pvm) (B L M : R) (Om : R -> st -> Prop).
  Hypothesis (HE : forall a y0, Om a y0 -> smooth_inputs p E a B L m /\ forall v, Rabs (y0 v) <= M).
  Definition around (r : R) (x : pts) : Prop := exists a y0, Om a y0 /\ within a y0 r x.
  Section Box.
    Variable r : R.
    Hypothesis Hr : 0 < r <= 1.
    Let D := around r.
    Let E1 (x : pts) := E (t1 x).
    Let E2 (x : pts) := E (t2 x).
    Lemma gap_pos x : 0 <= gap x. Proof. apply Rabs_pos. Qed.
    Lemma b_state v : near D gap (fun x => y1 x v) (fun x => y2 x v).
    Proof.
      exists 1, (Rabs M + 1). pose proof (Rabs_pos M). pose proof (Rle_abs M). split; [lra|]. split; [lra|].
      intros x (a & y0 & Ho & _ & _ & Q1 & Q2 & _ & Q3). destruct (HE a y0 Ho) as (_ & HM). specialize (HM v). repeat split.
      - rewrite Rmult_1_l. apply Q3.
      - specialize (Q1 v). replace (y1 x v) with ((y1 x v - y0 v) + y0 v) by ring. eapply Rle_trans; [apply Rabs_triang|]. lra.
      - specialize (Q2 v). replace (y2 x v) with ((y2 x v - y0 v) + y0 v) by ring. eapply Rle_trans; [apply Rabs_triang|]. lra.
    Qed.
    Lemma b_slow (f : R -> R) : (forall a y0, Om a y0 -> slow f a B L) -> near D gap (fun x => f (t1 x)) (fun x => f (t2 x)).
    Proof.
      intros H. exists (Rabs L), (Rabs B). split; [apply Rabs_pos|]. split; [apply Rabs_pos|].
      intros x (a & y0 & Ho & Q1 & Q2 & _ & _ & Q3 & _). specialize (H a y0 Ho). assert (T1 : Rabs (t1 x - a) <= 1) by lra. assert (T2 : Rabs (t2 x - a) <= 1) by lra.
      destruct (H _ _ T1 T2) as (A1 & A2). destruct (H _ _ T2 T1) as (A3 & _). pose proof (Rle_abs B). repeat split; try lra.
      eapply Rle_trans; [exact A2|]. pose proof (Rle_abs L). pose proof (Rabs_pos (t1 x - t2 x)). pose proof (Rabs_pos L).
      apply Rle_trans with (Rabs L * Rabs (t1 x - t2 x)); [apply Rmult_le_compat_r; lra|apply Rmult_le_compat_l; lra].
    Qed.
    Lemma b_cslow (f : R -> cx) : (forall a y0, Om a y0 -> cslow f a B L) -> cnear D gap (fun x => f (t1 x)) (fun x => f (t2 x)).
    Proof.
      intros H. split; apply (b_slow (fun t => _ (f t))); intros a y0 Ho s t Hs Ht; destruct (H a y0 Ho s t Hs Ht) as (A1 & A2); split.
      - eapply Rle_trans; [apply cabs_ge_re|exact A1].
      - eapply Rle_trans; [|exact A2]. change (re (f s) - re (f t)) with (re (csub (f s) (f t))). apply cabs_ge_re.
      - eapply Rle_trans; [apply cabs_ge_im|exact A1].
      - eapply Rle_trans; [|exact A2]. change (im (f s) - im (f t)) with (im (csub (f s) (f t))). apply cabs_ge_im.
    Qed.
    Lemma b_in x : D x -> exists a y0, Om a y0 /\ Rabs (t1 x - a) <= 1 /\ Rabs (t2 x - a) <= 1.
    Proof. intros (a & y0 & Ho & Q1 & Q2 & _). exists a, y0. split; [auto|lra]. Qed.
    Lemma b_conn x : D x -> e_conn (E1 x) = e_conn (E2 x).
    Proof. intros Dx. destruct (b_in x Dx) as (a & y0 & Ho & T1 & T2). unfold E1, E2. destruct (HE a y0 Ho) as ((H & _) & _). destruct (H _ T1) as (_ & -> & _). destruct (H _ T2) as (_ & -> & _). reflexivity. Qed.
    Lemma b_mod x : D x -> e_mod (E1 x) = m /\ e_mod (E2 x) = m.
    Proof. intros Dx. destruct (b_in x Dx) as (a & y0 & Ho & T1 & T2). destruct (HE a y0 Ho) as ((H & _) & _). split; apply H; auto. Qed.
    Lemma b_pv f f' : near D gap f f' -> near D gap (fun x => Ppv_val (e_mod (E1 x)) (f x)) (fun x => Ppv_val (e_mod (E2 x)) (f' x)).
    Proof. apply (near_pv_same pts D gap (fun x => e_mod (E1 x)) (fun x => e_mod (E2 x)) m). exact b_mod. Qed.
    Lemma b_pass x : D x -> passive p (E1 x) /\ passive p (E2 x).
    Proof. intros Dx. destruct (b_in x Dx) as (a & y0 & Ho & T1 & T2). destruct (HE a y0 Ho) as ((H & _) & _). split; apply H; auto. Qed.
    Lemma b_z : cnear D gap (fun x => source_impedance p (E1 x)) (fun x => source_impedance p (E2 x)).
    Proof. apply (b_cslow (fun t => source_impedance p (E t))). intros a y0 Ho. apply (HE a y0 Ho). Qed.
    Lemma b_open ph : cnear D gap (fun x => v_calc p (E1 x) ph (Cx 0 0)) (fun x => v_calc p (E2 x) ph (Cx 0 0)).
    Proof. apply (b_cslow (fun t => v_calc p (E t) ph (Cx 0 0))). intros a y0 Ho. apply (HE a y0 Ho). Qed.
    Lemma b_Q : near D gap (fun x => e_Qref (E1 x)) (fun x => e_Qref (E2 x)).
    Proof. apply (b_slow (fun t => e_Qref (E t))). intros a y0 Ho. apply (HE a y0 Ho). Qed.
    Lemma b_Vr : near D gap (fun x => e_Vdcref (E1 x)) (fun x => e_Vdcref (E2 x)).
    Proof. apply (b_slow (fun t => e_Vdcref (E t))). intros a y0 Ho. apply (HE a y0 Ho). Qed.
    Lemma b_Vc : near D gap (fun x => e_Vconst (E1 x)) (fun x => e_Vconst (E2 x)).
    Proof. apply (b_slow (fun t => e_Vconst (E t))). intros a y0 Ho. apply (HE a y0 Ho). Qed.
    Lemma b_w : near D gap (fun x => e_wgrid (E1 x) * e_t (E1 x)) (fun x => e_wgrid (E2 x) * e_t (E2 x)).
    Proof. apply (b_slow (fun t => e_wgrid (E t) * e_t (E t))). intros a y0 Ho. apply (HE a y0 Ho). Qed.
    Lemma b_qerr : near D gap (fun x => q_error p k (E1 x) (y1 x)) (fun x => q_error p k (E2 x) (y2 x)).
    Proof. apply n_qerr; auto using gap_pos, b_state, b_z, b_open, b_Q, b_pass, b_conn. Qed.
    Lemma b_perr : near D gap (fun x => p_error p k (E1 x) (y1 x)) (fun x => p_error p k (E2 x) (y2 x)).
    Proof. apply (n_perr p k); auto using gap_pos, b_state, b_Vr, b_Vc, b_pv, b_conn. Qed.
    Lemma b_outer : cnear D gap (fun x => outer_test p k (E1 x) (y1 x)) (fun x => outer_test p k (E2 x) (y2 x)).
    Proof.
      unfold outer_test. split; cbn [re im].
      - apply (near_plus pts D gap (fun t => y1 t (p_state k)) (fun t => p_gain p k * p_error p k (E1 t) (y1 t)) (fun t => y2 t (p_state k)) (fun t => p_gain p k * p_error p k (E2 t) (y2 t))); [apply b_state|]. apply near_mult; [apply near_const|apply b_perr].
      - apply (near_minus pts D gap (fun t => y1 t XQ) (fun t => Kp_Q p * q_error p k (E1 t) (y1 t)) (fun t => y2 t XQ) (fun t => Kp_Q p * q_error p k (E2 t) (y2 t))); [apply b_state|]. apply near_mult; [apply near_const|apply b_qerr].
    Qed.
    Lemma b_rhs v c : Cdc p <> 0 -> 0 < c -> (forall a y0 t y, Om a y0 -> Rabs (t - a) <= r -> (forall w, Rabs (y w - y0 w) <= r) ->
        unsaturated p k (E t) y /\ (has_dc_link k -> c <= y VDC)) ->
      near D gap (fun x => rhs p k (E1 x) (y1 x) v) (fun x => rhs p k (E2 x) (y2 x) v).
    Proof.
      intros HC Hc U. apply (n_rhs p k); auto using gap_pos, b_state, b_z, b_open, b_Q, b_Vr, b_Vc, b_pv, b_pass, b_conn, near_sin, near_cos, b_w.
      - intros x (a & y0 & Ho & Q1 & Q2 & Q3 & Q4 & _). apply (U a y0); auto.
      - intros x (a & y0 & Ho & Q1 & Q2 & Q3 & Q4 & _). apply (U a y0); auto.
      - intros Hd. exists c. split; auto. intros x (a & y0 & Ho & Q1 & Q2 & Q3 & Q4 & _). split; [apply (U a y0 (t1 x))|apply (U a y0 (t2 x))]; auto.
    Qed.
  End Box.
  (** the limits are kept near a state that is clear of them *)
  Lemma stays_clear d c : 0 < d -> 0 < c -> (forall a y0, Om a y0 -> clear_of_limits p k (E a) y0 d /\ (has_dc_link k -> 2 * c <= y0 VDC)) ->
    exists r, 0 < r <= 1 /\ forall a y0 t y, Om a y0 -> Rabs (t - a) <= r -> (forall w, Rabs (y w - y0 w) <= r) ->
      clear_of_limits p k (E t) y (d / 2) /\ (has_dc_link k -> c <= y VDC).
  Proof.
    intros Hd Hc HO. assert (One : 0 < 1 <= 1) by lra.
    assert (Cn : forall (f : R -> st -> cx), cnear (around 1) gap (fun x => f (t1 x) (y1 x)) (fun x => f (t2 x) (y2 x)) ->
      exists K, 0 <= K /\ forall q a y0 t y, Om a y0 -> 0 <= q <= 1 -> Rabs (t - a) <= q -> (forall w, Rabs (y w - y0 w) <= q) -> cabs (f t y) <= cabs (f a y0) + 2 * (K * q)).
    { intros f [(K1 & M1 & A1 & _ & Q1) (K2 & M2 & A2 & _ & Q2)]. exists (K1 + K2). split; [lra|]. intros q a y0 t y Ho Hq Ht Hy.
      set (x := (((t, y), (a, y0)), q) : pts).
      assert (G : gap x = q) by (unfold gap, x; cbn [snd]; apply Rabs_pos_eq; lra).
      assert (W : around 1 x).
      { exists a, y0. split; [exact Ho|]. unfold within. rewrite G. unfold x, t1, t2, y1, y2. cbn [fst snd]. repeat split; auto; try lra; try (intros v; specialize (Hy v)); try (rewrite Rminus_eq_0, Rabs_R0); lra. }
      destruct (Q1 x W) as (X1 & _). destruct (Q2 x W) as (X2 & _). rewrite G in X1, X2. unfold x, t1, t2, y1, y2 in X1, X2. cbn [fst snd] in X1, X2.
      assert (0 <= K1 * q) by (apply Rmult_le_pos; lra). assert (0 <= K2 * q) by (apply Rmult_le_pos; lra). apply cabs_parts; lra. }
    assert (Dn : forall ph, cnear (around 1) gap (fun x => duty p (y1 x) ph) (fun x => duty p (y2 x) ph)) by (intros ph; apply n_duty; intros; apply b_state; auto).
    destruct (Cn (fun _ y => duty p y PA) (Dn PA)) as (Ka & Ka0 & Da). destruct (Cn (fun _ y => duty p y PB) (Dn PB)) as (Kb & Kb0 & Db). destruct (Cn (fun _ y => duty p y PC) (Dn PC)) as (Kc & Kc0 & Dc).
    destruct (Cn (fun t y => outer_test p k (E t) y) (b_outer 1 One)) as (Ko & Ko0 & Oo). clear Cn Dn.
    set (K := Ka + Kb + Kc + Ko + 1). assert (KP : 1 <= K) by (unfold K; lra).
    assert (EK : d / (4 * K) * (4 * K) = d) by (field; lra).
    assert (DK : 0 < d / (4 * K)) by (apply Rdiv_lt_0_compat; lra).
    exists (Rmin 1 (Rmin (d / (4 * K)) c)). set (r := Rmin 1 (Rmin (d / (4 * K)) c)).
    assert (R0 : 0 < r) by (unfold r; repeat apply Rmin_glb_lt; lra). assert (R1 : r <= 1) by apply Rmin_l.
    assert (R2 : r <= d / (4 * K)) by (eapply Rle_trans; [apply Rmin_r|apply Rmin_l]). assert (R3 : r <= c) by (eapply Rle_trans; [apply Rmin_r|apply Rmin_r]).
    assert (Bd : forall K0, 0 <= K0 <= K -> 2 * (K0 * r) <= d / 2).
    { intros K0 HK. assert (K0 * r <= K * (d / (4 * K))) by (apply Rmult_le_compat; lra). lra. }
    split; [lra|]. intros a y0 t y Ho Ht Hy. destruct (HO a y0 Ho) as ([HD HI] & HV). assert (Hq : 0 <= r <= 1) by lra. split; [split|].
    - intros ph Hp. specialize (HD ph Hp). specialize (Da r a y0 t y Ho Hq Ht Hy). specialize (Db r a y0 t y Ho Hq Ht Hy). specialize (Dc r a y0 t y Ho Hq Ht Hy).
      pose proof (Bd Ka) as B1. pose proof (Bd Kb) as B2. pose proof (Bd Kc) as B3. unfold K in B1, B2, B3. cbv beta in *. destruct ph; lra.
    - pose proof (Bd Ko) as B1. unfold K in B1. specialize (Oo r a y0 t y Ho Hq Ht Hy). unfold outer_test in Oo. lra.
    - intros Hk. specialize (HV Hk). specialize (Hy VDC). apply Rabs_le_between in Hy. lra.
  Qed.
  Lemma clear_unsat e y d : 0 < d -> clear_of_limits p k e y d -> unsaturated p k e y.
  Proof. intros Hd [H1 H2]. split; [intros ph Hp; specialize (H1 ph Hp); lra|lra]. Qed.
  (** one length of time for all starting points *)
  Lemma local_run d c : 0 < d -> 0 < c -> Cdc p <> 0 -> (forall a y0, Om a y0 -> clear_of_limits p k (E a) y0 d /\ (has_dc_link k -> 2 * c <= y0 VDC)) ->
    exists h, 0 < h <= 1 /\ forall a y0, Om a y0 -> exists Y, run_between a (a + h) (rhs p k) E Y /\ (forall v, Y a v = y0 v) /\
      (forall t, a <= t <= a + h -> clear_of_limits p k (E t) (Y t) (d / 2)) /\ (has_dc_link k -> forall t, 0 < Y t VDC).
  Proof.
    intros Hd Hc HC HO. destruct (stays_clear d c Hd Hc HO) as (r & Hr & Cl).
    destruct (all_near pts (around r) gap (fun x v => rhs p k (E (t1 x)) (y1 x) v) (fun x v => rhs p k (E (t2 x)) (y2 x) v)) as (K & S & HK & HS & Q).
    { intros v. apply (b_rhs r Hr v c HC Hc). intros a y0 t y Ho Ht Hy. destruct (Cl a y0 t y Ho Ht Hy) as (C1 & C2). split; [|exact C2]. apply (clear_unsat _ _ (d / 2)); [lra|exact C1]. }
    { apply gap_pos. }
    assert (R0 : 0 < r) by lra.
    set (h := width r r K S). assert (Wp : 0 < h) by (apply width_pos; auto). assert (Wt : h <= r) by (apply width_tau; auto).
    exists h. split; [lra|]. intros a y0 Ho.
    set (F := fun t y v => rhs p k (E t) y v).
    assert (HLip : forall t1' t2' y1' y2' N, Rabs (t1' - a) <= r -> Rabs (t2' - a) <= r -> in_box y0 r y1' -> in_box y0 r y2' ->
      Rabs (t1' - t2') <= N -> (forall v, Rabs (y1' v - y2' v) <= N) -> forall v, Rabs (F t1' y1' v - F t2' y2' v) <= K * N).
    { intros u w z z' N Hu Hw Hz Hz' HN HN' v. set (x := (((u, z), (w, z')), N) : pts).
      assert (G : gap x = N) by (unfold gap, x; cbn [snd]; apply Rabs_pos_eq; pose proof (Rabs_pos (u - w)); lra).
      assert (W : around r x) by (exists a, y0; split; [exact Ho|]; unfold within; rewrite G; unfold x, t1, t2, y1, y2; cbn [fst snd]; repeat split; auto).
      destruct (Q x v W) as (X1 & _). rewrite G in X1. exact X1. }
    assert (HBd : forall t y v, Rabs (t - a) <= r -> in_box y0 r y -> Rabs (F t y v) <= S).
    { intros t y v Ht Hy. set (x := (((t, y), (t, y)), 0) : pts).
      assert (W : around r x).
      { exists a, y0. split; [exact Ho|]. unfold within, gap, x, t1, t2, y1, y2. cbn [fst snd]. rewrite Rminus_eq_0, Rabs_R0. repeat split; auto; try lra. intros w. rewrite Rminus_eq_0, Rabs_R0; lra. }
      destruct (Q x v W) as (_ & X1). exact X1. }
    set (Y := sol F a y0 r r K S). pose proof (sol_good F a y0 r r K S R0 R0 HK HS HLip HBd) as [G1 G2]. fold Y in G1, G2.
    exists Y. split; [split|split; [|split]].
    - intros t v Ht. apply (sol_derive F a y0 r r K S R0 R0 HK HS HLip HBd). apply Rabs_def1; fold h; lra.
    - intros t v Ht. apply (lip_cont _ S). intros; apply G2.
    - apply (sol_start F a y0 r r K S R0 R0 HK HS HLip HBd).
    - intros t Ht. apply (Cl a y0 t (Y t) Ho); [apply Rabs_le; lra|]. apply G1.
    - intros Hk t. assert (W : Rabs (a - a) <= r) by (rewrite Rminus_eq_0, Rabs_R0; lra). pose proof (proj2 (Cl a y0 a (Y t) Ho W (G1 t)) Hk). lra.
  Qed.
End Local.
Lemma bounded_state (y : st) : exists M, forall v, Rabs (y v) <= M.
Proof.
  assert (Q : forall l, exists M, forall v, In v l -> Rabs (y v) <= M).
  { induction l as [|w l (M & IH)]; [exists 0; intros v []|]. exists (Rmax M (Rabs (y w))). intros v [<-|Hv]; [apply Rmax_r|]. eapply Rle_trans; [apply IH; auto|apply Rmax_l]. }
  destruct (Q core) as (M & H). exists M. intros v. apply H, core_all.
Qed.

(** Inside the limits, with inputs that do not jump, the equations have a run for some
    positive time, and it is the only one. *)
Theorem C132_exactly_one_partial : forall p k E m B L a d y0, 0 < d -> Cdc p <> 0 -> smooth_inputs p E a B L m ->
  clear_of_limits p k (E a) y0 d -> (has_dc_link k -> 0 < y0 VDC) ->
  exists h Y, 0 < h /\ run_between a (a + h) (rhs p k) E Y /\ (forall v, Y a v = y0 v) /\
    forall h' Z, 0 < h' <= h -> run_between a (a + h') (rhs p k) E Z -> (forall v, Z a v = y0 v) ->
      forall t v, a <= t <= a + h' -> Z t v = Y t v.
Proof.
  intros p k E m B L a d y0 Hd HC HE HL HV.
  destruct (bounded_state y0) as (M & HM).
  assert (Hc : exists c, 0 < c /\ (has_dc_link k -> 2 * c <= y0 VDC)).
  { destruct (match k return {has_dc_link k} + {~ has_dc_link k} with SingleConst | ThreeConst => right (fun h => h) | _ => left I end) as [Hk|Hk].
    - exists (y0 VDC / 2). specialize (HV Hk). split; [lra|intros; lra].
    - exists 1. split; [lra|]. intros; contradiction. }
  destruct Hc as (c & Hc & Lc).
  destruct (local_run p k E m B L M (fun t y => t = a /\ y = y0)) with (d := d) (c := c) as (h & Hh & Loc); auto.
  { intros t y (-> & ->). split; auto. }
  { intros t y (-> & ->). split; auto. }
  destruct (Loc a y0 (Logic.conj eq_refl eq_refl)) as (Y & HR & H0 & Cl & Lv).
  exists h, Y. split; [lra|]. split; [exact HR|]. split; [exact H0|]. intros h' Z Hh' HZ HZ0 t v Ht. symmetry.
  apply (C132_unique_partial p k E m B a (a + h') (d / 2) Y Z); auto; try lra.
  - destruct HE as (E1 & E2 & E3 & E4 & E5 & E6 & _). intros s Hs. assert (W : Rabs (s - a) <= 1) by (apply Rabs_le; lra).
    split; [apply E1; auto|]. split; [apply (E2 s s); auto|]. split; [intros ph; apply (E3 ph s s); auto|]. split; [apply (E4 s s); auto|]. split; [apply (E5 s s); auto|]. split; [apply (E6 s s); auto|].
    apply E1; auto.
  - apply (run_sub a (a + h)); auto; lra.
  - intros s Hs. apply Cl. lra.
  - intros w. rewrite H0, HZ0. reflexivity.
Qed.
Print Assumptions C132_exactly_one_partial.

(** Non-vacuity: a connected DER on an energised 60 Hz network, injecting current, has
    exactly one run from here. *)
Definition live_env (m : pvm) (t : R) : env := Env t wbase (Cx 1 0) (Cx 0 0) (Cx 0 0) None 0 2 m true 0.
Definition live_state : st := fun v => match v with P PA CiR => 1/4 | P PA CxR => 1/2 | VDC => 2 | XDC => 1/4 | _ => 0 end.
Lemma live_smooth m a : 0 <= a <= 1 -> smooth_inputs decay_prm (live_env m) a (2 * wbase) wbase m.
Proof.
  intros Ha. assert (A0 : cabs (Cx 0 0) = 0) by (unfold cabs, cnorm2; cbn [re im]; rewrite Rmult_0_l, Rplus_0_l; apply sqrt_0).
  assert (Ab : forall x, cabs (Cx x 0) = Rabs x) by (intros x; unfold cabs, cnorm2; cbn [re im]; rewrite Rmult_0_l, Rplus_0_r; apply sqrt_Rsqr_abs).
  assert (W : 2 < wbase) by (unfold wbase; pose proof PI2_1; lra).
  assert (Cs : forall c, cabs c <= wbase -> cslow (fun _ => c) a (2 * wbase) wbase).
  { intros c Hc s t _ _. split; [lra|]. replace (csub c c) with (Cx 0 0) by (unfold csub; apply cx_eq; cbn [re im]; ring). rewrite A0. apply Rmult_le_pos; [lra|apply Rabs_pos]. }
  assert (Sl : forall c : R, 0 <= c <= 2 -> slow (fun _ => c) a (2 * wbase) wbase).
  { intros c Hc s t _ _. rewrite Rminus_eq_0, Rabs_R0. rewrite Rabs_pos_eq by lra. split; [lra|]. apply Rmult_le_pos; [lra|apply Rabs_pos]. }
  split; [intros t _; repeat split|]. cbn [live_env e_Qref e_Vdcref e_Vconst e_wgrid e_t].
  split; [apply (Cs (Cx 0 0)); rewrite A0; lra|]. split; [intros ph; destruct ph; [apply (Cs (Cx 1 0))|apply (Cs (Cx 0 0))|apply (Cs (Cx 0 0))]; rewrite Ab, ?Rabs_R0, ?Rabs_R1; lra|].
  split; [apply Sl; lra|]. split; [apply Sl; lra|]. split; [apply Sl; lra|]. intros s t Hs Ht. split.
  - rewrite Rabs_mult, (Rabs_pos_eq wbase) by lra. rewrite (Rmult_comm 2). apply Rmult_le_compat_l; [lra|].
    replace t with ((t - a) + a) by ring. eapply Rle_trans; [apply Rabs_triang|]. rewrite (Rabs_pos_eq a) by lra. lra.
  - rewrite <- Rmult_minus_distr_l, Rabs_mult, (Rabs_pos_eq wbase) by lra. lra.
Qed.
Lemma live_clear m : clear_of_limits decay_prm SinglePhase (live_env m 0) live_state (1/2).
Proof.
  assert (Ab : forall x, cabs (Cx x 0) = Rabs x) by (intros x; unfold cabs, cnorm2; cbn [re im]; rewrite Rmult_0_l, Rplus_0_r; apply sqrt_Rsqr_abs).
  split.
  - intros ph Hp. cbn [has_phase] in Hp. subst ph. unfold duty. cbn [live_state decay_prm Kp_GCC m_limit].
    match goal with |- cabs (Cx ?x ?y) + _ <= _ => replace y with 0 by ring end. rewrite Ab, Rabs_pos_eq; lra.
  - unfold p_error, q_error, S_pcc, v_calc, S_ph, i_of, conj. cbn [p_state p_gain live_state decay_prm e_conn live_env e_grid e_va Kp_DC Kp_Q iref_limit e_Vdcref e_Qref].
    unfold cscale, cmul. cbn [re im]. match goal with |- cabs (Cx ?x ?y) + _ <= _ => replace y with 0 by field; replace x with (1/4) by ring end. rewrite Ab, Rabs_pos_eq; lra.
Qed.
Example C132_exists_met : forall m, exists h Y, 0 < h /\ run_between 0 (0 + h) (rhs decay_prm SinglePhase) (live_env m) Y /\ (forall v, Y 0 v = live_state v).
Proof.
  intros m. destruct (C132_exactly_one_partial decay_prm SinglePhase (live_env m) m (2 * wbase) wbase 0 (1/2) live_state) as (h & Y & Hh & HR & H0 & _).
  - lra.
  - cbn. lra.
  - apply live_smooth. lra.
  - apply live_clear.
  - intros _. cbn. lra.
  - exists h, Y. auto.
Qed.
