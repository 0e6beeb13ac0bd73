(** C135: small changes of the inputs - grid voltage and impedance, irradiance, references,
    phase of the network - change the run little. *)
From Coq Require Import List.
From Coquelicot Require Import Coquelicot.
From Verif Require Import RBase CxField PhasorModel PVModel ODEModel Const3Model PhasorProperties PhasorProperties2 CircuitProperties3 FilterProperties BoundProofs BoundProperties SettleProofs SettleProperties SolutionSpec SolutionProofs LipschitzProofs SolutionProperties ExistProperties ContinueProperties DependProperties.
Import RBase ListNotations.
Open Scope R_scope.

(** * Specification *)
(** the inputs [e'] differ from [e] by at most [d]: the same connection state and the same
    array at the same temperature; irradiance, Thevenin impedance and open-circuit voltage of
    the network at the terminals, references, DC voltage of the constant-voltage models and
    electrical angle w*t each within [d] *)
Definition inputs_close (p : prm) (e e' : env) (d : R) : Prop :=
  e_conn e' = e_conn e /\
  (PVModel.Np (e_mod e') = PVModel.Np (e_mod e) /\ PVModel.Ns (e_mod e') = PVModel.Ns (e_mod e) /\ Tactual (e_mod e') = Tactual (e_mod e)) /\
  Rabs (Sinsol (e_mod e') - Sinsol (e_mod e)) <= d /\
  cabs (csub (source_impedance p e') (source_impedance p e)) <= d /\
  (forall ph, cabs (csub (v_calc p e' ph (Cx 0 0)) (v_calc p e ph (Cx 0 0))) <= d) /\
  Rabs (e_Qref e' - e_Qref e) <= d /\ Rabs (e_Vdcref e' - e_Vdcref e) <= d /\ Rabs (e_Vconst e' - e_Vconst e) <= d /\
  Rabs (e_wgrid e' * e_t e' - e_wgrid e * e_t e) <= d.

(** * Proofs *)
(** a point of the given run, other inputs and state, and a bound on the difference *)
Definition pairs : Type := ((env * st) * (env * st)) * R.
Definition ea (x : pairs) : env := fst (fst (fst x)).
Definition ya (x : pairs) : st := snd (fst (fst x)).
Definition eb (x : pairs) : env := fst (snd (fst x)).
Definition yb (x : pairs) : st := snd (snd (fst x)).
Definition dif (x : pairs) : R := Rabs (snd x).

Section Pairs.
  Variables (p : prm) (k : kind) (m : pvm) (B M : R) (Om : env -> st -> Prop).
  Hypothesis (HO : forall e y, Om e y -> passive p e /\ cabs (source_impedance p e) <= B /\ (forall ph, cabs (v_calc p e ph (Cx 0 0)) <= B) /\
    Rabs (e_Qref e) <= B /\ Rabs (e_Vdcref e) <= B /\ Rabs (e_Vconst e) <= B /\ Rabs (e_wgrid e * e_t e) <= B /\ e_mod e = m /\ forall v, Rabs (y v) <= M).
  Definition pair_in (r : R) (x : pairs) : Prop :=
    Om (ea x) (ya x) /\ passive p (eb x) /\ dif x <= r /\ inputs_close p (ea x) (eb x) (dif x) /\ forall v, Rabs (yb x v - ya x v) <= dif x.
  Lemma dif_pos x : 0 <= dif x. Proof. apply Rabs_pos. Qed.
  Section Box.
    Variable r : R.
    Hypothesis Hr : r <= 1.
    Let D := pair_in r.
    Lemma i_near (f g : pairs -> R) b : (forall x, D x -> Rabs (f x) <= b) -> (forall x, D x -> Rabs (g x - f x) <= dif x) -> near D dif f g.
    Proof.
      intros Hf Hg. exists 1, (Rabs b + 1). pose proof (Rabs_pos b). pose proof (Rle_abs b). split; [lra|]. split; [lra|]. intros x Dx.
      specialize (Hf x Dx). specialize (Hg x Dx). destruct Dx as (_ & _ & Dr & _). repeat split.
      - rewrite Rabs_minus_sym. lra.
      - lra.
      - replace (g x) with ((g x - f x) + f x) by ring. eapply Rle_trans; [apply Rabs_triang|]. lra.
    Qed.
    Lemma i_cnear (f g : pairs -> cx) b : (forall x, D x -> cabs (f x) <= b) -> (forall x, D x -> cabs (csub (g x) (f x)) <= dif x) -> cnear D dif f g.
    Proof.
      intros Hf Hg. split; apply (i_near _ _ b); intros x Dx; specialize (Hf x Dx); specialize (Hg x Dx).
      - eapply Rle_trans; [apply cabs_ge_re|exact Hf].
      - eapply Rle_trans; [|exact Hg]. change (re (g x) - re (f x)) with (re (csub (g x) (f x))). apply cabs_ge_re.
      - eapply Rle_trans; [apply cabs_ge_im|exact Hf].
      - eapply Rle_trans; [|exact Hg]. change (im (g x) - im (f x)) with (im (csub (g x) (f x))). apply cabs_ge_im.
    Qed.
    Lemma i_state v : near D dif (fun x => ya x v) (fun x => yb x v).
    Proof. apply (i_near _ _ M); intros x (Ho & _ & _ & _ & Hy); [apply (HO _ _ Ho)|apply Hy]. Qed.
    Lemma i_conn x : D x -> e_conn (ea x) = e_conn (eb x).
    Proof. intros (_ & _ & _ & C & _). symmetry. apply C. Qed.
    Lemma i_pass x : D x -> passive p (ea x) /\ passive p (eb x).
    Proof. intros (Ho & Hp & _). split; [apply (HO _ _ Ho)|exact Hp]. Qed.
    Lemma i_z : cnear D dif (fun x => source_impedance p (ea x)) (fun x => source_impedance p (eb x)).
    Proof. apply (i_cnear _ _ B); intros x (Ho & _ & _ & C & _); [apply (HO _ _ Ho)|apply C]. Qed.
    Lemma i_open ph : cnear D dif (fun x => v_calc p (ea x) ph (Cx 0 0)) (fun x => v_calc p (eb x) ph (Cx 0 0)).
    Proof. apply (i_cnear _ _ B); intros x (Ho & _ & _ & C & _); [apply (HO _ _ Ho)|apply C]. Qed.
    Lemma i_Q : near D dif (fun x => e_Qref (ea x)) (fun x => e_Qref (eb x)).
    Proof. apply (i_near _ _ B); intros x (Ho & _ & _ & C & _); [apply (HO _ _ Ho)|apply C]. Qed.
    Lemma i_Vr : near D dif (fun x => e_Vdcref (ea x)) (fun x => e_Vdcref (eb x)).
    Proof. apply (i_near _ _ B); intros x (Ho & _ & _ & C & _); [apply (HO _ _ Ho)|apply C]. Qed.
    Lemma i_Vc : near D dif (fun x => e_Vconst (ea x)) (fun x => e_Vconst (eb x)).
    Proof. apply (i_near _ _ B); intros x (Ho & _ & _ & C & _); [apply (HO _ _ Ho)|apply C]. Qed.
    Lemma i_w : near D dif (fun x => e_wgrid (ea x) * e_t (ea x)) (fun x => e_wgrid (eb x) * e_t (eb x)).
    Proof. apply (i_near _ _ B); intros x (Ho & _ & _ & C & _); [apply (HO _ _ Ho)|apply C]. Qed.
    Lemma i_pv f f' : near D dif f f' -> near D dif (fun x => Ppv_val (e_mod (ea x)) (f x)) (fun x => Ppv_val (e_mod (eb x)) (f' x)).
    Proof.
      intros H. apply (near_pv pairs D dif (fun x => e_mod (ea x)) (fun x => e_mod (eb x)) (PVModel.Np m) (PVModel.Ns m) (Tactual m)); [| |exact H].
      - intros x (Ho & _ & _ & C & _). destruct (HO _ _ Ho) as (_ & _ & _ & _ & _ & _ & _ & Em & _). destruct C as (_ & (C1 & C2 & C3) & _). rewrite C1, C2, C3, Em. auto.
      - apply (i_near _ _ (Rabs (Sinsol m))); intros x (Ho & _ & _ & C & _); [|apply C]. destruct (HO _ _ Ho) as (_ & _ & _ & _ & _ & _ & _ & Em & _). rewrite Em. lra.
    Qed.
    Lemma i_qerr : near D dif (fun x => q_error p k (ea x) (ya x)) (fun x => q_error p k (eb x) (yb x)).
    Proof. apply n_qerr; auto using dif_pos, i_state, i_z, i_open, i_Q, i_pass, i_conn. Qed.
    Lemma i_perr : near D dif (fun x => p_error p k (ea x) (ya x)) (fun x => p_error p k (eb x) (yb x)).
    Proof. apply (n_perr p k); auto using dif_pos, i_state, i_Vr, i_Vc, i_pv, i_conn. Qed.
    Lemma i_outer : cnear D dif (fun x => outer_test p k (ea x) (ya x)) (fun x => outer_test p k (eb x) (yb x)).
    Proof.
      unfold outer_test. split; cbn [re im].
      - apply (near_plus pairs D dif (fun t => ya t (p_state k)) (fun t => p_gain p k * p_error p k (ea t) (ya t)) (fun t => yb t (p_state k)) (fun t => p_gain p k * p_error p k (eb t) (yb t))); [apply i_state|]. apply near_mult; [apply near_const|apply i_perr].
      - apply (near_minus pairs D dif (fun t => ya t XQ) (fun t => Kp_Q p * q_error p k (ea t) (ya t)) (fun t => yb t XQ) (fun t => Kp_Q p * q_error p k (eb t) (yb t))); [apply i_state|]. apply near_mult; [apply near_const|apply i_qerr].
    Qed.
    Lemma i_rhs v c : Cdc p <> 0 -> 0 < c -> (forall x, D x -> unsaturated p k (ea x) (ya x) /\ unsaturated p k (eb x) (yb x) /\ (has_dc_link k -> c <= ya x VDC /\ c <= yb x VDC)) ->
      near D dif (fun x => rhs p k (ea x) (ya x) v) (fun x => rhs p k (eb x) (yb x) v).
    Proof.
      intros HC Hc U. apply (n_rhs p k); auto using dif_pos, i_state, i_z, i_open, i_Q, i_Vr, i_Vc, i_pv, i_pass, i_conn, near_sin, near_cos, i_w.
      - intros x Dx. apply (U x Dx).
      - intros x Dx. apply (U x Dx).
      - intros Hd. exists c. split; auto. intros x Dx. apply (U x Dx). exact Hd.
    Qed.
  End Box.
  (** the limits are kept near a point that is clear of them *)
  Lemma pairs_clear d c : 0 < d -> 0 < c -> (forall e y, Om e y -> clear_of_limits p k e y d /\ (has_dc_link k -> 2 * c <= y VDC)) ->
    exists r, 0 < r <= 1 /\ forall x, pair_in r x -> clear_of_limits p k (eb x) (yb x) (d / 2) /\ (has_dc_link k -> c <= yb x VDC).
  Proof.
    intros Hd Hc HC. assert (One : 1 <= 1) by lra.
    assert (Cn : forall (f : env -> st -> cx), cnear (pair_in 1) dif (fun x => f (ea x) (ya x)) (fun x => f (eb x) (yb x)) ->
      exists K, 0 <= K /\ forall x, pair_in 1 x -> cabs (f (eb x) (yb x)) <= cabs (f (ea x) (ya x)) + 2 * (K * dif x)).
    { intros f [(K1 & M1 & A1 & _ & Q1) (K2 & M2 & A2 & _ & Q2)]. exists (K1 + K2). split; [lra|]. intros x W.
      destruct (Q1 x W) as (X1 & _). destruct (Q2 x W) as (X2 & _). pose proof (dif_pos x).
      assert (0 <= K1 * dif x) by (apply Rmult_le_pos; lra). assert (0 <= K2 * dif x) by (apply Rmult_le_pos; lra).
      rewrite Rabs_minus_sym in X1, X2. apply cabs_parts; lra. }
    assert (Dn : forall ph, cnear (pair_in 1) dif (fun x => duty p (ya x) ph) (fun x => duty p (yb x) ph)) by (intros ph; apply n_duty; intros; apply i_state; auto).
    destruct (Cn (fun _ y => duty p y PA) (Dn PA)) as (Ka & Ka0 & Da). destruct (Cn (fun _ y => duty p y PB) (Dn PB)) as (Kb & Kb0 & Db). destruct (Cn (fun _ y => duty p y PC) (Dn PC)) as (Kc & Kc0 & Dc).
    destruct (Cn (fun e y => outer_test p k e y) (i_outer 1 One)) as (Ko & Ko0 & Oo). clear Cn Dn.
    set (K := Ka + Kb + Kc + Ko + 1). assert (KP : 1 <= K) by (unfold K; lra).
    assert (EK : d / (4 * K) * (4 * K) = d) by (field; lra).
    assert (DK : 0 < d / (4 * K)) by (apply Rdiv_lt_0_compat; lra).
    exists (Rmin 1 (Rmin (d / (4 * K)) c)). set (r := Rmin 1 (Rmin (d / (4 * K)) c)).
    assert (R0 : 0 < r) by (unfold r; repeat apply Rmin_glb_lt; lra). assert (R1 : r <= 1) by apply Rmin_l.
    assert (R2 : r <= d / (4 * K)) by (eapply Rle_trans; [apply Rmin_r|apply Rmin_l]). assert (R3 : r <= c) by (eapply Rle_trans; [apply Rmin_r|apply Rmin_r]).
    split; [lra|]. intros x Dx. pose proof Dx as (Ho & Hp & Hdr & Hcl & Hy). pose proof (dif_pos x) as DP.
    assert (D1 : pair_in 1 x) by (split; [exact Ho|]; split; [exact Hp|]; split; [lra|]; split; [exact Hcl|exact Hy]).
    assert (Bd : forall K0, 0 <= K0 <= K -> 2 * (K0 * dif x) <= d / 2).
    { intros K0 HK. assert (K0 * dif x <= K * (d / (4 * K))) by (apply Rmult_le_compat; lra). lra. }
    destruct (HC _ _ Ho) as ([HD HI] & HV). split; [split|].
    - intros ph Hph. specialize (HD ph Hph). specialize (Da x D1). specialize (Db x D1). specialize (Dc x D1).
      pose proof (Bd Ka) as B1. pose proof (Bd Kb) as B2. pose proof (Bd Kc) as B3. unfold K in B1, B2, B3. cbv beta in *. destruct ph; lra.
    - pose proof (Bd Ko) as B1. unfold K in B1. specialize (Oo x D1). unfold outer_test in Oo. lra.
    - intros Hk. specialize (HV Hk). specialize (Hy VDC). apply Rabs_le_between in Hy. lra.
  Qed.
End Pairs.

(** rate of the squared distance, with a common bound on difference and rates *)
Lemma dsumsq_bound2 l y1 y2 f1 f2 K N : 0 <= K -> 0 <= N -> (forall v, Rabs (y1 v - y2 v) <= N) -> (forall v, Rabs (f1 v - f2 v) <= K * N) ->
  dsumsq l y1 y2 f1 f2 <= INR (2 * List.length l) * K * (N * N).
Proof.
  intros HK HN HY HF. induction l as [|v l IH].
  - cbn [dsumsq List.length]. rewrite Nat.mul_0_r. cbn [INR]. lra.
  - cbn [dsumsq List.length]. specialize (HY v). specialize (HF v).
    assert (Q : Rabs (y1 v - y2 v) * Rabs (f1 v - f2 v) <= N * (K * N)) by (apply Rmult_le_compat; auto; apply Rabs_pos).
    pose proof (Rle_abs ((y1 v - y2 v) * (f1 v - f2 v))) as R1. rewrite Rabs_mult in R1.
    replace (2 * Datatypes.S (List.length l))%nat with (Datatypes.S (Datatypes.S (2 * List.length l))) by (rewrite Nat.mul_succ_r, Nat.add_comm; reflexivity). rewrite !S_INR.
    replace ((INR (2 * List.length l) + 1 + 1) * K * (N * N)) with (INR (2 * List.length l) * K * (N * N) + 2 * (N * (K * N))) by ring. lra.
Qed.

(** * C135 *)
(** A run that stays clear of its limits is stable under small changes of its inputs and of
    its initial state: with every inputs close to the given ones (that do not jump either)
    and from every nearby state there is exactly one run, over the same time, and it stays as
    close as inputs and initial states are, up to a constant factor. *)
Theorem C135_small_input_changes_stay_small : forall p k E m B L a b d Y1, a < b -> 0 < d -> Cdc p <> 0 ->
  (forall t, a <= t <= b -> smooth_inputs p E t B L m) ->
  run_between a b (rhs p k) E Y1 -> (forall t, a <= t <= b -> clear_of_limits p k (E t) (Y1 t) d) ->
  (has_dc_link k -> forall t, a <= t <= b -> 0 < Y1 t VDC) ->
  exists r K, 0 < r /\ forall E' m' B' L' y0 dy, 0 <= dy <= r ->
    (forall t, a <= t <= b -> smooth_inputs p E' t B' L' m') ->
    (forall t, a <= t <= b -> inputs_close p (E t) (E' t) dy) -> (forall v, Rabs (y0 v - Y1 a v) <= dy) ->
    exists Y2, run_between a b (rhs p k) E' Y2 /\ (forall v, Y2 a v = y0 v) /\
      (forall t v, a <= t <= b -> Rabs (Y2 t v - Y1 t v) <= K * dy) /\
      (forall Z, run_between a b (rhs p k) E' Z -> (forall v, Z a v = y0 v) -> forall t v, a <= t <= b -> Z t v = Y2 t v).
Proof.
  intros p k E m B L a b d Y1 Hab Hd HC HE HR HL HV. assert (Hab' : a <= b) by lra.
  assert (C1 : forall t v, a <= t <= b -> continuous (fun s => Y1 s v) t) by apply HR.
  assert (Bd : exists M, forall t v, a <= t <= b -> Rabs (Y1 t v) <= M).
  { assert (Q : forall l, exists M, forall t v, In v l -> a <= t <= b -> Rabs (Y1 t v) <= M).
    { induction l as [|w l (M & IH)]; [exists 0; intros t v []|]. destruct (cont_bounded (fun t => Y1 t w) a b Hab') as (M' & HM'); [intros; apply C1; auto|].
      exists (Rmax M M'). intros t v [<-|Hv] Ht; [eapply Rle_trans; [apply HM'; auto|apply Rmax_r]|]. eapply Rle_trans; [apply IH; auto|apply Rmax_l]. }
    destruct (Q core) as (M & H). exists M. intros t v Ht. apply H; auto. apply core_all. }
  destruct Bd as (M & HM).
  assert (Lo : exists c, 0 < c /\ (has_dc_link k -> forall t, a <= t <= b -> 2 * c <= Y1 t VDC)).
  { destruct (match k return {has_dc_link k} + {~ has_dc_link k} with SingleConst | ThreeConst => right (fun h => h) | _ => left I end) as [Hk|Hk].
    - destruct (cont_positive (fun t => Y1 t VDC) a b Hab') as (c & Hc & Lc); [intros; apply C1; auto|intros; apply HV; auto|].
      exists (c / 2). split; [lra|]. intros _ t Ht. specialize (Lc t Ht). lra.
    - exists 1. split; [lra|]. intros; contradiction. }
  destruct Lo as (c & Hc & Lc).
  set (Om := fun e (y : st) => exists t, a <= t <= b /\ e = E t /\ y = Y1 t).
  assert (HO : forall e y, Om e y -> passive p e /\ cabs (source_impedance p e) <= B /\ (forall ph, cabs (v_calc p e ph (Cx 0 0)) <= B) /\
    Rabs (e_Qref e) <= B /\ Rabs (e_Vdcref e) <= B /\ Rabs (e_Vconst e) <= B /\ Rabs (e_wgrid e * e_t e) <= B /\ e_mod e = m /\ forall v, Rabs (y v) <= M).
  { intros e y (s & Hs & -> & ->). destruct (HE s Hs) as (E1 & E2 & E3 & E4 & E5 & E6 & E7). assert (Ws : Rabs (s - s) <= 1) by (rewrite Rminus_eq_0, Rabs_R0; lra).
    split; [apply E1; auto|]. split; [apply (E2 s s); auto|]. split; [intros ph; apply (E3 ph s s); auto|]. split; [apply (E4 s s); auto|]. split; [apply (E5 s s); auto|]. split; [apply (E6 s s); auto|].
    split; [apply (E7 s s); auto|]. split; [apply E1; auto|]. intros v. apply HM; auto. }
  assert (HO' : forall e y, Om e y -> clear_of_limits p k e y d /\ (has_dc_link k -> 2 * c <= y VDC)) by (intros e y (s & Hs & -> & ->); auto).
  destruct (pairs_clear p k m B M Om HO d c Hd Hc HO') as (r0 & Hr0 & Cl).
  destruct (all_near pairs (pair_in p Om r0) dif (fun x v => rhs p k (ea x) (ya x) v) (fun x v => rhs p k (eb x) (yb x) v)) as (K & S & HK & HS & Q).
  { intros v. apply (i_rhs p k m B M Om HO r0 (proj2 Hr0) v c HC Hc). intros x Dx. destruct (Cl x Dx) as (X1 & X2). pose proof Dx as (Ho & _). destruct (HO' _ _ Ho) as (X3 & X4).
    split; [apply (clear_unsat _ _ _ _ d); auto|]. split; [apply (clear_unsat _ _ _ _ (d / 2)); auto; lra|]. intros Hk. specialize (X2 Hk). specialize (X4 Hk). lra. }
  { apply dif_pos. }
  set (n := INR (2 * List.length core)). set (G := exp (n * K * 2 * (b - a))). assert (GP : 0 < G) by apply exp_pos.
  assert (nP : 0 <= n) by apply pos_INR. assert (nKP : 0 <= n * K) by (apply Rmult_le_pos; auto).
  set (len := INR (List.length core) + 1). assert (lP : 1 <= len) by (unfold len; pose proof (pos_INR (List.length core)); lra). set (F := sqrt (len * G)). assert (FP : 0 <= F) by apply sqrt_pos.
  assert (lG : 0 <= len * G) by (apply Rmult_le_pos; lra).
  exists (r0 / (2 * (F + 1))), F. assert (E0 : r0 / (2 * (F + 1)) * (2 * (F + 1)) = r0) by (field; lra).
  assert (P0 : 0 < r0 / (2 * (F + 1))) by (apply Rdiv_lt_0_compat; lra). split; [exact P0|]. set (r := r0 / (2 * (F + 1))) in *. intros E' m' B' L' y0 dy Hdy HE' Hin Hy0.
  assert (rr : 2 * r <= r0) by nra.
  assert (Fr : F * dy + dy < r0). { assert (F * dy <= F * r) by (apply Rmult_le_compat_l; lra). assert (0 <= F * r) by (apply Rmult_le_pos; lra). nra. }
  assert (Pass : forall t, a <= t <= b -> passive p (E' t)).
  { intros t Ht. destruct (HE' t Ht) as (X & _). apply X. rewrite Rminus_eq_0, Rabs_R0. lra. }
  (* the pair of points at one instant *)
  assert (Pin : forall t (y : st) N, a <= t <= b -> dy <= N <= r0 -> (forall v, Rabs (y v - Y1 t v) <= N) -> pair_in p Om r0 (((E t, Y1 t), (E' t, y)), N)).
  { intros t y N Ht HN Hy. unfold pair_in, ea, ya, eb, yb, dif. cbn [fst snd]. rewrite (Rabs_pos_eq N) by lra. split; [exists t; auto|]. split; [apply Pass; auto|]. split; [lra|]. split; [|exact Hy].
    destruct (Hin t Ht) as (X1 & X2 & X3 & X4 & X5 & X6 & X7 & X8 & X9). split; [exact X1|]. split; [exact X2|]. split; [lra|]. split; [lra|]. split; [intros ph; specialize (X5 ph); lra|]. repeat split; lra. }
  assert (In0 : forall t (y : st), a <= t <= b -> (forall v, Rabs (y v - Y1 t v) <= r0) -> good_point p k E' (d / 2) c (M + r0) t y).
  { intros t y Ht Hy. assert (HN : dy <= r0 <= r0) by lra. destruct (Cl _ (Pin t y r0 Ht HN Hy)) as (X1 & X2). unfold eb, yb in X1, X2. cbn [fst snd] in X1, X2.
    split; [exact X1|]. split; [|exact X2]. intros v. replace (y v) with ((y v - Y1 t v) + Y1 t v) by ring. eapply Rle_trans; [apply Rabs_triang|]. specialize (HM t v Ht). specialize (Hy v). lra. }
  destruct (C132_continues_partial p k E' m' B' L' a b (d / 2) c (M + r0) y0) as (T & Y2 & HT & HR2 & H0 & Alt); auto; try lra.
  { apply In0; [lra|]. intros v. specialize (Hy0 v). lra. }
  assert (R1 : run_between a T (rhs p k) E Y1) by (apply (run_sub a b); auto; lra).
  set (W := fun t => sumsq core (Y2 t) (Y1 t) + dy * dy).
  assert (CW : forall t, a <= t <= T -> continuous W t).
  { intros t Ht. unfold W. apply (continuous_plus (V := R_NormedModule) (fun t => sumsq core (Y2 t) (Y1 t)) (fun _ => dy * dy)); [|apply continuous_const].
    apply (cont_sumsq core a T); auto. intros s v Hs. split; [apply HR2; auto|apply R1; auto]. }
  assert (dP : 0 <= dy * dy) by (apply Rmult_le_pos; lra).
  assert (Wp : forall t, 0 <= W t) by (intros t; unfold W; pose proof (sumsq_pos core (Y2 t) (Y1 t)); lra).
  assert (W0 : W a <= len * (dy * dy)).
  { unfold W, len. rewrite Rmult_plus_distr_r, Rmult_1_l. apply Rplus_le_compat_r. apply sumsq_le; [lra|]. intros v. rewrite H0. apply Hy0. }
  set (lim := (r0 - dy) * (r0 - dy)).
  assert (Step : forall s, a <= s <= T -> (forall u, a <= u < s -> W u < lim) -> W s <= len * (dy * dy) * G).
  { intros s Hs Hu. 
    assert (Gr : W s <= W a * exp (n * K * 2 * (s - a))).
    { apply (gronwall_growth W (fun t => dsumsq core (Y2 t) (Y1 t) (rhs p k (E' t) (Y2 t)) (rhs p k (E t) (Y1 t))) a s (n * K * 2)); auto; try lra.
      - intros t Ht. unfold W. evar_last; [apply (is_derive_plus (V := R_NormedModule) (fun q => sumsq core (Y2 q) (Y1 q)) (fun _ => dy * dy)); [|apply (is_derive_const (V := R_NormedModule))]|].
        + apply (d_sumsq core Y2 Y1 (fun t v => rhs p k (E' t) (Y2 t) v) (fun t v => rhs p k (E t) (Y1 t) v)); intros v; [apply HR2|apply R1]; lra.
        + apply plus_zero_r.
      - intros t Ht. apply CW. lra.
      - intros t Ht. set (q := sqrt (sumsq core (Y2 t) (Y1 t))). assert (q0 : 0 <= q) by apply sqrt_pos.
        assert (qq : q * q = sumsq core (Y2 t) (Y1 t)) by (apply sqrt_sqrt, sumsq_pos).
        assert (Ht' : a <= t < s) by lra. specialize (Hu t Ht').
        assert (qr : q <= r0 - dy). { unfold W, lim in Hu. rewrite <- qq in Hu. destruct (Rle_lt_dec q (r0 - dy)) as [|Lt]; auto. exfalso. nra. }
        assert (ND : forall w, Rabs (Y2 t w - Y1 t w) <= q) by (intros w; apply sumsq_in, core_all).
        assert (HN : dy <= q + dy <= r0) by lra. assert (Hy : forall w, Rabs (Y2 t w - Y1 t w) <= q + dy) by (intros w; specialize (ND w); lra).
        assert (Htb : a <= t <= b) by lra. pose proof (Pin t (Y2 t) (q + dy) Htb HN Hy) as Dx.
        apply Rle_trans with (n * K * ((q + dy) * (q + dy))).
        + apply dsumsq_bound2; auto; [lra|]. intros v. destruct (Q _ v Dx) as (X1 & _). unfold ea, ya, eb, yb, dif in X1. cbn [fst snd] in X1. rewrite (Rabs_pos_eq (q + dy)) in X1 by lra.
          rewrite Rabs_minus_sym. exact X1.
        + replace (n * K * 2 * W t) with (n * K * (2 * W t)) by ring. apply Rmult_le_compat_l; [exact nKP|]. unfold W. rewrite <- qq. pose proof (Rle_0_sqr (q - dy)) as X. unfold Rsqr in X. lra. }
    eapply Rle_trans; [exact Gr|]. apply Rmult_le_compat; auto; [left; apply exp_pos|].
    destruct (Req_dec (n * K * 2 * (s - a)) (n * K * 2 * (b - a))) as [->|Ne]; [unfold G; lra|]. left. apply exp_increasing.
    assert (n * K * 2 * (s - a) <= n * K * 2 * (b - a)) by (apply Rmult_le_compat_l; lra). lra. }
  assert (Sq : len * (dy * dy) * G = (F * dy) * (F * dy)).
  { unfold F. replace (sqrt (len * G) * dy * (sqrt (len * G) * dy)) with (sqrt (len * G) * sqrt (len * G) * (dy * dy)) by ring. rewrite sqrt_sqrt by auto. ring. }
  assert (Fd : 0 <= F * dy) by (apply Rmult_le_pos; lra).
  assert (Sm : (F * dy) * (F * dy) < lim) by (unfold lim; nra).
  assert (Never : forall t, a <= t <= T -> W t < lim).
  { apply never_crossed; auto. intros s Hs Hu. specialize (Step s Hs Hu). lra. }
  assert (Close : forall t v, a <= t <= T -> Rabs (Y2 t v - Y1 t v) <= F * dy).
  { intros t v Ht. eapply Rle_trans; [apply (sumsq_in core), core_all|]. rewrite <- (sqrt_square (F * dy)) by auto. apply sqrt_le_1_alt. rewrite <- Sq.
    apply Rle_trans with (W t); [unfold W; lra|]. apply Step; auto. intros u Hu. apply Never. lra. }
  assert (ET : T = b).
  { destruct Alt as [|NG]; auto. exfalso. apply NG. apply In0; [lra|]. intros v. assert (HTT : a <= T <= T) by lra. specialize (Close T v HTT). lra. }
  subst T. exists Y2. split; [exact HR2|]. split; [exact H0|]. split; [exact Close|].
  intros Z HZ HZ0 t v Ht. symmetry. 
  assert (Gd : forall s, a <= s <= b -> good_point p k E' (d / 2) c (M + r0) s (Y2 s)) by (intros s Hs; apply In0; auto; intros w; specialize (Close s w Hs); lra).
  apply (C132_unique_partial p k E' m' B' a b (d / 2) Y2 Z); auto; try lra.
  - intros s Hs. assert (Hs' : a <= s <= b) by lra. destruct (HE' s Hs') as (E1 & E2 & E3 & E4 & E5 & E6 & _). assert (Ws : Rabs (s - s) <= 1) by (rewrite Rminus_eq_0, Rabs_R0; lra).
    split; [apply E1; auto|]. split; [apply (E2 s s); auto|]. split; [intros ph; apply (E3 ph s s); auto|]. split; [apply (E4 s s); auto|]. split; [apply (E5 s s); auto|]. split; [apply (E6 s s); auto|].
    apply E1; auto.
  - intros s Hs. apply Gd. lra.
  - intros Hk s Hs. destruct (Gd s Hs) as (_ & _ & X). specialize (X Hk). lra.
  - intros w. rewrite H0, HZ0. reflexivity.
Qed.
Print Assumptions C135_small_input_changes_stay_small.

(** Non-vacuity: a connected DER on an energised 60 Hz network; every small change of the
    irradiance gives another run, close to the first in proportion to the change. *)
Definition irradiance (m : pvm) (s : R) : pvm := PVM (PVModel.Np m) (PVModel.Ns m) s (Tactual m).
Example C135_hypotheses_met : forall m, exists h Y r K, 0 < h /\ 0 < r /\ run_between 0 h (rhs decay_prm SinglePhase) (live_env m) Y /\
  forall s, Rabs (s - Sinsol m) <= r ->
  exists Y', run_between 0 h (rhs decay_prm SinglePhase) (live_env (irradiance m s)) Y' /\ (forall v, Y' 0 v = live_state v) /\
    forall t v, 0 <= t <= h -> Rabs (Y' t v - Y t v) <= K * Rabs (s - Sinsol m).
Proof.
  intros m. assert (A0 : cabs (Cx 0 0) = 0) by (unfold cabs, cnorm2; cbn [re im]; rewrite Rmult_0_l, Rplus_0_l; apply sqrt_0).
  assert (CS : forall z, cabs (csub z z) = 0) by (intros z; replace (csub z z) with (Cx 0 0) by (unfold csub; apply cx_eq; cbn [re im]; ring); exact A0).
  assert (HC : Cdc decay_prm <> 0) by (cbn; lra). assert (Hh : 0 < 1/2) by lra. assert (H1 : 0 < 1) by lra.
  destruct (bounded_state live_state) as (M & HM).
  destruct (local_run decay_prm SinglePhase (live_env m) m (2 * wbase) wbase M (fun t y => t = 0 /\ y = live_state)) with (d := 1/2) (c := 1) as (h & Hh1 & Loc); auto.
  { intros t y (-> & ->). split; [apply live_smooth; lra|exact HM]. }
  { intros t y (-> & ->). split; [apply live_clear|]. intros _. cbn. lra. }
  destruct (Loc 0 live_state (Logic.conj eq_refl eq_refl)) as (Y & HR & H0 & Cl & Lv). rewrite Rplus_0_l in *.
  destruct (C135_small_input_changes_stay_small decay_prm SinglePhase (live_env m) m (2 * wbase) wbase 0 h (1/2/2) Y) as (r & K & Hr & H); auto; try lra.
  { intros t Ht. apply live_smooth. lra. }
  exists h, Y, r, K. split; [lra|]. split; [exact Hr|]. split; [exact HR|]. intros s Hs.
  destruct (H (live_env (irradiance m s)) (irradiance m s) (2 * wbase) wbase live_state (Rabs (s - Sinsol m))) as (Y' & HR' & H0' & Cl' & _).
  - split; [apply Rabs_pos|exact Hs].
  - intros t Ht. apply live_smooth. lra.
  - intros t Ht. pose proof (Rabs_pos (s - Sinsol m)) as P. unfold inputs_close.
    cbn [live_env e_conn e_mod e_Qref e_Vdcref e_Vconst e_wgrid e_t irradiance PVModel.Np PVModel.Ns Tactual Sinsol].
    split; [reflexivity|]. split; [auto|]. split; [lra|].
    change (source_impedance decay_prm (live_env (irradiance m s) t)) with (source_impedance decay_prm (live_env m t)). rewrite CS. split; [lra|].
    split; [intros ph; change (v_calc decay_prm (live_env (irradiance m s) t) ph (Cx 0 0)) with (v_calc decay_prm (live_env m t) ph (Cx 0 0)); rewrite CS; lra|].
    rewrite !Rminus_eq_0, Rabs_R0. repeat split; lra.
  - intros v. rewrite H0, Rminus_eq_0, Rabs_R0. apply Rabs_pos.
  - exists Y'. auto.
Qed.
