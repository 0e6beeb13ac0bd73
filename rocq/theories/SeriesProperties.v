(** C89 unbalance measure, C90 frequency estimate, C91 stored series, C92 high-voltage
    side voltage, C93 power transfer. *)
From Coq Require Import List Lra.
From Verif Require Import RBase CxField PhasorModel PVModel ODEModel GridModel SeriesModel PhasorProperties PhasorProperties2 CircuitProperties CircuitProperties3 GridProperties.
Import RBase.
Import ListNotations.
Open Scope R_scope.

Lemma Rmin_scale k a b : 0 <= k -> Rmin (k * a) (k * b) = k * Rmin a b.
Proof.
  intros H. unfold Rmin at 2. destruct (Rle_dec a b).
  - apply Rmin_left. apply Rmult_le_compat_l; auto.
  - apply Rmin_right. apply Rmult_le_compat_l; lra.
Qed.
Lemma Rmax_scale k a b : 0 <= k -> Rmax (k * a) (k * b) = k * Rmax a b.
Proof.
  intros H. unfold Rmax at 2. destruct (Rle_dec a b).
  - apply Rmax_right. apply Rmult_le_compat_l; auto.
  - apply Rmax_left. apply Rmult_le_compat_l; lra.
Qed.

(** * C89: the unbalance measure (for magnitudes) *)
Theorem C89_unbalance_measure :
  forall a b c, 0 <= a -> 0 <= b -> 0 <= c -> 0 < a + b + c ->
  exists u, Uunbalance_calc a b c = Some u /\ 0 <= u <= 3 /\
  (u = 0 <-> a = b /\ b = c) /\
  (forall x y, (x = a \/ x = b \/ x = c) -> (y = a \/ y = b \/ y = c) -> Rabs (x - y) <= u * ((a + b + c) / 3)) /\
  (exists x y, (x = a \/ x = b \/ x = c) /\ (y = a \/ y = b \/ y = c) /\ x - y = u * ((a + b + c) / 3)) /\
  (forall k, 0 < k -> Uunbalance_calc (k * a) (k * b) (k * c) = Some u) /\
  Uunbalance_calc b c a = Some u /\ Uunbalance_calc b a c = Some u.
Proof.
  intros a b c Ha Hb Hc Hs. unfold Uunbalance_calc.
  assert (N : forall x, 0 < x -> req x 0 = false).
  { intros x Hx. unfold req. destruct (Req_EM_T x 0); auto. lra. }
  rewrite (N ((a + b + c) / 3)) by lra.
  set (M := Rmax (Rmax a b) c). set (m := Rmin (Rmin a b) c).
  assert (HM : (M = a \/ M = b \/ M = c) /\ a <= M /\ b <= M /\ c <= M).
  { unfold M, Rmax. destruct (Rle_dec a b); [destruct (Rle_dec b c)|destruct (Rle_dec a c)]; repeat split; auto; lra. }
  assert (Hm : (m = a \/ m = b \/ m = c) /\ m <= a /\ m <= b /\ m <= c).
  { unfold m, Rmin. destruct (Rle_dec a b); [destruct (Rle_dec a c)|destruct (Rle_dec b c)]; repeat split; auto; lra. }
  assert (Sym : forall x y z : R, Rmax (Rmax x y) z = Rmax (Rmax y z) x /\ Rmax (Rmax x y) z = Rmax (Rmax y x) z /\
      Rmin (Rmin x y) z = Rmin (Rmin y z) x /\ Rmin (Rmin x y) z = Rmin (Rmin y x) z).
  { intros. rewrite (Rmax_comm y x), (Rmin_comm y x), (Rmax_comm (Rmax y z) x), (Rmin_comm (Rmin y z) x), Rmax_assoc, Rmin_assoc. auto. }
  assert (Eu : (M - m) / ((a + b + c) / 3) * ((a + b + c) / 3) = M - m) by (field; lra).
  eexists. split; [reflexivity|]. set (u := (M - m) / ((a + b + c) / 3)) in *.
  destruct HM as (M1 & M2 & M3 & M4). destruct Hm as (m1 & m2 & m3 & m4).
  assert (U0 : 0 <= u). { unfold u. apply Rmult_le_pos; [lra|]. left. apply Rinv_0_lt_compat. lra. }
  assert (m0 : 0 <= m) by (destruct m1 as [-> |[-> | ->]]; auto).
  split; [split; [auto|]|split; [|split; [|split; [|split; [|split]]]]].
  - apply Rmult_le_reg_r with ((a + b + c) / 3); [lra|]. rewrite Eu. destruct M1 as [-> |[-> | ->]]; lra.
  - split.
    + intros E. rewrite E in Eu. lra.
    + intros [-> ->]. unfold u. assert (M = m) by (destruct M1 as [-> |[-> | ->]], m1 as [-> |[-> | ->]]; auto). rewrite H. unfold Rdiv. lra.
  - intros x y Hx Hy. rewrite Eu. apply Rabs_le. destruct Hx as [-> |[-> | ->]], Hy as [-> |[-> | ->]]; lra.
  - exists M, m. rewrite Eu. auto.
  - intros k Hk. replace (k * a + k * b + k * c) with (k * (a + b + c)) by ring.
    assert (0 < k * (a + b + c)) by (apply Rmult_lt_0_compat; auto). rewrite N by lra. f_equal.
    rewrite !Rmax_scale, !Rmin_scale by lra. fold M m. unfold u. field. split; lra.
  - rewrite N by lra. f_equal. destruct (Sym a b c) as (E1 & _ & E2 & _). rewrite <- E1, <- E2. fold M m.
    unfold u. f_equal. f_equal. ring.
  - rewrite N by lra. f_equal. destruct (Sym a b c) as (_ & E1 & _ & E2). rewrite <- E1, <- E2. fold M m.
    unfold u. f_equal. f_equal. ring.
Qed.
Print Assumptions C89_unbalance_measure.

Example C89_hypotheses_met : 0 <= 1 /\ 0 <= 2 /\ 0 <= 3 /\ 0 < 1 + 2 + 3 /\ Uunbalance_calc 1 2 3 = Some 1.
Proof.
  repeat split; try lra. unfold Uunbalance_calc, req. destruct (Req_EM_T _ 0); [lra|]. f_equal.
  unfold Rmax, Rmin. repeat (destruct (Rle_dec _ _); try lra).
Qed.

(** * C90: the frequency estimate *)
(** Specification: the estimate follows the grid.  A grid phasor of constant
    magnitude in the 60 Hz frame whose angle advances at rate dw has frequency
    2 pi 60 + dw. *)
Definition angle (v : cx) : R := cphase v.
(** The state after any history: the phase of the stored phasor and the estimate obey
    one linear law, so the estimate is the initial frequency plus the TOTAL angle change
    divided by one fixed time step, whatever the times were. *)
Lemma est_inv : forall l s, f_meas s = f_west s ->
  let s' := wgrid_run s l in
  f_meas s' = f_west s' /\ f_west s' - angle (f_vprev s') / del_t_est = f_west s - angle (f_vprev s) / del_t_est /\
  f_tprev s <= f_tprev s'.
Proof.
  induction l as [|[t v] l IH]; intros s Hm; [cbn; repeat split; auto; lra|].
  cbn [wgrid_run fold_left fst snd].
  assert (K : f_meas (wgrid_step s t v) = f_west (wgrid_step s t v) /\
    f_west (wgrid_step s t v) - angle (f_vprev (wgrid_step s t v)) / del_t_est = f_west s - angle (f_vprev s) / del_t_est /\
    f_tprev s <= f_tprev (wgrid_step s t v)).
  { unfold wgrid_step. cbv zeta. cbn [f_meas f_west f_vprev f_tprev]. split; [auto|].
    destruct (rlt (f_tprev s) t) eqn:T; [|split; lra]. destruct (rlt 0 (Rabs (cphase (f_vprev s) - cphase v))); [|split; lra].
    cbn [f_west f_vprev f_tprev]. rb. unfold wgrid_estimate_calc, angle, del_t_est. rewrite Hm. split; [|lra].
    pose proof PI_RGT_0. field. lra. }
  destruct K as (K1 & K2 & K3). destruct (IH _ K1) as (A & B & C).
  change (fold_left (fun s0 q => wgrid_step s0 (fst q) (snd q)) l (wgrid_step s t v)) with (wgrid_run (wgrid_step s t v) l).
  repeat split; auto; lra.
Qed.
(** one step: at a new time the stored phasor has the current phase *)
Lemma est_follows s t v : f_tprev s < t -> angle (f_vprev (wgrid_step s t v)) = angle v.
Proof.
  intros H. unfold wgrid_step, angle. cbv zeta. cbn [f_vprev].
  assert (E : rlt (f_tprev s) t = true) by (apply rlt_iff; auto). rewrite E.
  destruct (rlt 0 (Rabs (cphase (f_vprev s) - cphase v))) eqn:K; cbn [f_vprev]; auto.
  apply rlt_false in K. pose proof (Rabs_pos (cphase (f_vprev s) - cphase v)).
  assert (Z : cphase (f_vprev s) - cphase v = 0); [|lra].
  destruct (Req_dec (cphase (f_vprev s) - cphase v) 0); auto. apply Rabs_pos_lt in H1. lra.
Qed.

Theorem C90_estimate_closed_form_partial :
  forall v0 l t v, f_tprev (wgrid_run (wgrid_init v0) l) < t ->
  f_west (wgrid_run (wgrid_init v0) (l ++ [(t, v)])) = 2 * PI * 60 + 1000 * (angle v - angle v0).
Proof.
  intros v0 l t v Ht. unfold wgrid_run at 1. rewrite fold_left_app. cbn [fold_left fst snd].
  change (fold_left (fun s q => wgrid_step s (fst q) (snd q)) l (wgrid_init v0)) with (wgrid_run (wgrid_init v0) l).
  set (s := wgrid_run (wgrid_init v0) l) in *.
  assert (I : f_meas s = f_west s) by (apply est_inv; reflexivity).
  destruct (est_inv (l ++ [(t, v)]) (wgrid_init v0) eq_refl) as (_ & B & _).
  unfold wgrid_run in B. rewrite fold_left_app in B. cbn [fold_left fst snd] in B.
  change (fold_left (fun s q => wgrid_step s (fst q) (snd q)) l (wgrid_init v0)) with s in B.
  rewrite (est_follows s t v Ht) in B. cbn [f_west f_vprev wgrid_init] in B. unfold del_t_est in B. lra.
Qed.
Print Assumptions C90_estimate_closed_form_partial.

(** With a steady grid the estimate is right... *)
Theorem C90_steady_grid_partial :
  forall v0 l, Forall (fun q => angle (snd q) = angle v0) l -> f_west (wgrid_run (wgrid_init v0) l) = 2 * PI * 60.
Proof.
  intros v0 l H.
  assert (K : forall l s, angle (f_vprev s) = angle v0 -> f_meas s = f_west s -> Forall (fun q => angle (snd q) = angle v0) l ->
    f_west (wgrid_run s l) = f_west s).
  { clear. induction l as [|[t v] l IH]; intros s Hs Hm F; [reflexivity|]. inversion F; subst. cbn [snd] in *.
    cbn [wgrid_run fold_left fst snd]. change (fold_left (fun s0 q => wgrid_step s0 (fst q) (snd q)) l (wgrid_step s t v)) with (wgrid_run (wgrid_step s t v) l).
    assert (E : f_west (wgrid_step s t v) = f_west s /\ f_vprev (wgrid_step s t v) = f_vprev s).
    { unfold wgrid_step. cbv zeta. unfold angle in *. rewrite Hs, H1, Rminus_eq_0, Rabs_R0.
      assert (Z : rlt 0 0 = false) by (apply rlt_false; lra). rewrite Z. destruct (rlt (f_tprev s) t); auto. }
    destruct E as [E1 E2]. rewrite IH; auto.
    rewrite E2. auto. }
  rewrite K; auto.
Qed.
Print Assumptions C90_steady_grid_partial.

(** ... but a single jump of the grid angle (the frequency stays 60 Hz) leaves a
    permanent error: the property fails. *)
Definition C90_claim : Prop :=
  forall v0 v1 l1 t1 t2, 0 < t1 -> t1 < t2 ->
  (* angle v0 up to t1, then the angle of v1 for ever: the grid runs at 60 Hz *)
  Forall (fun q => t1 < fst q /\ snd q = v1) l1 -> In (t2, v1) l1 ->
  f_west (wgrid_run (wgrid_init v0) ((t1, v1) :: l1)) = 2 * PI * 60.
Theorem C90_estimate_refuted :
  ~ C90_claim /\
  forall v0 v1 l1 t1, 0 < t1 -> Forall (fun q => t1 < fst q /\ snd q = v1) l1 ->
  f_west (wgrid_run (wgrid_init v0) ((t1, v1) :: l1)) = 2 * PI * 60 + 1000 * (angle v1 - angle v0).
Proof.
  assert (A : forall v0 v1 l1 t1, 0 < t1 -> Forall (fun q => t1 < fst q /\ snd q = v1) l1 ->
    f_west (wgrid_run (wgrid_init v0) ((t1, v1) :: l1)) = 2 * PI * 60 + 1000 * (angle v1 - angle v0)).
  { intros v0 v1 l1 t1 H1 F.
    set (s1 := wgrid_step (wgrid_init v0) t1 v1).
    assert (V1 : angle (f_vprev s1) = angle v1) by (apply est_follows; cbn; auto).
    assert (K : forall l s, angle (f_vprev s) = angle v1 -> f_meas s = f_west s -> Forall (fun q => t1 < fst q /\ snd q = v1) l ->
      f_west (wgrid_run s l) = f_west s).
    { clear. induction l as [|[t v] l IH]; intros s Hs Hm F; [reflexivity|]. inversion F; subst. cbn [fst snd] in *.
      destruct H1 as [_ ->]. cbn [wgrid_run fold_left fst snd].
      change (fold_left (fun s0 q => wgrid_step s0 (fst q) (snd q)) l (wgrid_step s t v1)) with (wgrid_run (wgrid_step s t v1) l).
      assert (E : f_west (wgrid_step s t v1) = f_west s /\ f_vprev (wgrid_step s t v1) = f_vprev s).
      { unfold wgrid_step. cbv zeta. unfold angle in *. rewrite Hs, Rminus_eq_0, Rabs_R0.
        assert (Z : rlt 0 0 = false) by (apply rlt_false; lra). rewrite Z. destruct (rlt (f_tprev s) t); auto. }
      destruct E as [E1 E2]. rewrite IH; auto. rewrite E2; auto. }
    change (wgrid_run (wgrid_init v0) ((t1, v1) :: l1)) with (wgrid_run s1 l1). rewrite (K l1 s1 V1 eq_refl F).
    pose proof (C90_estimate_closed_form_partial v0 [] t1 v1) as C. cbn [app wgrid_run fold_left] in C. apply C. cbn. auto. }
  split; [|exact A].
  intros C. specialize (C (Cx 1 0) (Cx 0 1) [(2, Cx 0 1)] 1 2 ltac:(lra) ltac:(lra)).
  rewrite A in C; [|lra|repeat constructor; cbn [fst]; lra].
  specialize (C ltac:(repeat constructor; cbn [fst]; lra) ltac:(left; reflexivity)).
  assert (angle (Cx 0 1) = angle (Cx 1 0)) by lra. unfold angle in H.
  pose proof (polar_rect (Cx 0 1)) as P1. pose proof (polar_rect (Cx 1 0)) as P2. rewrite H in P1.
  assert (A1 : cabs (Cx 0 1) = 1). { unfold cabs, cnorm2. cbn [re im]. replace (0*0+1*1) with 1 by lra. apply sqrt_1. }
  assert (A2 : cabs (Cx 1 0) = 1). { unfold cabs, cnorm2. cbn [re im]. replace (1*1+0*0) with 1 by lra. apply sqrt_1. }
  rewrite A1 in P1. rewrite A2 in P2. rewrite <- P2 in P1. apply (f_equal re) in P1. cbn in P1. lra.
Qed.
Print Assumptions C90_estimate_refuted.
Example C90_hypotheses_met : f_tprev (wgrid_run (wgrid_init (Cx 1 0)) []) < 1 /\
  Forall (fun q => angle (snd q) = angle (Cx 1 0)) [(1, Cx 1 0); (2, Cx 1 0)].
Proof. split; [cbn; lra|repeat constructor]. Qed.

(** * C91: the stored series *)
(** what the model computed while it was integrated (ODEModel) *)
Definition now_v (p : prm) (k : kind) (e : env) (y : st) (f : phase) : cx :=
  match k with K1 | KC => v_calc p e f (i_of y f) | K3 => v3_of p e y f | KB => vb_of p e y f end.
Definition now_vt (p : prm) (k : kind) (e : env) (y : st) (f : phase) : cx :=
  match k with K1 => vt_calc p (y VDC) (u_of y f) (x_of y f) | K3 => vt3_of p y f
  | KB => vt_calc p (y VDC) (rot f (u_of y PA)) (rot f (x_of y PA))
  | KC => vt_calc p (e_Vconst e) (u_of y f) (x_of y f) end.
Definition now_i (k : kind) (y : st) (f : phase) : cx := match k with KB => rot f (i_of y PA) | _ => i_of y f end.
Definition now_S (p : prm) (k : kind) (e : env) (y : st) : cx :=
  match k with K1 => S1_inv p y | K3 => S3_inv p y | KB => Sb_inv p y | KC => Sc_inv p e y end.
Definition now_S_PCC (p : prm) (k : kind) (e : env) (y : st) : cx :=
  match k with K1 | KC => S1_pcc p e y | K3 => S3_pcc p e y | KB => Sb_pcc p e y end.
Definition now_vd (p : prm) (k : kind) (e : env) (y : st) : R :=
  match k with K1 | KC => vd1 p e y | K3 => vd3 p e y | KB => vdb p e y end.
Definition now_Ppv (p : prm) (k : kind) (e : env) (y : st) : R :=
  eff_Ppv e (Ppv_of p e (match k with KC => e_Vconst e | _ => y VDC end)).
(** the derivative of the PLL angle: the PLL frequency in use *)
Definition now_we (p : prm) (k : kind) (e : env) (y : st) : R :=
  match k with K1 => ode1 p e y WTE | K3 => ode3 p e y WTE | KB => odeb p e y WTE | KC => odec p e y WTE end.
(** RMS over the phases the model has (Vrms_calc, Vtrms_calc, Irms_calc) *)
Definition now_rms (k : kind) (f : phase -> cx) : R :=
  if is3 k then Urms_calc (f PA) (f PB) (f PC) else Urms_calc (f PA) (f PA) (f PA).
(** a phase that exists in the model *)
Definition phase_of (k : kind) (f : phase) : Prop := f = PA \/ is3 k = true.

(** The property: every stored series equals, at every stored point, the quantity in
    use in the model. *)
Definition series_match (p : prm) (k : kind) (pts : list (env * st)) : Prop :=
  (forall f, phase_of k f ->
     series (fun e y => ts_i k y f) pts = series (fun e y => now_i k y f) pts /\
     series (fun e y => ts_vt p k e y f) pts = series (fun e y => now_vt p k e y f) pts /\
     series (fun e y => ts_v p k e y f) pts = series (fun e y => now_v p k e y f) pts) /\
  series (ts_S p k) pts = series (now_S p k) pts /\
  series (ts_S_PCC p k) pts = series (now_S_PCC p k) pts /\
  series (fun e y => ts_Irms k y) pts = series (fun e y => now_rms k (now_i k y)) pts /\
  series (ts_Vrms p k) pts = series (fun e y => now_rms k (now_v p k e y)) pts /\
  series (ts_Vtrms p k) pts = series (fun e y => now_rms k (now_vt p k e y)) pts /\
  series (ts_vd p k) pts = series (now_vd p k) pts /\
  series (ts_we p k) pts = series (now_we p k) pts.
Definition C91_claim : Prop :=
  forall p k pts, series_match p k pts /\ series (ts_Ppv p k) pts = series (now_Ppv p k) pts.

Lemma Urms_same a b c : Urms_series a b c = Urms_calc a b c.
Proof. unfold Urms_series, Urms_calc, Rsqr. f_equal. f_equal. f_equal. cbn [pow]. lra. Qed.
Lemma S3_same va vb vc ia ib ic : S_t_three va vb vc ia ib ic = cadd (cadd (S_ph va ia) (S_ph vb ib)) (S_ph vc ic).
Proof. apply (C59_other_powers (Cx 1 0)). Qed.
Lemma v_lin p g c vg i : v_standalone p g (cmul vg c) (cmul i c) = cmul (v_standalone p g vg i) c.
Proof. unfold v_standalone. cbv zeta. rewrite !cscale_mul. set (dd := cdiv _ _). clearbody dd. ring. Qed.
Lemma rot_standalone p g f vg i : v_standalone p g (rot f vg) (rot f i) = rot f (v_standalone p g vg i).
Proof. destruct f; cbn [rot]; [reflexivity| |]; apply v_lin. Qed.
Lemma ts_v_calc p k e y f : ts_v p k e y f = v_calc p e f (ts_i k y f).
Proof.
  unfold ts_v, v_calc. destruct (e_grid e) as [g|]; [|reflexivity]. unfold v_standalone. cbv zeta. do 2 f_equal.
  unfold cscale. cbn [re im]. apply cx_eq; cbn [re im]; rewrite Rmult_assoc; reflexivity.
Qed.
Lemma ts_v_now p k e y f : (k = KB -> balanced_env e) -> ts_v p k e y f = now_v p k e y f.
Proof.
  intros HB. rewrite ts_v_calc. destruct k; try reflexivity. specialize (HB eq_refl).
  cbn [now_v ts_i]. unfold vb_of, v_calc, balanced_env in *. destruct (e_grid e) as [g|]; destruct HB as [Hb Hc].
  - destruct f; cbn [rot] in *; [reflexivity| |].
    + rewrite Hb. apply (rot_standalone p g PB).
    + rewrite Hc. apply (rot_standalone p g PC).
  - destruct f; cbn [rot] in *; auto.
Qed.
Lemma series_ext {A} (f g : env -> st -> A) pts : Forall (fun q => f (fst q) (snd q) = g (fst q) (snd q)) pts -> series f pts = series g pts.
Proof. intros H. induction H; cbn; [auto|]. unfold series in IHForall. rewrite H, IHForall. auto. Qed.

(** Proved: everything but the PV power matches, provided the balanced model is fed by
    a balanced grid; the PV power matches while the DER is connected. *)
Theorem C91_series_partial :
  forall p k pts, Forall (fun q => k = KB -> balanced_env (fst q)) pts ->
  series_match p k pts /\
  (Forall (fun q => e_conn (fst q) = true) pts -> series (ts_Ppv p k) pts = series (now_Ppv p k) pts).
Proof.
  intros p k pts HB.
  assert (SE : forall {A} (f g : env -> st -> A), (forall e y, (k = KB -> balanced_env e) -> f e y = g e y) -> series f pts = series g pts).
  { intros A f g H. apply series_ext. eapply Forall_impl; [|exact HB]. intros q Hq. apply H. auto. }
  split.
  - split; [|split; [|split; [|split; [|split; [|split; [|split]]]]]]; try (apply SE; intros e y He).
    + intros f Hf. split; [|split]; apply SE; intros e y He.
      * destruct k; reflexivity.
      * destruct k; reflexivity.
      * apply ts_v_now; auto.
    + unfold ts_S. destruct k; cbn [is3]; try reflexivity; rewrite S3_same; reflexivity.
    + unfold ts_S_PCC. rewrite !ts_v_now by auto. destruct k; cbn [is3]; try reflexivity; rewrite S3_same; reflexivity.
    + unfold ts_Irms, now_rms. rewrite !Urms_same. destruct k; reflexivity.
    + unfold ts_Vrms, now_rms. rewrite !Urms_same, !ts_v_now by auto. reflexivity.
    + unfold ts_Vtrms, now_rms. rewrite !Urms_same. destruct k; reflexivity.
    + unfold ts_vd. rewrite !ts_v_now by auto. destruct k; reflexivity.
    + unfold ts_we, ts_vd. rewrite !ts_v_now by auto. destruct k; reflexivity.
  - intros HC. apply series_ext. eapply Forall_impl; [|exact HC]. intros [e y] He. cbn [fst snd] in *.
    unfold ts_Ppv, now_Ppv, eff_Ppv, Ppv_of, ts_Vdc. rewrite He. destruct k; reflexivity.
Qed.
Print Assumptions C91_series_partial.

(** Refuted twice: the stored PV power of a disconnected DER, and the phase voltages of
    a balanced model on an unbalanced grid. *)
(** The phase RMS series are the peak values over sqrt 2, and the RMS series is their
    quadratic mean. *)
Theorem C91_phase_rms :
  forall p k e y, (k = KB -> balanced_env e) ->
  ts_Varms p k e y = cabs (now_v p k e y PA) / sqrt 2 /\
  (is3 k = true ->
   ts_Vbrms p k e y = cabs (now_v p k e y PB) / sqrt 2 /\ ts_Vcrms p k e y = cabs (now_v p k e y PC) / sqrt 2 /\
   ts_Vrms p k e y ^ 2 = (ts_Varms p k e y ^ 2 + ts_Vbrms p k e y ^ 2 + ts_Vcrms p k e y ^ 2) / 3).
Proof.
  intros p k e y HB.
  assert (Q2 : 0 < sqrt 2) by (apply sqrt_lt_R0; lra).
  assert (SQ : forall z, sqrt ((Rsqr (cabs z) + Rsqr (cabs z) + Rsqr (cabs z)) / 3) = cabs z).
  { intros z. replace ((Rsqr (cabs z) + Rsqr (cabs z) + Rsqr (cabs z)) / 3) with (Rsqr (cabs z)) by lra. apply sqrt_Rsqr, cabs_nonneg. }
  split.
  - unfold ts_Varms. destruct (is3 k) eqn:E; [unfold Uph_series; now rewrite ts_v_now by auto|].
    unfold ts_Vrms. rewrite E. unfold Urms_series. rewrite SQ, ts_v_now by auto. reflexivity.
  - intros E. unfold ts_Varms, ts_Vbrms, ts_Vcrms, ts_Vrms, Uph_series, Urms_series. rewrite E. rewrite !ts_v_now by auto.
    split; [reflexivity|]. split; [reflexivity|].
    pose proof (cabs_nonneg (now_v p k e y PA)). pose proof (cabs_nonneg (now_v p k e y PB)). pose proof (cabs_nonneg (now_v p k e y PC)).
    set (a := cabs (now_v p k e y PA)) in *. set (b := cabs (now_v p k e y PB)) in *. set (c := cabs (now_v p k e y PC)) in *.
    unfold Rdiv. rewrite !Rpow_mult_distr. rewrite pow2_sqrt by (unfold Rsqr; nra). unfold Rsqr. field. apply Rgt_not_eq. auto.
Qed.
Print Assumptions C91_phase_rms.

Theorem C91_series_refuted :
  (forall p k e y, e_conn e = false -> now_Ppv p k e y = 0) /\
  (exists p e y, e_conn e = false /\ 0 < ts_Ppv p K1 e y) /\
  (exists p e y, e_conn e = true /\ ts_v p KB e y PB <> now_v p KB e y PB) /\
  ~ C91_claim.
Proof.
  assert (A : forall p k e y, e_conn e = false -> now_Ppv p k e y = 0).
  { intros p k e y H. unfold now_Ppv, eff_Ppv. rewrite H. auto. }
  set (pp := Prm 1 1 1 1 1 1 1 1 1 1 1 1 1 1 1 1 1 1 1 (Cx 0 0) 1).
  set (md := PVM 1 1000 100 (29815/100)).
  set (g := Grid_ (Cx 1 0) (Cx 0 0) (Cx 0 0) (Cx 0 0) (Cx 1 0)).
  set (e1 := Env 0 377 (Cx 1 0) (Cx 1 0) (Cx 1 0) None 0 1 md false 1).
  set (e2 := Env 0 377 (Cx 1 0) (Cx 1 0) (Cx 1 0) (Some g) 0 1 md true 1).
  set (y1 := (fun v => match v with VDC => 1 | _ => 0 end) : st).
  assert (B : 0 < ts_Ppv pp K1 e1 y1).
  { unfold ts_Ppv, ts_Vdc. cbn [e_mod e1 y1 Vdcmpp_max Vdcbase pp]. unfold Vdc_actual. rewrite Rmult_1_r, Rmin_left by lra.
    unfold Ppv_val, Ipv_val, Iph_calc, md. cbn [Np Ns Sinsol Tactual].
    assert (X : exp (q_charge * 1 / (k_boltz * (29815 / 100) * A_ideal * 1000)) <= 3).
    { apply Rle_trans with (exp 1); [|apply exp_le_3]. left. apply exp_increasing. unfold q_charge, k_boltz, A_ideal. lra. }
    set (x := exp _) in *. clearbody x. unfold Iscr, Kv, T0, Irs, Sbase.
    rewrite Rmax_right; [|]; [|]. - apply Rdiv_lt_0_compat; lra. - lra. }
  assert (C : ts_v pp KB e2 y1 PB <> now_v pp KB e2 y1 PB).
  { rewrite ts_v_calc. cbn [now_v]. unfold vb_of, v_calc. cbn [e_grid e2 ts_i].
    assert (I0 : i_of y1 PA = C0) by reflexivity. rewrite I0.
    assert (V0 : v_standalone pp g (vbg g) (rot PB C0) = C0).
    { unfold v_standalone. cbv zeta. cbn [vbg g]. change (rot PB C0) with (Ub_calc C0). unfold Ub_calc. rewrite !cscale_mul. fold C0. 
      set (dd := cdiv _ _). clearbody dd. ring. }
    rewrite V0. intros E. assert (K : cabs (rot PB (v_standalone pp g (vag g) C0)) = 0).
    { rewrite <- E. unfold cabs, cnorm2, C0. cbn [re im]. replace (0*0+0*0) with 0 by lra. apply sqrt_0. }
    rewrite rot_abs in K. 
    assert (V1 : v_standalone pp g (vag g) C0 = Cx 1 0).
    { unfold v_standalone, pp, g, C0. cbv zeta. cbn [a_tr Z1 Z2 Zload1 vag]. unfold cdiv, cinv, cnorm2, cscale, cmul, cadd. cbn [re im].
      apply cx_eq; cbn [re im]; field. }
    rewrite V1 in K. unfold cabs, cnorm2 in K. cbn [re im] in K. replace (1*1+0*0) with 1 in K by lra. rewrite sqrt_1 in K. lra. }
  split; [exact A|]. split; [exists pp, e1, y1; split; [reflexivity|exact B]|]. split; [exists pp, e2, y1; split; [reflexivity|exact C]|].
  intros H. destruct (H pp K1 [(e1, y1)]) as [_ K]. unfold series in K. cbn [map fst snd] in K.
  assert (K' : ts_Ppv pp K1 e1 y1 = now_Ppv pp K1 e1 y1) by congruence. rewrite A in K' by reflexivity. lra.
Qed.
Print Assumptions C91_series_refuted.
Example C91_hypotheses_met :
  let g := Grid_ (Cx 1 0) (Ub_calc (Cx 1 0)) (Uc_calc (Cx 1 0)) (Cx 1 1) (Cx 1 0) in
  let e := Env 0 377 (Cx 1 0) (Cx 1 0) (Cx 1 0) (Some g) 0 1 (PVM 1 1000 100 300) true 1 in
  Forall (fun q => KB = KB -> balanced_env (fst q)) [(e, (fun _ => 1) : st)] /\ Forall (fun q => e_conn (fst q) = true) [(e, (fun _ => 1) : st)].
Proof. cbv zeta. split; repeat constructor. Qed.

(** * C92: the high-voltage side *)
(** In a phase with an inverter the stored high-voltage-side voltage, with the stored
    low-voltage side voltage, satisfies all the equations of the circuit of C50. *)
Theorem C92_hv_voltage_partial :
  forall p k e g y f, e_grid e = Some g -> phase_of k f ->
  a_tr p <> 0 -> Zload1 g <> Cx 0 0 ->
  cadd (cscale (a_tr p * a_tr p) (cadd (Z1 p) (Zload1 g))) (Z2 g) <> Cx 0 0 ->
  exists ig vlv, circuit_equations (a_tr p) (Z1 p) (Z2 g) (Zload1 g)
    (match f with PA => vag g | PB => vbg g | PC => vcg g end) (ts_i k y f) (ts_v p k e y f) ig vlv (ts_vHV p k e g y f).
Proof.
  intros p k e g y f Eg Hf Ha Hz Hd.
  assert (Ev : ts_v p k e y f = v_standalone p g (match f with PA => vag g | PB => vbg g | PC => vcg g end) (ts_i k y f)).
  { rewrite ts_v_calc. unfold v_calc. rewrite Eg. reflexivity. }
  set (vg := match f with PA => vag g | PB => vbg g | PC => vcg g end) in *.
  destruct (proj1 (C50_pcc_voltage_solves_the_circuit p g vg (ts_i k y f) (ts_v p k e y f) Ha Hz Hd) Ev) as (ig & vlv & vhv & E).
  exists ig, vlv. replace (ts_vHV p k e g y f) with vhv; [exact E|].
  destruct E as (E1 & E2 & E3 & E4). rewrite E4. unfold ts_vHV. fold vg.
  assert (B : (match f with PA => true | _ => is3 k end) = true).
  { destruct Hf as [-> | Hf]; [reflexivity|]. rewrite Hf. destruct f; reflexivity. }
  rewrite B. assert (Eg' : ig = csub (ts_i k y f) (cdiv (ts_v p k e y f) (Zload1 g))) by (rewrite E1; ring).
  rewrite Eg'. rewrite !cscale_mul. fold C0 in Hz. set (zl := Zload1 g) in *. set (b := RtoCx _). field. exact Hz.
Qed.
Print Assumptions C92_hv_voltage_partial.
(** In the idle phases of a single-phase DER the series stores the source voltage. The
    true voltage of the same circuit with no inverter current is different whenever a
    load draws current through Z2. *)
Theorem C92_idle_phases_refuted :
  forall p e g y, vbg g <> C0 -> a_tr p <> 0 -> Zload1 g <> Cx 0 0 -> Z2 g <> Cx 0 0 ->
  cadd (cscale (a_tr p * a_tr p) (cadd (Z1 p) (Zload1 g))) (Z2 g) <> Cx 0 0 ->
  ts_vHV p K1 e g y PB = vbg g /\
  ~ exists ig vlv, circuit_equations (a_tr p) (Z1 p) (Z2 g) (Zload1 g) (vbg g) (Cx 0 0)
      (v_standalone_idle p g (vbg g)) ig vlv (ts_vHV p K1 e g y PB).
Proof.
  intros p e g y Hv Ha Hz H2 Hd. split; [reflexivity|]. intros (ig & vlv & E1 & E2 & E3 & E4).
  change (ts_vHV p K1 e g y PB) with (vbg g) in *. fold C0 in *.
  pose proof (RtoCx_neq0 _ Ha) as Ha'.
  assert (G : cmul (cscale (1 / a_tr p) ig) (Z2 g) = C0).
  { replace (cmul (cscale (1 / a_tr p) ig) (Z2 g)) with (csub (cadd (vbg g) (cmul (cscale (1 / a_tr p) ig) (Z2 g))) (vbg g)) by ring.
    rewrite <- E4. ring. }
  assert (G2 : ig = C0).
  { rewrite cscale_mul, RtoCx_inv in G by auto. set (b := RtoCx (a_tr p)) in *. set (z := Z2 g) in *.
    replace ig with (cmul (cdiv b z) (cmul (cmul (cinv b) ig) z)) by (field; split; auto). rewrite G. ring. }
  subst ig.
  assert (V : v_standalone_idle p g (vbg g) = C0).
  { set (v := v_standalone_idle p g (vbg g)) in *. replace v with (cmul (cadd (cdiv v (Zload1 g)) C0) (Zload1 g)) by (field; auto).
    rewrite <- E1. ring. }
  rewrite V in E2. assert (L : vlv = C0) by (replace vlv with (csub (cadd vlv (cmul C0 (Z1 p))) (cmul C0 (Z1 p))) by ring; rewrite <- E2; ring).
  apply Hv. rewrite E3, L, cscale_mul. ring.
Qed.
Print Assumptions C92_idle_phases_refuted.
Example C92_hypotheses_met :
  let p := Prm 1 1 1 1 1 1 1 1 1 1 1 1 1 1 1 1 1 1 1 (Cx 1 2) 72 in
  let g := Grid_ (Cx 1 0) (Cx 1 0) (Cx 1 0) (Cx (161/100) (554/100)) (Cx 1000 1) in
  vbg g <> C0 /\ a_tr p <> 0 /\ Zload1 g <> Cx 0 0 /\ Z2 g <> Cx 0 0 /\
  cadd (cscale (a_tr p * a_tr p) (cadd (Z1 p) (Zload1 g))) (Z2 g) <> Cx 0 0.
Proof.
  cbv zeta. cbn [a_tr Zload1 Z1 Z2 vbg]. unfold cadd, cscale, C0. cbn [re im].
  repeat split; try lra; intros E; injection E; lra.
Qed.

(** * C93: power transfer *)
(** Real power that arrives at the source vg from a node vh through the impedance z *)
Definition line_power (vg vh z : cx) : R := re (cscale (1/2) (cmul vg (conj (cdiv (csub vh vg) z)))).
Definition total_line_power (p : prm) (k : kind) (e : env) (g : grid) (y : st) : R :=
  line_power (vag g) (ts_vHV p k e g y PA) (Z2 g) + line_power (vbg g) (ts_vHV p k e g y PB) (Z2 g) +
  line_power (vcg g) (ts_vHV p k e g y PC) (Z2 g).
Lemma cabs_crect r a : 0 <= r -> cabs (crect r a) = r.
Proof.
  intros H. unfold cabs, crect, cscale, cexp, cnorm2. cbn [re im].
  replace (r * cos a * (r * cos a) + r * sin a * (r * sin a)) with (r * r * (cos a * cos a + sin a * sin a)) by lra.
  rewrite cos2_sin2, Rmult_1_r. apply sqrt_square. auto.
Qed.
(** lossless line: the textbook formula *)
Lemma inductive_line vg vh X : 0 < X ->
  line_power vg vh (Cx 0 X) = cabs vh / sqrt 2 * (cabs vg / sqrt 2) * sin (cphase vh - cphase vg) / X.
Proof.
  intros HX. unfold line_power. rewrite (polar_rect vg) at 1 2. rewrite (polar_rect vh) at 1.
  assert (Hs : sqrt 2 * sqrt 2 = 2) by (apply sqrt_sqrt; lra). assert (Hs0 : 0 < sqrt 2) by (apply sqrt_lt_R0; lra).
  replace (cabs vh / sqrt 2 * (cabs vg / sqrt 2)) with (cabs vh * cabs vg * (/ (sqrt 2 * sqrt 2))) by (field; lra). rewrite Hs.
  set (a := cabs vg). set (b := cabs vh). set (f := cphase vg). set (h := cphase vh). clearbody a b f h.
  unfold crect, cdiv, cinv, cmul, csub, conj, cscale, cexp, cnorm2. cbn [re im]. rewrite sin_minus.
  set (cf := cos f). set (sf := sin f). set (ch := cos h). set (sh := sin h). clearbody cf sf ch sh. field. lra.
Qed.
(** Proved: on a balanced three-phase system with a lossless line (Z2 = jX) the series is
    the power transferred PER PHASE, a third of the total. *)
Theorem C93_power_transfer_partial :
  forall p k e g y X, 0 < X -> Z2 g = Cx 0 X ->
  vbg g = Ub_calc (vag g) -> vcg g = Uc_calc (vag g) ->
  ts_vHV p k e g y PB = Ub_calc (ts_vHV p k e g y PA) -> ts_vHV p k e g y PC = Uc_calc (ts_vHV p k e g y PA) ->
  ts_Ptransfer p k e g y = line_power (vag g) (ts_vHV p k e g y PA) (Z2 g) /\
  total_line_power p k e g y = 3 * ts_Ptransfer p k e g y.
Proof.
  intros p k e g y X HX EZ Eb Ec Hb Hc. unfold ts_Ptransfer, ts_Vhvrms, ts_Vgrms, total_line_power.
  rewrite Hb, Hc, Eb, Ec, EZ. set (vh := ts_vHV p k e g y PA). set (vg := vag g).
  assert (R : forall v, Urms_series v (Ub_calc v) (Uc_calc v) = cabs v / sqrt 2).
  { intros v. rewrite Urms_same. pose proof (C48_rms_measurements v (Ub_calc v) (Uc_calc v)) as K. cbv zeta in K.
    apply K; [apply (rot_abs PB)|apply (rot_abs PC)]. }
  rewrite !R. assert (AX : cabs (Cx 0 X) = X).
  { unfold cabs, cnorm2. cbn [re im]. replace (0*0+X*X) with (X * X) by lra. apply sqrt_square. lra. }
  rewrite AX, (inductive_line vg vh X HX). split; [reflexivity|].
  assert (L : forall f, line_power (rot f vg) (rot f vh) (Cx 0 X) = line_power vg vh (Cx 0 X)).
  { intros f. destruct (rot_form f vg) as (c & Hc1 & Hc2 & _). rewrite !Hc2. unfold line_power. f_equal. f_equal.
    assert (N : cmul c (conj c) = RtoCx 1). { rewrite mul_conj. f_equal. rewrite <- cabs_sq, Hc1. lra. }
    set (z := Cx 0 X). unfold cdiv. replace (csub (cmul vh c) (cmul vg c)) with (cmul (csub vh vg) c) by ring.
    rewrite !conj_mul. replace (cmul (cmul vg c) (cmul (cmul (conj (csub vh vg)) (conj c)) (conj (cinv z))))
      with (cmul (cmul vg (cmul (conj (csub vh vg)) (conj (cinv z)))) (cmul c (conj c))) by ring.
    rewrite N. change (RtoCx 1) with CxField.C1. ring. }
  pose proof (L PB) as LB. pose proof (L PC) as LC. cbn [rot] in LB, LC. rewrite LB, LC, (inductive_line vg vh X HX). lra.
Qed.
Print Assumptions C93_power_transfer_partial.
(** Refuted in general: on a line with resistance the series can be zero while power
    flows in every phase; it is neither the total nor the power of phase a. *)
Definition C93_claim : Prop :=
  forall p e g y, e_grid e = Some g -> a_tr p <> 0 -> Zload1 g <> Cx 0 0 -> Z2 g <> Cx 0 0 ->
  vbg g = Ub_calc (vag g) -> vcg g = Uc_calc (vag g) ->
  ts_Ptransfer p K3 e g y = total_line_power p K3 e g y \/
  ts_Ptransfer p K3 e g y = line_power (vag g) (ts_vHV p K3 e g y PA) (Z2 g).
Lemma phase_pos r : 0 < r -> cos (cphase (Cx r 0)) = 1 /\ sin (cphase (Cx r 0)) = 0.
Proof.
  intros H. pose proof (polar_rect (Cx r 0)) as P.
  assert (A : cabs (Cx r 0) = r). { unfold cabs, cnorm2. cbn [re im]. replace (r*r+0*0) with (r*r) by lra. apply sqrt_square. lra. }
  rewrite A in P. set (f := cphase (Cx r 0)) in *. clearbody f.
  pose proof (f_equal re P) as P1. pose proof (f_equal im P) as P2. cbn in P1, P2.
  split; apply Rmult_eq_reg_l with r; lra.
Qed.
Theorem C93_power_transfer_refuted : ~ C93_claim.
Proof.
  set (pp := Prm 1 1 1 1 1 1 1 1 1 1 1 1 1 1 1 1 1 1 1 (Cx 0 0) 1).
  set (g := Grid_ (Cx 1 0) (Ub_calc (Cx 1 0)) (Uc_calc (Cx 1 0)) (Cx 1 0) (Cx 1 0)).
  set (e := Env 0 377 (Cx 1 0) (Cx 1 0) (Cx 1 0) (Some g) 0 1 (PVM 1 1000 100 300) true 1).
  set (y := (fun _ => 0) : st).
  assert (V : forall f, ts_vHV pp K3 e g y f = cscale (1/2) (rot f (Cx 1 0))).
  { intros f. unfold ts_vHV. assert (B : (match f with PA => true | _ => is3 K3 end) = true) by (destruct f; reflexivity). rewrite B.
    rewrite ts_v_calc. unfold v_calc. cbn [e_grid e].
    assert (Vg : (match f with PA => vag g | PB => vbg g | PC => vcg g end) = rot f (Cx 1 0)) by (destruct f; reflexivity).
    rewrite Vg. set (z := rot f (Cx 1 0)). assert (I0 : ts_i K3 y f = Cx 0 0) by (destruct f; reflexivity). rewrite I0.
    unfold v_standalone, pp, g. cbv zeta. cbn [a_tr Z1 Z2 Zload1]. unfold cdiv, cinv, cnorm2, cscale, cmul, cadd, csub. cbn [re im].
    apply cx_eq; cbn [re im]; field. }
  assert (P0 : ts_Ptransfer pp K3 e g y = 0).
  { unfold ts_Ptransfer. rewrite V. cbn [rot vag g].
    replace (cscale (1/2) (Cx 1 0)) with (Cx (1/2) 0) by (apply cx_eq; unfold cscale; cbn [re im]; lra).
    destruct (phase_pos (1/2)) as [C1' S1']; [lra|]. destruct (phase_pos 1) as [C2' S2']; [lra|].
    rewrite sin_minus, C1', S1', C2', S2'. unfold Rdiv. lra. }
  assert (L : forall f, line_power (rot f (Cx 1 0)) (cscale (1/2) (rot f (Cx 1 0))) (Cx 1 0) = - (1/4)).
  { intros f. assert (N : cnorm2 (rot f (Cx 1 0)) = 1).
    { rewrite <- cabs_sq, rot_abs, cabs_sq. unfold cnorm2. cbn [re im]. lra. }
    set (z := rot f (Cx 1 0)) in *. clearbody z. unfold cnorm2 in N. unfold line_power, cdiv, cinv, cnorm2, cmul, csub, conj, cscale. cbn [re im].
    transitivity (- (1/4) * (re z * re z + im z * im z)); [field|]. rewrite N. lra. }
  intros H. destruct (H pp e g y) as [K|K]; try reflexivity.
  - cbn [a_tr pp]. lra.
  - cbn [Zload1 g]. intros E. injection E. lra.
  - cbn [Z2 g]. intros E. injection E. lra.
  - rewrite P0 in K. unfold total_line_power in K. rewrite !V in K.
    pose proof (L PA) as LA. pose proof (L PB) as LB. pose proof (L PC) as LC. cbn [rot vag vbg vcg g Z2] in *. rewrite LA, LB, LC in K. lra.
  - rewrite P0, V in K. pose proof (L PA) as LA. cbn [rot vag g Z2] in *. rewrite LA in K. lra.
Qed.
Print Assumptions C93_power_transfer_refuted.
(** the hypotheses of the partial theorem are met: no current anywhere *)
Example C93_hypotheses_met :
  let p := Prm 1 1 1 1 1 1 1 1 1 1 1 1 1 1 1 1 1 1 1 (Cx 0 0) 1 in
  let g := Grid_ (Cx 1 0) (Ub_calc (Cx 1 0)) (Uc_calc (Cx 1 0)) (Cx 0 1) (Cx 1 0) in
  let e := Env 0 377 (Cx 1 0) (Ub_calc (Cx 1 0)) (Uc_calc (Cx 1 0)) None 0 1 (PVM 1 1000 100 300) true 1 in
  let y := (fun _ => 0) : st in
  0 < 1 /\ Z2 g = Cx 0 1 /\ ts_vHV p K3 e g y PB = Ub_calc (ts_vHV p K3 e g y PA) /\
  ts_vHV p K3 e g y PC = Uc_calc (ts_vHV p K3 e g y PA).
Proof.
  cbv zeta. split; [lra|]. split; [reflexivity|].
  unfold ts_vHV, ts_v. cbn [e_grid e_va e_vb e_vc vag vbg vcg is3 ts_i i_of Z2 Zload1 a_tr].
  unfold Ub_calc, Uc_calc, cdiv, cinv, cnorm2, cmul, csub, cadd, cscale. cbn [re im].
  set (cp := cexp _). set (cm := cexp _). split; apply cx_eq; unfold i_of; cbn [re im]; field.
Qed.
