(** Properties C35, C36, C37, C62: DC-link voltage references. *)
From Verif Require Import Base EventsModel EventsSpec TimedLemmas QueryLemmas VdcModel VdcSpec VdcProofs.

Lemma vreachable_vinv v : vreachable v -> vinv v.
Proof. intros (c & lo & hi & b & os & ->). apply vrun_vinv, init_vinv. Qed.

(** * C35 *)
Theorem C35_add_validation :
  forall v t x,
  (snd (add_Vdc_ref v t x) = Ok tt <-> vmin v <= x <= vmax v) /\
  (~ (vmin v <= x <= vmax v) -> add_Vdc_ref v t x = (v, Raise ValueError)).
Proof.
  intros v t x. split; [|apply add_reject]. unfold add_Vdc_ref.
  destruct (qlt x (vmin v)) eqn:E1; destruct (qlt (vmax v) x) eqn:E2; simpl; qb;
    split; intros H; try discriminate; try reflexivity; lra.
Qed.
Print Assumptions C35_add_validation.

Theorem C35_add_replaces_exactly :
  forall v t x, vreachable v -> vmin v <= x <= vmax v ->
  let v' := fst (add_Vdc_ref v t x) in
  increasing (items (refs v')) /\ vcur v' = vcur v /\
  forall u, lookup (items (refs v')) u =
            if qeq t u then Some (x / vbase v) else lookup (items (refs v)) u.
Proof.
  intros v t x Hr Hx. destruct (add_ok v t x (vreachable_vinv v Hr) Hx) as (v' & E & Hv & _ & Hc & _ & Hl).
  rewrite E. simpl. split; [apply Hv|]. auto.
Qed.
Print Assumptions C35_add_replaces_exactly.

(** every history: schedule strictly sorted, values inside the MPP window, and
    evaluating the reference never raises *)
Theorem C35_schedule_sane :
  forall v, vreachable v ->
  increasing (items (refs v)) /\
  (forall e, In e (items (refs v)) -> exists x, vmin v <= x <= vmax v /\ eV e = x / vbase v) /\
  forall t, snd (update_Vdc_ref v t) = Ok tt.
Proof.
  intros v Hr. pose proof (vreachable_vinv v Hr) as Hv. pose proof Hv as (H1 & H2 & H3 & H4 & H5 & _).
  split; [auto|]. split; [auto|]. intros t. apply update_ok. auto.
Qed.
Print Assumptions C35_schedule_sane.

Theorem C35_follows_schedule :
  forall v ts, vreachable v ->
  let v0 := reset_reference_counters v in
  forward (items (refs v0)) None ts ->
  Forall2 (fun t p => fst p = Ok tt /\ scheduled (vcur v0) (items (refs v0)) t (snd p))
          ts (reference_run v0 ts).
Proof.
  intros v ts Hr v0 Hf.
  assert (Hv0 : vinv v0) by (apply (vstep_vinv v VReset), vreachable_vinv; auto).
  pose proof (vdc_forward ts v0 None (vcur v0) Hv0) as H.
  assert (Hs : synced (refs v0) None).
  { intros Hne. cbn [v0 refs reset_reference_counters set_refs items counter started_opt] in *.
    unfold len. destruct (items (refs v)); [congruence|cbn [length]; lia]. }
  specialize (H Hs (or_intror eq_refl) Hf). clear Hf Hs.
  assert (Hgen : forall ts v d l, vinv v -> Forall2 (fun t x => scheduled d l t x) ts (vcur_run v ts) ->
    Forall2 (fun t p => fst p = Ok tt /\ scheduled d l t (snd p)) ts (reference_run v ts)).
  { clear. induction ts as [|t ts IH]; simpl; intros v d l Hv HF; [constructor|].
    destruct (update_ok v t Hv) as (Hok & Hv1 & _).
    destruct (update_Vdc_ref v t) as [v1 r]. simpl in *. inversion HF; subst.
    constructor; [simpl; auto|]. apply IH; auto. }
  apply Hgen; auto.
Qed.
Print Assumptions C35_follows_schedule.

Example C35_hypotheses_met :
  let v := fst (vrun (init_vdc (11#10) 520 650 500) [VAdd 2 600; VAdd 1 550; VAdd 2 610; VAdd 3 700]) in
  vreachable v /\ length (items (refs v)) = 2%nat /\
  forward (items (refs (reset_reference_counters v))) None [0; 1; (3#2); 2; 3] /\
  map (fun p => Qred (snd p)) (reference_run (reset_reference_counters v) [0; 1; (3#2); 2; 3])
   = [11#10; 11#10; 11#10; 61#50; 61#50].
Proof.
  split; [do 5 eexists; reflexivity|]. split; [reflexivity|]. split; [|vm_compute; reflexivity].
  match goal with |- forward ?l _ _ => let l' := eval vm_compute in l in change (forward l' None [0; 1; (3#2); 2; 3]) end.
  cbn. repeat split; auto; try (unfold Qle; simpl; lia);
  intros e1 e2 [<-|[<-|[]]] [<-|[<-|[]]]; cbn; intros; try reflexivity; lra.
Qed.

(** * C36 *)
(** the part that holds: as long as no earlier ramp went down *)
Theorem C36_ramp_reaches_target_partial :
  forall v t target v1 x, vreachable v -> 0 < vdel v -> ~ vbase v == 0 ->
  get_Vdc_ref v t = (v1, Ok x) ->
  let start := x * vbase v in
  let dir := if qlt target start then -(1) else 1 in
  vmin v <= start <= vmax v -> vmin v <= target <= vmax v ->
  exists v' n, Vdc_ref_ramp v t target = (v', Ok tt) /\ (0 < n)%nat /\
    (forall i, (i < n)%nat -> exists y,
       lookup (items (refs v')) (t + inject_Z (Z.of_nat i) * vdelt v) = Some y /\
       ((i = n - 1)%nat -> y * vbase v == target) /\
       ((i < n - 1)%nat -> y * vbase v == start + dir * inject_Z (Z.of_nat (S i)) * vdel v /\
                           inject_Z (Z.of_nat (S i)) * vdel v < py_abs (target - start))) /\
    py_abs (target - start) <= inject_Z (Z.of_nat n) * vdel v /\
    (forall u, (forall i, (i < n)%nat -> ~ u == t + inject_Z (Z.of_nat i) * vdelt v) ->
       lookup (items (refs v')) u = lookup (items (refs v)) u).
Proof.
  intros v t target v1 x Hr Hd Hb Hg start dir Hs Ht.
  destruct (ramp_ok v t target v1 x (vreachable_vinv v Hr) Hd Hb Hg Hs Ht)
    as (v' & n & H1 & _ & H2 & H3 & H4 & H5).
  exists v', n. auto.
Qed.
Print Assumptions C36_ramp_reaches_target_partial.
Example C36_hypotheses_met :
  let v := init_vdc (11#10) 520 650 500 in
  exists v1, vreachable v /\ 0 < vdel v /\ get_Vdc_ref v 1 = (v1, Ok (11#10)) /\
  map (fun e => (Qred (eT e), Qred (eV e * 500))) (items (refs (fst (Vdc_ref_ramp v 1 555)))) =
    [(1, 552); (3#2, 554); (2, 555)].
Proof.
  eexists. split; [exists (11#10), 520, 650, 500, []; reflexivity|]. split; [reflexivity|].
  split; [reflexivity|]. vm_compute. reflexivity.
Qed.

(** after one downward ramp the sign of the step stays flipped: whatever the
    next ramp, it raises IndexError *)
Theorem C36_ramp_after_downward_ramp_refuted :
  forall v t target v1 x t2 target2, vreachable v -> 0 < vdel v ->
  get_Vdc_ref v t = (v1, Ok x) -> target < x * vbase v - vdel v ->
  snd (Vdc_ref_ramp (fst (Vdc_ref_ramp v t target)) t2 target2) = Raise IndexError.
Proof.
  intros v t target v1 x t2 g2 Hr Hd Hg Hlt. apply ramp_negative.
  - apply ramp_vinv, vreachable_vinv; auto.
  - rewrite (ramp_down_vdel v t target v1 x); auto using vreachable_vinv. lra.
Qed.
Print Assumptions C36_ramp_after_downward_ramp_refuted.
Example C36_down_then_up :
  let v := init_vdc (11#10) 520 650 500 in
  snd (Vdc_ref_ramp v 1 540) = Ok tt /\
  snd (Vdc_ref_ramp (fst (Vdc_ref_ramp v 1 540)) 20 550) = Raise IndexError.
Proof. vm_compute. auto. Qed.

(** the documented rate is 1 V/s; two consecutive points of a ramp are 2 V and
    0.5 s apart *)
Theorem C36_documented_rate_refuted :
  exists v t target y1 y2,
    vreachable v /\ snd (Vdc_ref_ramp v t target) = Ok tt /\
    lookup (items (refs (fst (Vdc_ref_ramp v t target)))) t = Some y1 /\
    lookup (items (refs (fst (Vdc_ref_ramp v t target)))) (t + (1#2)) = Some y2 /\
    (y2 * vbase v - y1 * vbase v) / (1#2) == 4.
Proof.
  exists (init_vdc (11#10) 520 650 500), 1, 560. do 2 eexists.
  split; [exists (11#10), 520, 650, 500, []; reflexivity|].
  split; [vm_compute; reflexivity|]. split; [vm_compute; reflexivity|].
  split; [vm_compute; reflexivity|]. reflexivity.
Qed.
Print Assumptions C36_documented_rate_refuted.

(** a ramp that starts from a held DC voltage outside the MPP window (the value
    a disconnected DER keeps, DER_features.py:243) is rejected *)
Theorem C36_ramp_from_held_voltage_refuted :
  exists v t target, vreachable v /\ vmin v <= target <= vmax v /\
    snd (Vdc_ref_ramp v t target) = Raise ValueError.
Proof.
  exists (fst (vrun (init_vdc (11#10) 520 650 500) [VHold 1])), 5, 550.
  split; [do 5 eexists; reflexivity|]. split; [split; unfold Qle; simpl; lia|]. vm_compute. reflexivity.
Qed.
Print Assumptions C36_ramp_from_held_voltage_refuted.

(** * C37 *)
(** a reference scheduled on DER 0 changes the reference of DER 1, and the next
    evaluation of DER 1 crashes *)
Theorem C37_isolation_refuted :
  exists w w1 w2 w3 w4 v1 v1' ,
    w = VWorld [] [init_vdc (11#10) 520 650 500; init_vdc (11#10) 520 650 500] /\
    vcall w 0 (VAdd 1 600) = (w1, Ok tt) /\ vcall w1 0 (VAdd 5 560) = (w2, Ok tt) /\
    nth_error (vw_insts w2) 1 = Some v1 /\ vcur v1 = (11#10) /\
    vcall w2 1 (VUpdate 2) = (w3, Ok tt) /\
    nth_error (vw_insts w3) 1 = Some v1' /\ vcur v1' == 600 / 500 /\
    vcall w3 1 (VUpdate 3) = (w4, Raise UnboundLocalError).
Proof.
  do 7 eexists. split; [reflexivity|]. split; [vm_compute; reflexivity|].
  split; [vm_compute; reflexivity|]. split; [reflexivity|]. split; [reflexivity|].
  split; [vm_compute; reflexivity|]. split; [reflexivity|]. split; [reflexivity|].
  vm_compute. reflexivity.
Qed.
Print Assumptions C37_isolation_refuted.

(** what is isolated: everything but the list; and while no reference has been
    scheduled by anybody, evaluations of one DER do not affect another *)
Theorem C37_isolation_partial :
  forall w i j o, i <> j ->
  nth_error (vw_insts (fst (vcall w i o))) j = nth_error (vw_insts w) j /\
  (vw_list w = [] -> (exists t, o = VUpdate t) \/ o = VReset \/ (exists x, o = VHold x) ->
   vw_list (fst (vcall w i o)) = []).
Proof.
  intros w i j o Hij. unfold vcall. destruct (nth_error (vw_insts w) i) as [v|] eqn:E; [|split; auto].
  split.
  - destruct (vstep (view_vdc w v) o) as [v1 r]. simpl. clear E.
    revert i j Hij. generalize (vw_insts w) as l. induction l as [|a l IH]; intros i j Hij; simpl.
    + destruct i, j; reflexivity.
    + destruct i as [|i], j as [|j]; simpl; auto; try congruence. 
  - intros He [(t & ->)|[->|(x & ->)]]; simpl; auto.
    unfold update_Vdc_ref, get_Vdc_ref. simpl. rewrite query_empty by auto. simpl. auto.
Qed.
Print Assumptions C37_isolation_partial.

(** * C62 *)
(** The reference a DER starts with: the maximum-power-point voltage (in per unit)
    with MPPT on, the nominal value otherwise. *)
Theorem C62_initial_reference :
  forall Vdcmpp Vdcbase Vdcnominal, ~ Vdcbase == 0 ->
  set_Vdc_ref true Vdcmpp Vdcbase Vdcnominal * Vdcbase == Vdcmpp /\
  set_Vdc_ref false Vdcmpp Vdcbase Vdcnominal == Vdcnominal.
Proof. intros m b n H. cbn [set_Vdc_ref]. split; [field; auto|reflexivity]. Qed.
Print Assumptions C62_initial_reference.

Theorem C62_mpp_reference_clamped :
  forall use_poly poly rated lo hi base, lo <= hi -> 0 < base ->
  lo / base <= MPP_table use_poly poly rated lo hi base <= hi / base /\
  (lo <= (if use_poly then poly else rated) <= hi ->
   MPP_table use_poly poly rated lo hi base == (if use_poly then poly else rated) / base).
Proof.
  intros up p r lo hi b Hlh Hb. unfold MPP_table. set (v := if up then p else r). clearbody v.
  assert (Hi : 0 < / b) by (apply Qinv_lt_0_compat; auto).
  destruct (py_min_spec v hi) as [[-> ?]|[-> ?]].
  - destruct (py_max_spec v lo) as [[-> ?]|[-> ?]]; unfold Qdiv; split.
    + split; apply Qmult_le_compat_r; lra.
    + reflexivity.
    + split; apply Qmult_le_compat_r; lra.
    + intros. lra.
  - destruct (py_max_spec hi lo) as [[-> ?]|[-> ?]]; unfold Qdiv; split; intros;
      try (split; apply Qmult_le_compat_r; lra); lra.
Qed.
Print Assumptions C62_mpp_reference_clamped.
Example C62_hypotheses_met : MPP_table true 700 0 520 650 500 == 650 / 500 /\
  MPP_table true 600 0 520 650 500 == 600/500 /\ MPP_table false 700 510 520 650 500 == 520/500.
Proof. vm_compute. auto. Qed.
