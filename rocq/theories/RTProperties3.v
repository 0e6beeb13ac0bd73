(** Properties C27 and C64: accepted settings; the ride-through logic never raises. *)
From Verif Require Import Base EventsModel VdcModel RTModel RTSpec RTProofs RTProofs2 RTProofs3 RTProperties RTProperties2 VRTCheckModel.

(** * C27 *)
(** specification: thresholds ordered *)
Fixpoint nonincreasing (l : list Q) : Prop :=
  match l with x :: ((y :: _) as l') => y <= x /\ nonincreasing l' | _ => True end.
Fixpoint nondecreasing (l : list Q) : Prop :=
  match l with x :: ((y :: _) as l') => x <= y /\ nondecreasing l' | _ => True end.

Section Sorting.
  Variable leb : Q -> Q -> bool.
  Variable R : Q -> Q -> Prop.
  Hypothesis leb_iff : forall x y, leb x y = true <-> R x y.
  Hypothesis R_total : forall x y, R x y \/ R y x.
  Hypothesis R_trans : forall x y z, R x y -> R y z -> R x z.
  Hypothesis R_proper : forall x x' y y', x == x' -> y == y' -> R x y -> R x' y'.
  Fixpoint chain (l : list Q) : Prop :=
    match l with x :: ((y :: _) as l') => R x y /\ chain l' | _ => True end.
  Lemma insert_chain x l : chain l -> chain (insert leb x l).
  Proof.
    induction l as [|y l IH]; intros H; [exact I|]. simpl insert. destruct (leb x y) eqn:E.
    - apply leb_iff in E. simpl. split; auto.
    - assert (Hyx : R y x).
      { destruct (R_total x y) as [H1|H1]; auto. apply leb_iff in H1. congruence. }
      destruct l as [|z l]; [simpl; auto|].
      assert (Hc : chain (z :: l)) by apply H. specialize (IH Hc). simpl insert in *.
      destruct (leb x z); simpl in *; split; auto; apply H.
  Qed.
  Lemma isort_chain l : chain (isort leb l).
  Proof. induction l as [|x l IH]; [exact I|]. simpl. apply insert_chain; auto. Qed.
  Lemma isort_id l : chain l -> isort leb l = l.
  Proof.
    induction l as [|x l IH]; intros H; [reflexivity|]. simpl.
    rewrite IH by (destruct l; [exact I|apply H]). destruct l as [|y l]; [reflexivity|].
    simpl. destruct H as [H _]. apply leb_iff in H. rewrite H. reflexivity.
  Qed.
  Lemma list_eqb_refl l : list_eqb l l = true.
  Proof. induction l; simpl; auto. rewrite IHl, andb_true_r. apply qeq_iff. reflexivity. Qed.
  Lemma list_eqb_chain a : forall b, list_eqb a b = true -> chain b -> chain a.
  Proof.
    induction a as [|x a IH]; intros [|y b] H Hb; simpl in H; try discriminate; [exact I|].
    apply andb_true_iff in H as [H1 H2]. qb.
    destruct a as [|x2 a]; [exact I|]. destruct b as [|y2 b]; [discriminate|].
    split; [|apply (IH (y2 :: b)); auto; apply Hb]. simpl in H2. apply andb_true_iff in H2 as [H2 _]. qb.
    destruct Hb as [Hb _]. eapply R_proper; [| |exact Hb]; symmetry; auto.
  Qed.
  Lemma sorted_check l : list_eqb l (isort leb l) = true <-> chain l.
  Proof.
    split.
    - intros H. eapply list_eqb_chain; [exact H|]. apply isort_chain.
    - intros H. rewrite isort_id by auto. apply list_eqb_refl.
  Qed.
  Lemma chain_app a b : chain (a ++ b) -> chain a.
  Proof.
    induction a as [|x a IH]; intros H; [exact I|]. destruct a as [|y a]; [exact I|].
    destruct H as [H1 H2]. split; [auto|]. apply IH. exact H2.
  Qed.
End Sorting.

Lemma noninc_chain l : nonincreasing l <-> chain (fun x y => y <= x) l.
Proof. induction l as [|x [|y l] IH]; simpl in *; tauto. Qed.
Lemma nondec_chain l : nondecreasing l <-> chain (fun x y => x <= y) l.
Proof. induction l as [|x [|y l] IH]; simpl in *; tauto. Qed.

Lemma py_sorted_desc l : list_eqb l (py_sorted true l) = true <-> nonincreasing l.
Proof.
  rewrite noninc_chain. apply sorted_check.
  - intros x y. apply qle_iff.
  - intros x y. destruct (Qlt_le_dec x y); [right; apply Qlt_le_weak|left]; auto.
  - intros x x' y y' E1 E2 H. lra.
Qed.
Lemma py_sorted_asc l : list_eqb l (py_sorted false l) = true <-> nondecreasing l.
Proof.
  rewrite nondec_chain. apply sorted_check.
  - intros x y. apply qle_iff.
  - intros x y. destruct (Qlt_le_dec x y); [left; apply Qlt_le_weak|right]; auto.
  - intros x x' y y' E1 E2 H. lra.
Qed.

Definition zone_ok (lv : bool) (z : zone) : Prop :=
  (if lv then 0 < z_V z < 1 else 1 < z_V z < 3#2) /\ 0 < z_t z < 100 /\ z_mode z <> OtherMode.
Definition ordered (lv : bool) (l : list Q) : Prop := if lv then nonincreasing l else nondecreasing l.

Lemma check_zones_iff lv zs : forall seen,
  (check_zones lv seen zs = Ok tt \/ check_zones lv seen zs = Raise ValueError) /\
  (ordered lv seen ->
   (check_zones lv seen zs = Ok tt <-> (forall z, In z zs -> zone_ok lv z) /\ ordered lv (seen ++ map z_V zs))).
Proof.
  assert (Hsort : forall l, negb (list_eqb l (py_sorted lv l)) = false <-> ordered lv l).
  { intros l. rewrite negb_false_iff. destruct lv; [apply py_sorted_desc|apply py_sorted_asc]. }
  assert (Hpre : forall a b, ordered lv (a ++ b) -> ordered lv a).
  { intros a b. unfold ordered. destruct lv; [rewrite !noninc_chain|rewrite !nondec_chain]; apply chain_app. }
  induction zs as [|z zs IH]; intros seen.
  - simpl. split; auto. intros H. rewrite app_nil_r. tauto.
  - destruct (IH (seen ++ [z_V z])) as [I1 I2].
    assert (Happ : seen ++ map z_V (z :: zs) = (seen ++ [z_V z]) ++ map z_V zs) by (rewrite <- app_assoc; reflexivity).
    rewrite Happ. cbn [check_zones]. cbv zeta.
    assert (Bad : forall (c : res unit), (c = Raise ValueError) ->
       ~ ((forall y, In y (z :: zs) -> zone_ok lv y) /\ ordered lv ((seen ++ [z_V z]) ++ map z_V zs)) ->
       (c = Ok tt \/ c = Raise ValueError) /\
       (ordered lv seen -> (c = Ok tt <-> (forall y, In y (z :: zs) -> zone_ok lv y) /\ ordered lv ((seen ++ [z_V z]) ++ map z_V zs)))).
    { intros c -> Hn. split; auto. intros _. split; [discriminate|tauto]. }
    assert (Hz : ((forall y, In y (z :: zs) -> zone_ok lv y) -> zone_ok lv z)) by (intros H; apply H; left; auto).
    destruct (if lv then qle 1 (z_V z) else qle (z_V z) 1) eqn:E1.
    { apply Bad; auto. intros [H _]. apply Hz in H as [H _]. destruct lv; qb; lra. }
    destruct (negb (list_eqb (seen ++ [z_V z]) (py_sorted lv (seen ++ [z_V z])))) eqn:E2.
    { apply Bad; auto. intros [_ H]. apply Hpre in H. apply Hsort in H. congruence. }
    destruct (qle (z_V z) 0) eqn:E3.
    { apply Bad; auto. intros [H _]. apply Hz in H as [H _]. destruct lv; qb; lra. }
    destruct (qle V_high_limit (z_V z)) eqn:E4.
    { apply Bad; auto. intros [H _]. apply Hz in H as [H _]. unfold V_high_limit in E4. destruct lv; qb; lra. }
    destruct (qle (z_t z) 0) eqn:E5.
    { apply Bad; auto. intros [H _]. apply Hz in H as (_ & H & _). qb; lra. }
    destruct (qle t_high_limit (z_t z)) eqn:E6.
    { apply Bad; auto. intros [H _]. apply Hz in H as (_ & H & _). unfold t_high_limit in E6. qb; lra. }
    destruct (negb (valid_mode (z_mode z))) eqn:E7.
    { apply Bad; auto. intros [H _]. apply Hz in H as (_ & _ & H). destruct (z_mode z); simpl in E7; congruence. }
    split; auto. intros Ho. apply Hsort in E2. rewrite (I2 E2).
    assert (Hok : zone_ok lv z).
    { unfold zone_ok. unfold V_high_limit, t_high_limit in *. split; [destruct lv; qb; split; auto|].
      split; [qb; split; auto|]. destruct (z_mode z); simpl in E7; congruence. }
    split; intros [A B]; (split; [|auto]).
    + intros y [<-|Hy]; auto.
    + intros y Hy. apply A. right; auto.
Qed.

Lemma check_delays_iff dd rd : check_delays dd rd = (if (qle (1#120) dd && qle (1#10) rd)%bool then Ok tt else Raise ValueError).
Proof.
  unfold check_delays, t_disconnect_low, t_reconnect_low.
  destruct (qlt dd (1#120)) eqn:E1; destruct (qle (1#120) dd) eqn:E2; cbn [andb]; auto; try (exfalso; qb; lra).
  destruct (qlt rd (1#10)) eqn:E3; destruct (qle (1#10) rd) eqn:E4; auto; exfalso; qb; lra.
Qed.

Theorem C27_accepted_iff_sane :
  forall lv hv dd rd,
  (check_VRT_settings lv hv dd rd = Ok tt \/ check_VRT_settings lv hv dd rd = Raise ValueError) /\
  (check_VRT_settings lv hv dd rd = Ok tt <->
   (forall z, In z lv -> 0 < z_V z < 1 /\ 0 < z_t z < 100 /\ z_mode z <> OtherMode) /\
   (forall z, In z hv -> 1 < z_V z < 3#2 /\ 0 < z_t z < 100 /\ z_mode z <> OtherMode) /\
   nonincreasing (map z_V lv) /\ nondecreasing (map z_V hv) /\ 1#120 <= dd /\ 1#10 <= rd).
Proof.
  intros lv hv dd rd. unfold check_VRT_settings. rewrite check_delays_iff.
  destruct (check_zones_iff true lv []) as [[L|L] L2]; specialize (L2 I); cbn [app] in L2; rewrite L in *; cbn [bindR].
  - destruct L2 as [L2 _]. destruct (L2 eq_refl) as [A B].
    destruct (qle (1#120) dd) eqn:E1; cbn [andb].
    + destruct (qle (1#10) rd) eqn:E2; cbn [bindR].
      * destruct (check_zones_iff false hv []) as [[H|H] H2]; specialize (H2 I); cbn [app] in H2; rewrite H in *; cbn [bindR].
        -- destruct H2 as [H2 _]. destruct (H2 eq_refl) as [C D]. split; auto. split; auto. intros _. qb. repeat (split; auto).
        -- split; auto. split; [discriminate|]. intros (X1 & X2 & X3 & X4 & X5 & X6). apply H2. split; auto.
      * split; auto. split; [discriminate|]. intros (X1 & X2 & X3 & X4 & X5 & X6). qb. lra.
    + cbn [bindR]. split; auto. split; [discriminate|]. intros (X1 & X2 & X3 & X4 & X5 & X6). qb. lra.
  - split; auto. split; [discriminate|]. intros (X1 & X2 & X3 & X4 & X5 & X6). apply L2. split; auto.
Qed.
Print Assumptions C27_accepted_iff_sane.

Example C27_template_accepted : check_VRT_settings tmpl_lv tmpl_hv (1#100) (7#4) = Ok tt.
Proof. reflexivity. Qed.
Example C27_unordered_rejected : check_VRT_settings (rev tmpl_lv) tmpl_hv (1#100) (7#4) = Raise ValueError.
Proof. reflexivity. Qed.

(** * C64 *)
(** with the default settings (frequency ride-through off, restore_Vdc off) no
    sequence of voltages and times makes the ride-through logic raise *)
Theorem C64_ridethrough_never_raises :
  forall s0 xs, initial s0 -> r_lfen s0 = false -> r_restore s0 = false -> r_mtype s0 <> MOtherType ->
  snd (rt_run s0 xs) = Ok tt.
Proof.
  intros s0 xs Hi Hlf Hre Hm.
  assert (G : forall xs s, rinv s -> r_lfen s = false -> r_restore s = false -> r_mtype s <> MOtherType -> snd (rt_run s xs) = Ok tt).
  { clear. induction xs as [|[t m] xs IH]; intros s Hs Hlf Hre Hm; [reflexivity|].
    assert (E : exists s', rt_eval s (t, m) = (s', Ok tt)).
    { destruct (urf_ok s m t Hlf Hm) as (s1 & E1). unfold rt_eval. rewrite E1.
      assert (S : r_mtype s1 <> MOtherType /\ r_restore s1 = false).
      { destruct (qlt (r_rtlock s) t) eqn:Ep.
        - destruct (ri_en _ Hs) as [A B]. destruct (urf_cases s m t s1 A B E1 Ep) as (U & _).
          apply settings_inj in U. decompose [and] U. split; congruence.
        - rewrite urf_unprocessed in E1 by auto. injection E1 as <-. auto. }
      destruct S as [S1 S2]. unfold disconnect_or_reconnect.
      assert (B : exists s2, (if qlt (r_connlock s1) t then
         let s0 := up_locks s1 (r_rtlock s1) t in
         if r_conn s0 then if (r_trip s0 || r_mc s0)%bool then DER_disconnect_logic s0 m t else (s0, Ok tt)
         else if negb (r_trip s0) then DER_reconnect_logic s0 m t else (s0, Ok tt)
         else (s1, Ok tt)) = (s2, Ok tt)).
      { destruct (qlt (r_connlock s1) t); [|eauto]. cbv zeta.
        set (s2 := up_locks s1 (r_rtlock s1) t).
        assert (M : r_mtype s2 <> MOtherType /\ r_restore s2 = false) by (split; auto). clearbody s2. destruct M as [M1 M2].
        destruct (r_conn s2) eqn:Ec.
        - destruct (_ || _)%bool; [|eauto]. unfold DER_disconnect_logic. rewrite Ec. cbn [negb].
          destruct (qeq _ _); [eauto|]. destruct (qlt _ _); [eauto|]. rewrite get_V_ok by auto. eauto.
        - destruct (negb _); [|eauto]. unfold DER_reconnect_logic. rewrite get_V_ok by auto. rewrite Ec, M2.
          destruct (r_mc s2); [destruct (qlt _ _); eauto|]. destruct (qlt 0 t); [|eauto].
          destruct (qlt 0 (r_trec s2)); [destruct (qlt _ _); eauto|destruct (qeq _ _); eauto]. }
      destruct B as (s2 & B). cbv zeta in B. rewrite B. eauto. }
    destruct E as (s' & E). cbn [rt_run]. rewrite E.
    destruct (eval_flags s t m s' (ri_en _ Hs) E) as (U & _). apply settings_inj in U. decompose [and] U.
    apply IH; [eapply eval_rinv; eauto|congruence|congruence|congruence]. }
  apply G; auto. apply initial_rinv; auto.
Qed.
Print Assumptions C64_ridethrough_never_raises.

Example C64_hypotheses_met : initial (tmpl false) /\ r_lfen (tmpl false) = false /\ r_restore (tmpl false) = false /\
  r_mtype (tmpl false) <> MOtherType.
Proof. split; [apply tmpl_initial|]. repeat split. discriminate. Qed.

(** * C65: restore_Vdc *)
(** With restore_Vdc enabled, a DER whose DC link was held outside the MPP
    window while disconnected aborts the simulation when it reconnects. *)
Definition tmpl_restore : rt :=
  rt_init (1#2) 0 MMinimum (1#100) (7#4) true false 550 tmpl_lv tmpl_hv tmpl_lf true true vdc0.
Theorem C65_restore_vdc_refuted :
  exists s0 xs s x, initial s0 /\ r_lfen s0 = false /\ r_mtype s0 = MMinimum /\ r_restore s0 = true /\
    rt_run s0 xs = (s, Ok tt) /\ snd (rt_eval s x) = Raise ValueError.
Proof.
  exists tmpl_restore, [smp (1#10) (4#10); smp (7#10) (4#10); smp (72#100) (4#10); smp (8#10) 1].
  eexists. exists (smp (26#10) 1).
  split. { do 14 eexists. split; [reflexivity|]. unfold tmpl_lv, tmpl_hv, fresh_zone.
    split; intros z Hz; simpl in Hz; intuition (subst; split; reflexivity). }
  do 3 (split; [reflexivity|]). split; vm_compute; reflexivity.
Qed.
Print Assumptions C65_restore_vdc_refuted.
