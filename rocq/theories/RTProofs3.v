(** Lemmas about connection and disconnection. *)
From Verif Require Import Base EventsModel VdcModel RTModel RTSpec RTProofs RTProofs2.

(** connection status and the two timers, one processed evaluation *)
Definition cstep (trip mc : bool) (dd rd t : Q) (conn : bool) (tdis trec : Q) : bool * Q * Q :=
  if conn then
    if (trip || mc)%bool then
      if qeq tdis 0 then (true, t, trec)
      else if qlt (t - tdis) dd then (true, tdis, trec) else (false, 0, trec)
    else (true, tdis, trec)
  else if trip then (false, tdis, trec)
  else if mc then (false, tdis, if qlt 0 trec then 0 else trec)
  else if qlt 0 t then
    if qlt 0 trec then if qlt rd (t - trec) then (true, tdis, 0) else (false, tdis, trec)
    else if qeq trec 0 then (false, tdis, t) else (false, tdis, trec)
  else (false, tdis, trec).

Lemma dor_conn s m t s' : disconnect_or_reconnect s m t = (s', Ok tt) ->
  (r_conn s', r_tdis s', r_trec s') =
  (if qlt (r_connlock s) t
   then cstep (r_trip s) (r_mc s) (r_disdelay s) (r_recdelay s) t (r_conn s) (r_tdis s) (r_trec s)
   else (r_conn s, r_tdis s, r_trec s)) /\
  (r_vve s' = r_vve s \/ r_conn s' = false /\ r_vve s' = false) /\
  (r_conn s' = true -> r_conn s = true -> outputs s' = outputs s).
Proof.
  unfold disconnect_or_reconnect.
  set (body := if qlt (r_connlock s) t then _ else _).
  assert (H : snd body = Ok tt ->
    (r_conn (fst body), r_tdis (fst body), r_trec (fst body)) = (if qlt (r_connlock s) t
   then cstep (r_trip s) (r_mc s) (r_disdelay s) (r_recdelay s) t (r_conn s) (r_tdis s) (r_trec s)
   else (r_conn s, r_tdis s, r_trec s)) /\ r_vve (fst body) = r_vve s /\
   (r_conn s = true -> outputs (fst body) = outputs s)).
  { unfold body, outputs. destruct (qlt (r_connlock s) t); [|repeat split]. unfold cstep. proj.
    destruct (r_conn s) eqn:Ec.
    - destruct (r_trip s || r_mc s)%bool; [|proj; rewrite Ec; auto].
      unfold DER_disconnect_logic. proj. rewrite Ec. cbn [negb].
      destruct (qeq (r_tdis s) 0); [proj; auto|]. destruct (qlt (t - r_tdis s) (r_disdelay s)); [proj; rewrite Ec; auto|].
      destruct (get_Vrms_measured _ m); proj; [auto|discriminate].
    - destruct (r_trip s) eqn:Et; cbn [negb]; [proj; rewrite Ec; intros _; split; [auto|]; split; [auto|discriminate]|].
      intros Hb. split; [|split; [|discriminate]].
      + revert Hb. unfold DER_reconnect_logic. destruct (get_Vrms_measured _ m); [|discriminate]. proj. rewrite Ec.
        destruct (r_mc s). { destruct (qlt 0 (r_trec s)); proj; rewrite ?Ec; auto. }
        destruct (qlt 0 t); [|proj; rewrite Ec; auto].
        destruct (qlt 0 (r_trec s)).
        * destruct (qlt (r_recdelay s) (t - r_trec s)); [|proj; rewrite Ec; auto].
          destruct (r_restore s); [destruct (Vdc_ref_ramp _ _ _)|]; proj; auto.
        * destruct (qeq (r_trec s) 0); proj; rewrite ?Ec; auto.
      + destruct (reconnect_frame (up_locks s (r_rtlock s) t) m t) as (_ & _ & _ & _ & _ & _ & _ & _ & _ & Hv).
        injection Hv. intros. proj. auto. }
  clearbody body. destruct body as [s1 r1]. cbn [fst snd] in *. destruct r1 as [[]|]; [|discriminate].
  intros [= <-]. destruct (H eq_refl) as (H1 & H2 & H3). clear H.
  destruct (r_conn s1) eqn:E1; cbn [negb].
  - rewrite E1. repeat split; auto.
  - unfold DER_disconnect. proj. rewrite E1. split; [auto|]. split; [auto|discriminate].
Qed.

(** one evaluation with frequency ride-through off *)
Lemma eval_conn s t m s' :
  enabled s -> r_lfen s = false -> r_connlock s = r_rtlock s -> rt_eval s (t, m) = (s', Ok tt) ->
  (r_conn s', r_tdis s', r_trec s') =
  (if qlt (r_rtlock s) t
   then cstep (r_trip s') (r_mc s') (r_disdelay s) (r_recdelay s) t (r_conn s) (r_tdis s) (r_trec s)
   else (r_conn s, r_tdis s, r_trec s)) /\
  (r_vve s' = r_vve s \/ r_conn s' = false /\ r_vve s' = false) /\
  (r_conn s' = true -> r_conn s = true -> outputs s' = outputs s).
Proof.
  intros [He1 He2] Hl Hk H. apply eval_split in H as (s1 & E1 & E2).
  destruct (urf_conn s m t s1 _ Hl E1) as (C1 & C2 & C3 & C4 & _ & _ & C5).
  destruct (dor_conn s1 m t s' E2) as (D1 & D2 & D3).
  destruct (dor_frame s1 m t) as (_ & _ & _ & _ & F5 & F6 & _ & _). rewrite E2 in F5, F6. cbn [fst] in *.
  assert (Hst : settings s1 = settings s).
  { destruct (qlt (r_rtlock s) t) eqn:Ep; [apply (urf_cases s m t s1 He1 He2 E1 Ep)|].
    rewrite urf_unprocessed in E1 by auto. congruence. }
  destruct (settings_inj _ _ Hst) as (_ & _ & _ & S4 & S5 & _).
  split; [|split].
  - rewrite D1, C5, Hk, S4, S5, C1, C2, C3, F5, F6. reflexivity.
  - replace (r_vve s) with (r_vve s1); auto. unfold outputs in C4. congruence.
  - intros A B. rewrite D3; auto. rewrite C1. auto.
Qed.

(** the lock is the latest time so far *)
Definition lock_of (xs : list (Q * meas)) (l : Q) : Prop :=
  0 <= l /\ (forall x, In x xs -> fst x <= l) /\ (l = 0 \/ exists x, In x xs /\ fst x = l).

Lemma run_lock s0 xs : forall s, initial s0 -> rt_run s0 xs = (s, Ok tt) -> lock_of xs (r_rtlock s).
Proof.
  intros s Hi. revert s. induction xs as [|[t m] xs IH] using rev_ind; intros s H.
  - injection H as <-. destruct (initial_facts _ Hi) as (-> & _). repeat split; [lra|intros x []|auto].
  - apply run_app in H as (s1 & H1 & H2). destruct (IH s1 H1) as (L1 & L2 & L3).
    apply run_cons in H2 as (s2 & E & H2). injection H2 as <-.
    pose proof (run_rinv _ _ _ (initial_rinv _ Hi) H1) as Hinv.
    destruct (eval_flags s1 t m s2 (ri_en _ Hinv) E) as (_ & _ & _ & _ & _ & _ & _ & _ & _ & U & _).
    cbv zeta in U. rewrite U. destruct (qlt (r_rtlock s1) t) eqn:Ep; qb.
    + split; [lra|]. split.
      * intros x Hx. apply in_app_or in Hx as [Hx|[<-|[]]]; [apply L2 in Hx; lra|simpl; lra].
      * right. exists (t, m). split; [apply in_or_app; right; left; reflexivity|reflexivity].
    + split; [auto|]. split.
      * intros x Hx. apply in_app_or in Hx as [Hx|[<-|[]]]; [auto|simpl; lra].
      * destruct L3 as [->|(x & Hx & E3)]; [left; auto|right; exists x]. split; auto. apply in_or_app. auto.
Qed.

Lemma new_time s0 xs s t : initial s0 -> rt_run s0 xs = (s, Ok tt) ->
  (qlt (r_rtlock s) t = true <-> 0 < t /\ forall x, In x xs -> fst x < t).
Proof.
  intros Hi H. destruct (run_lock s0 xs s Hi H) as (L1 & L2 & L3). rewrite qlt_iff. split.
  - intros Hl. split; [lra|]. intros x Hx. apply L2 in Hx. lra.
  - intros [H1 H2]. destruct L3 as [->|(x & Hx & <-)]; auto.
Qed.

Definition state_after (s0 : rt) (xs : list (Q * meas)) : rt := fst (rt_run s0 xs).

(** bookkeeping of the two timers *)
Definition dis_ok (s0 : rt) (xs : list (Q * meas)) (s : rt) : Prop :=
  r_tdis s = 0 \/
  (0 < r_tdis s /\
   exists pre m1 mid, xs = pre ++ (r_tdis s, m1) :: mid /\
     flagged (state_after s0 (pre ++ [(r_tdis s, m1)])) = true /\
     forall a b, mid = a ++ b -> r_conn (state_after s0 (pre ++ (r_tdis s, m1) :: a)) = true).
Definition rec_ok (s0 : rt) (xs : list (Q * meas)) (s : rt) : Prop :=
  r_trip s = true \/ r_trec s = 0 \/
  (0 < r_trec s /\
   exists pre m1 mid, xs = pre ++ (r_trec s, m1) :: mid /\
     forall a b, mid = a ++ b ->
       let x := state_after s0 (pre ++ (r_trec s, m1) :: a) in r_conn x = false /\ flagged x = false).

Lemma app_snoc_split {A} (mid a b : list A) x : mid ++ [x] = a ++ b ->
  (b = [] /\ a = mid ++ [x]) \/ exists b', b = b' ++ [x] /\ mid = a ++ b'.
Proof.
  destruct (rev b) as [|w r] eqn:E.
  - assert (b = []) by (rewrite <- (rev_involutive b), E; reflexivity). subst. rewrite app_nil_r. auto.
  - assert (Hp : b = rev r ++ [w]) by (rewrite <- (rev_involutive b), E; reflexivity). subst b.
    rewrite app_assoc. intros H. apply app_inj_tail in H as [-> ->]. right. eauto.
Qed.


Record tinv (s0 : rt) (xs : list (Q * meas)) (s : rt) : Prop := {
  ti_dis : dis_ok s0 xs s;
  ti_rec : rec_ok s0 xs s;
  ti_c : r_conn s = true -> r_trec s = 0;
  ti_d : r_conn s = false -> r_tdis s = 0;
  ti_r0 : 0 <= r_trec s; ti_d0 : 0 <= r_tdis s;
  ti_rl : r_trec s <= r_rtlock s; ti_dl : r_tdis s <= r_rtlock s;
  ti_run : r_conn s = false -> flagged s = false -> 0 < r_trec s }.

Lemma run_lfen s0 xs s : initial s0 -> rt_run s0 xs = (s, Ok tt) -> settings s = settings s0.
Proof. intros Hi H. apply (run_zones _ _ _ (ri_en _ (initial_rinv _ Hi)) H). Qed.

Lemma timers s0 xs : forall s, initial s0 -> r_lfen s0 = false -> rt_run s0 xs = (s, Ok tt) -> tinv s0 xs s.
Proof.
  intros s Hi Hlf. revert s. induction xs as [|[t m] xs IH] using rev_ind; intros s H.
  - injection H as <-. destruct (initial_facts _ Hi) as (L0 & _ & T1 & T2 & C & _).
    constructor; try (rewrite ?L0, ?T1, ?T2; lra); try congruence; [left; auto|right; left; auto].
  - pose proof H as Hall. apply run_app in H as (s1 & H1 & H2).
    destruct (IH s1 H1) as [ID IR IC Id Ir0 Id0 Irl Idl Irun].
    apply run_cons in H2 as (s2 & E & H2). injection H2 as ->.
    pose proof (run_rinv _ _ _ (initial_rinv _ Hi) H1) as Hinv.
    assert (Hlf1 : r_lfen s1 = false).
    { pose proof (settings_inj _ _ (run_lfen _ _ _ Hi H1)) as A. decompose [and] A. congruence. }
    destruct (eval_conn s1 t m s (ri_en _ Hinv) Hlf1 (ri_lock _ Hinv) E) as (C & _).
    pose proof (eval_rinv _ _ _ Hinv E) as Hinv'.
    destruct (eval_flags s1 t m s (ri_en _ Hinv) E) as (_ & _ & _ & U4 & U5 & _ & _ & U8 & U9 & U10 & _). cbv zeta in *.
    assert (Htm : r_trip s1 = true -> r_trip s = true).
    { rewrite (ri_trip _ Hinv), (ri_trip _ Hinv'), U4, U5. destruct (_ && _)%bool; [|auto].
      destruct (r_lvtrip s1), (r_hvtrip s1); simpl; auto; try discriminate. rewrite orb_true_r. auto. }
    assert (Hsa : state_after s0 (xs ++ [(t, m)]) = s) by (unfold state_after; rewrite Hall; reflexivity).
    assert (KD : r_conn s = true -> r_tdis s = r_tdis s1 -> dis_ok s0 (xs ++ [(t, m)]) s).
    { intros Kc Ke. destruct ID as [Hz|(Hp & pre & m1 & mid & Hx & Hf & Ha)]; [left; congruence|right].
      rewrite Ke. split; auto. exists pre, m1, (mid ++ [(t, m)]).
      split; [rewrite Hx, <- app_assoc; reflexivity|]. split; auto.
      intros a b Hab. apply app_snoc_split in Hab as [[-> ->]|(b' & -> & ->)]; [|eauto].
      rewrite app_comm_cons, app_assoc, <- Hx, Hsa. auto. }
    assert (KR : r_conn s = false -> (r_trip s = false -> flagged s = false) -> r_trec s = r_trec s1 -> rec_ok s0 (xs ++ [(t, m)]) s).
    { intros Kc Km Ke. destruct (r_trip s) eqn:Et; [left; auto|right].
      destruct IR as [Hz|[Hz|(Hp & pre & m1 & mid & Hx & Ha)]]; [apply Htm in Hz; congruence|left; congruence|right].
      rewrite Ke. split; auto. exists pre, m1, (mid ++ [(t, m)]).
      split; [rewrite Hx, <- app_assoc; reflexivity|].
      intros a b Hab. apply app_snoc_split in Hab as [[-> ->]|(b' & -> & ->)]; [|eapply Ha; eauto].
      rewrite app_comm_cons, app_assoc, <- Hx, Hsa. auto. }
    assert (Hlk : 0 <= r_rtlock s1) by apply (run_lock s0 xs s1 Hi H1).
    destruct (qlt (r_rtlock s1) t) eqn:Ep.
    + qb. assert (Hpt : 0 < t) by lra. assert (Hpt' : qlt 0 t = true) by (apply qlt_iff; auto).
      unfold cstep in C. rewrite Hpt' in C.
      destruct (r_conn s1) eqn:Ec1.
      * specialize (IC eq_refl). destruct (r_trip s || r_mc s)%bool eqn:Ef.
        -- destruct (qeq (r_tdis s1) 0) eqn:Eq.
           ++ injection C as C1 C2 C3.
              constructor; rewrite ?U10, ?C2, ?C3, ?IC; try lra; try congruence; [right|right; left; congruence].
              rewrite C2. split; auto. exists xs, m, []. split; auto. split; [rewrite Hsa; exact Ef|].
              intros a b Hab. symmetry in Hab. apply app_eq_nil in Hab as [-> _]. rewrite Hsa. auto.
           ++ destruct (qlt (t - r_tdis s1) (r_disdelay s1)) eqn:Ed; injection C as C1 C2 C3;
              (constructor; rewrite ?U10, ?C2, ?C3, ?IC; try lra; try congruence; try (right; left; congruence)).
              ** apply KD; auto.
              ** left; auto.
              ** unfold flagged. intros _ Hx. congruence.
        -- injection C as C1 C2 C3.
           constructor; rewrite ?U10, ?C2, ?C3, ?IC; try lra; try congruence; [apply KD; auto|right; left; congruence].
      * specialize (Id eq_refl). destruct (r_trip s) eqn:Et.
        -- injection C as C1 C2 C3.
           constructor; rewrite ?U10, ?C2, ?C3, ?Id; try lra; try congruence.
           ++ left; congruence.
           ++ apply KR; congruence.
           ++ unfold flagged. rewrite Et. discriminate.
        -- destruct (r_mc s) eqn:Em.
           ++ destruct (qlt 0 (r_trec s1)) eqn:Er; injection C as C1 C2 C3;
              (constructor; rewrite ?U10, ?C2, ?C3, ?Id; try lra; try congruence);
              try (left; congruence); try (right; left; congruence);
              try (unfold flagged; rewrite Et, Em; discriminate).
              right. left. rewrite C3. qb.
              destruct IR as [Hz|[Hz|(Hz & _)]]; [apply Htm in Hz; congruence|auto|exfalso; lra].
           ++ assert (Hfl : flagged s = false) by (unfold flagged; rewrite Et, Em; reflexivity).
              destruct (qlt 0 (r_trec s1)) eqn:Er.
              ** destruct (qlt (r_recdelay s1) (t - r_trec s1)) eqn:Erd; injection C as C1 C2 C3;
                 (constructor; rewrite ?U10, ?C2, ?C3, ?Id; try lra; try congruence);
                 try (left; congruence); try (right; left; congruence); try (apply KR; congruence); qb; lra.
              ** qb. assert (Eq : qeq (r_trec s1) 0 = true) by (apply qeq_iff; lra).
                 rewrite Eq in C. injection C as C1 C2 C3.
                 constructor; rewrite ?U10, ?C2, ?C3, ?Id; try lra; try congruence; [left; congruence|right; right].
                 rewrite C3. split; auto. exists xs, m, []. split; auto.
                 intros a b Hab. symmetry in Hab. apply app_eq_nil in Hab as [-> _]. rewrite Hsa. auto.
    + injection C as C1 C2 C3.
      assert (Hfe : flagged s = flagged s1) by (unfold flagged; rewrite U8, U9; reflexivity).
      constructor; rewrite ?U10, ?C1, ?C2, ?C3, ?Hfe; auto.
      * destruct ID as [Hz|ID]; [left; congruence|apply KD; auto].
        rewrite C1. destruct (r_conn s1) eqn:Ec; auto. rewrite (Id eq_refl) in ID. destruct ID as [ID _]. exfalso; lra.
      * destruct (r_conn s1) eqn:Ec; [right; left; rewrite C3; auto|].
        destruct (flagged s1) eqn:Ef; [|apply KR; auto].
        unfold flagged in Ef. destruct (r_trip s1) eqn:Et1; [left; auto|]. simpl in Ef.
        destruct IR as [IR|[IR|(Hp & pre & m1 & mid & Hx & Ha)]]; [congruence|right; left; congruence|].
        exfalso. destruct (Ha mid [] (eq_sym (app_nil_r _))) as [_ Hb]. rewrite <- Hx in Hb.
        unfold state_after in Hb. rewrite H1 in Hb. cbn [fst] in Hb. unfold flagged in Hb. rewrite Et1, Ef in Hb. discriminate.
Qed.
