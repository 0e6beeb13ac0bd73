(** Properties C28, C29, C63: frequency ride-through. *)
From Verif Require Import Base EventsModel VdcModel RTModel RTSpec RTProofs RTProofs2 RTProofs3 RTProperties RTProperties2 FRTModel.

(** the frequency dropped below [F], stayed at most [F + d], and is at or below
    [F] at least [lim] later *)
Definition under_frequency_for (F d lim : Q) (history : list (Q * Q)) : Prop :=
  exists pre t0 f0 mid t1 f1 post,
    history = pre ++ (t0, f0) :: mid ++ (t1, f1) :: post /\
    f0 < F /\ (forall t f, In (t, f) mid -> f <= F + d) /\ f1 <= F /\ lim <= t1 - t0.
Definition frequencies (xs : list (Q * meas)) : list (Q * Q) := map (fun x => (fst x, m_f (snd x))) xs.

Section Zone.
  Variables F d lim : Q.
  Hypothesis Hd : 0 <= d.
  Hypothesis Hlim : 0 < lim.
  Definition fin (f : Q) : bool := qlt f F.
  Definition fout (f : Q) : bool := qlt (F + d) f.
  Lemma under_snoc h t f :
    under_frequency_for F d lim (h ++ [(t, f)]) <->
    under_frequency_for F d lim h \/ (f <= F /\ exists tau, since fin fout h tau /\ lim <= t - tau).
  Proof.
    split.
    - intros (pre & t0 & f0 & mid & t1 & f1 & post & E & H1 & H2 & H3 & H4).
      rewrite app_comm_cons, app_assoc in E. apply snoc_inv in E as [(-> & E & E2)|(post' & -> & ->)].
      + injection E as -> ->. right. split; auto. exists t0. split; auto. subst h.
        exists pre, f0, mid. split; auto. split; [apply qlt_iff; auto|]. intros a b Hin. apply qlt_false. eauto.
      + left. exists pre, t0, f0, mid, t1, f1, post'. rewrite <- app_assoc. auto.
    - intros [(pre & t0 & f0 & mid & t1 & f1 & post & -> & H1 & H2 & H3 & H4)|[Hf (tau & (pre & f0 & post & -> & H1 & H2) & H4)]].
      + exists pre, t0, f0, mid, t1, f1, (post ++ [(t, f)]).
        split; [rewrite <- app_assoc; simpl; rewrite <- app_assoc; reflexivity|]. auto.
      + exists pre, tau, f0, post, t, f, []. split; [rewrite <- app_assoc; reflexivity|].
        split; [unfold fin in H1; qb; auto|]. split; [|auto]. intros a b Hin. specialize (H2 a b Hin). unfold fout in H2. qb. auto.
  Qed.

  (** meaning of a running timer *)
  Definition fmeans (z : fzone) (h : list (Q * Q)) : Prop :=
    (f_start z = 0 /\ forall tau, ~ since fin fout h tau) \/
    (0 < f_start z /\ since fin fout h (f_start z) /\ forall tau, since fin fout h tau -> f_start z <= tau).

  Lemma fzone_step z h t f :
    f_F z = F -> f_limit z = lim -> 0 < t -> (forall t' f', In (t', f') h -> t' < t) -> fmeans z h ->
    let y := f_reset f d (f_begin f t z) in
    fmeans y (h ++ [(t, f)]) /\
    (f_trips f t y = true <-> f <= F /\ exists tau, since fin fout h tau /\ lim <= t - tau).
  Proof.
    intros HF Hl Ht Hnew Hm y.
    assert (Hsin : forall tau, since fin fout h tau -> tau < t).
    { intros tau (pre & V0 & post & -> & _). apply (Hnew tau V0). apply in_or_app. right. left. reflexivity. }
    unfold y, f_begin, f_reset, f_trips, fmeans. rewrite ?HF.
    destruct Hm as [[H0 Hno]|(Hpos & Hs & Hmin)].
    - assert (E0 : qeq (f_start z) 0 = true) by (apply qeq_iff; rewrite H0; reflexivity). rewrite E0. cbn [andb].
      destruct (qlt f F) eqn:Ef; cbn [set_fstart f_F f_start f_limit].
      + rewrite HF. assert (E1 : qlt (F + d) f = false) by (apply qlt_false; qb; lra). rewrite E1. cbn [andb set_fstart f_F f_start f_limit].
        split.
        * right. split; auto. split; [apply since_snoc; right; auto|].
          intros tau Htau. apply since_snoc in Htau as [[Htau _]|[-> _]]; [destruct (Hno tau Htau)|lra].
        * assert (E2 : qle (f_limit z) (t - t) = false) by (apply qle_false; rewrite Hl; lra). rewrite E2.
          rewrite andb_false_r. cbn [andb]. split; [discriminate|]. intros [_ (tau & Htau & _)]. destruct (Hno tau Htau).
      + rewrite HF, H0. assert (E1 : qlt 0 0 = false) by reflexivity. rewrite E1, andb_false_r, H0, E1, andb_false_r.
        split; [left|].
        * split; auto. intros tau Htau. apply since_snoc in Htau as [[Htau _]|[_ Hf]]; [destruct (Hno tau Htau)|unfold fin in Hf; congruence].
        * split; [discriminate|]. intros [_ (tau & Htau & _)]. destruct (Hno tau Htau).
    - assert (E0 : qeq (f_start z) 0 = false) by (apply qeq_false; lra). rewrite E0. cbn [andb]. rewrite HF.
      assert (E1 : qlt 0 (f_start z) = true) by (apply qlt_iff; auto). rewrite E1, andb_true_r.
      destruct (qlt (F + d) f) eqn:Eo; cbn [set_fstart f_F f_start f_limit].
      + split; [left|].
        * split; auto. intros tau Htau. apply since_snoc in Htau as [[_ Hf]|[_ Hf]]; unfold fin, fout in Hf; [congruence|qb; lra].
        * rewrite andb_false_r. split; [discriminate|]. intros [Hf _]. qb. exfalso. lra.
      + rewrite HF, Hl, E1, andb_true_r. split.
        * right. split; auto. split; [apply since_snoc; left; auto|].
          intros tau Htau. apply since_snoc in Htau as [[Htau _]|[-> _]]; auto. apply Hsin in Hs. lra.
        * rewrite andb_true_iff, !qle_iff. split.
          -- intros [A B]. split; auto. exists (f_start z). auto.
          -- intros [A (tau & Htau & B)]. split; auto. apply Hmin in Htau. lra.
  Qed.
End Zone.

(** one evaluation with LFRT enabled, seen from the frequency zones *)
Lemma FRT_normal s m t :
  qlt (r_tstable s) t = true -> r_lftrip s = false ->
  r_lf (fst (FRT s m t)) = map (fun z => f_expire (m_f m) t (f_reset (m_f m) (r_delf s) (f_begin (m_f m) t z))) (r_lf s) /\
  r_lftrip (fst (FRT s m t)) = existsb (fun z => f_trips (m_f m) t (f_reset (m_f m) (r_delf s) (f_begin (m_f m) t z))) (r_lf s).
Proof.
  intros H1 H2. unfold FRT. rewrite H1, H2. cbn [negb].
  set (f := m_f m).
  assert (E : (if existsb (fun z => qeq (f_start z) 0) (r_lf s) then map (f_begin f t) (r_lf s) else r_lf s) = map (f_begin f t) (r_lf s)).
  { destruct (existsb _ (r_lf s)) eqn:Ex; auto. symmetry.
    assert (Hall : forall z, In z (r_lf s) -> f_begin f t z = z).
    { intros z Hz. unfold f_begin. destruct (qeq (f_start z) 0) eqn:Eq; auto.
      assert (existsb (fun z => qeq (f_start z) 0) (r_lf s) = true) by (apply existsb_exists; eauto). congruence. }
    clear - Hall. induction (r_lf s) as [|z l IH]; simpl; auto. rewrite Hall by (left; auto). f_equal. apply IH. intros; apply Hall; right; auto. }
  rewrite E. set (l1 := map (f_begin f t) (r_lf s)).
  destruct (existsb (fun z => qlt 0 (f_start z)) l1) eqn:Er; cbn [fst]; proj.
  - unfold l1. rewrite !map_map. split; [reflexivity|].
    induction (r_lf s) as [|z l IH]; simpl; auto. f_equal. clear.
    induction l as [|z l IH]; simpl; auto. f_equal. auto.
  - assert (Hno : forall z, In z l1 -> qlt 0 (f_start z) = false).
    { intros z Hz. destruct (qlt 0 (f_start z)) eqn:Eq; auto.
      assert (existsb (fun z => qlt 0 (f_start z)) l1 = true) by (apply existsb_exists; eauto). congruence. }
    split.
    + unfold l1 in *. clear - Hno. induction (r_lf s) as [|z l IH]; simpl; auto. 
      assert (Hz : qlt 0 (f_start (f_begin f t z)) = false) by (apply Hno; left; auto).
      rewrite <- IH by (intros; apply Hno; right; auto). f_equal.
      unfold f_expire, f_trips, f_reset. rewrite Hz, andb_false_r, Hz, andb_false_r. reflexivity.
    + unfold l1 in *. clear - Hno. induction (r_lf s) as [|z l IH]; simpl; auto.
      assert (Hz : qlt 0 (f_start (f_begin f t z)) = false) by (apply Hno; left; auto).
      rewrite <- IH by (intros; apply Hno; right; auto).
      unfold f_trips, f_reset. rewrite Hz, andb_false_r, Hz, andb_false_r. reflexivity.
Qed.


(** the frequency part of the state after one processed evaluation *)
Definition fstep (ts d : Q) (lf : list fzone) (trip : bool) (t f : Q) : list fzone * bool :=
  if qlt ts t then
    if trip then (lf, true)
    else (map (fun z => f_expire f t (f_reset f d (f_begin f t z))) lf,
          existsb (fun z => f_trips f t (f_reset f d (f_begin f t z))) lf)
  else (map (fun z => set_fstart z 0) lf, false).
Lemma FRT_pure s m t :
  (r_lf (fst (FRT s m t)), r_lftrip (fst (FRT s m t))) = fstep (r_tstable s) (r_delf s) (r_lf s) (r_lftrip s) t (m_f m).
Proof.
  unfold fstep. destruct (qlt (r_tstable s) t) eqn:E1.
  - destruct (r_lftrip s) eqn:E2.
    + unfold FRT. rewrite E1, E2. cbn [negb]. destruct (reconnect_frame s m t) as (_ & _ & A & B & _). congruence.
    + destruct (FRT_normal s m t E1 E2) as [A B]. rewrite A, B. reflexivity.
  - unfold FRT. rewrite E1. reflexivity.
Qed.

Lemma eval_lf s t m s' : enabled s -> r_lfen s = true -> rt_eval s (t, m) = (s', Ok tt) ->
  (r_lf s', r_lftrip s') =
  if qlt (r_rtlock s) t then fstep (r_tstable s) (r_delf s) (r_lf s) (r_lftrip s) t (m_f m) else (r_lf s, r_lftrip s).
Proof.
  intros [He1 He2] Hlf H. apply eval_split in H as (s1 & E1 & E2).
  destruct (dor_frame s1 m t) as (_ & _ & F3 & F4 & _). rewrite E2 in F3, F4. cbn [fst] in *. rewrite F3, F4. clear F3 F4 E2.
  destruct (qlt (r_rtlock s) t) eqn:Ep; [|rewrite urf_unprocessed in E1 by auto; injection E1 as <-; reflexivity].
  unfold update_ridethrough_flags in E1. rewrite Ep in E1.
  assert (E0 : r_lven (up_locks s t (r_connlock s)) = true) by exact He1. rewrite E0 in E1.
  destruct (LVRT (up_locks s t (r_connlock s)) m t) as [sa ra] eqn:Ea. destruct ra as [[]|]; [|discriminate].
  apply LVRT_cases in Ea. cbv zeta in Ea.
  assert (Pa : r_lf sa = r_lf s /\ r_lftrip sa = r_lftrip s /\ settings sa = settings s) by (subst sa; destruct (qlt _ _); repeat split).
  clear Ea. destruct Pa as (A1 & A2 & A3). pose proof (settings_inj _ _ A3) as SA. decompose [and] SA.
  assert (Eh : r_hven sa = true) by congruence. rewrite Eh in E1.
  destruct (HVRT sa m t) as [sb rb] eqn:Eb. destruct rb as [[]|]; [|discriminate].
  apply HVRT_cases in Eb. cbv zeta in Eb.
  assert (Pb : r_lf sb = r_lf sa /\ r_lftrip sb = r_lftrip sa /\ settings sb = settings sa) by (subst sb; destruct (qlt _ _); repeat split).
  clear Eb. destruct Pb as (B1 & B2 & B3). pose proof (settings_inj _ _ B3) as SB. decompose [and] SB.
  assert (El : r_lfen sb = true) by congruence. rewrite El in E1.
  pose proof (FRT_pure sb m t) as P. destruct (FRT sb m t) as [sc rc]. destruct rc as [[]|]; [|discriminate].
  injection E1 as <-. proj. cbn [fst] in P. rewrite P. f_equal; congruence.
Qed.

Lemma processed_snoc mt s0 xs s t m : initial s0 -> rt_run s0 xs = (s, Ok tt) ->
  processed 0 mt (xs ++ [(t, m)]) =
  processed 0 mt xs ++ (if qlt (r_rtlock s) t then if qlt mt t then [(t, m)] else [] else []).
Proof.
  intros Hi Hr. assert (E0 : r_rtlock s0 = 0) by apply (initial_facts _ Hi).
  assert (He : enabled s0) by apply (initial_rinv _ Hi). rewrite <- E0. clear E0 Hi.
  revert s0 He Hr. induction xs as [|[t1 m1] xs IH]; intros s0 He Hr.
  - injection Hr as ->. simpl. destruct (qlt (r_rtlock s) t); auto. rewrite app_nil_r. auto.
  - apply run_cons in Hr as (s1 & E & Hr).
    destruct (eval_flags s0 t1 m1 s1 He E) as (U1 & _ & _ & _ & _ & _ & _ & _ & _ & U & _). cbv zeta in U.
    specialize (IH s1 (enabled_settings _ _ U1 He) Hr). rewrite U in IH. simpl.
    destruct (qlt (r_rtlock s0) t1); rewrite IH; [|reflexivity]. rewrite app_assoc. reflexivity.
Qed.

Lemma In_freq t f xs : In (t, f) (frequencies xs) -> exists m, In (t, m) xs /\ m_f m = f.
Proof. unfold frequencies. rewrite in_map_iff. intros ([t' m] & [= <- <-] & Hin). eauto. Qed.
Lemma processed_in {A} xs : forall lock ts (x : Q * A), In x (processed lock ts xs) -> In x xs /\ ts < fst x.
Proof.
  induction xs as [|[t m] xs IH]; simpl; intros lock ts x H; [contradiction|].
  destruct (qlt lock t).
  - apply in_app_or in H as [H|H].
    + destruct (qlt ts t) eqn:E; [|contradiction]. destruct H as [<-|[]]. qb. auto.
    + apply IH in H. tauto.
  - apply IH in H. tauto.
Qed.

(** * C28 *)
(** LFRT_TRIP is set exactly by sustained underfrequency *)
Theorem C28_lfrt_trip_iff_history_partial :
  forall s0 xs s, initial s0 -> r_lfen s0 = true ->
  (forall z, In z (r_lf s0) -> f_start z = 0 /\ 0 < f_limit z) -> rt_run s0 xs = (s, Ok tt) ->
  (r_lftrip s = true <->
   exists z, In z (r_lf s0) /\
     under_frequency_for (f_F z) (2#100) (f_limit z) (frequencies (processed 0 (r_tstable s0) xs))).
Proof.
  intros s0 xs s Hi Hlf Hz Hr.
  assert (Hd : r_delf s0 = 2#100) by (destruct Hi as (a1 & a2 & a3 & a4 & a5 & a6 & a7 & a8 & a9 & b1 & b2 & b3 & b4 & b5 & -> & _); reflexivity).
  set (H xs := frequencies (processed 0 (r_tstable s0) xs)).
  assert (G : (r_lftrip s = true <-> exists z, In z (r_lf s0) /\ under_frequency_for (f_F z) (2#100) (f_limit z) (H xs)) /\
     (r_lftrip s = false -> Forall2 (fun z0 z => f_F z = f_F z0 /\ f_limit z = f_limit z0 /\ fmeans (f_F z0) (2#100) z (H xs)) (r_lf s0) (r_lf s))).
  { revert s Hr. induction xs as [|[t m] xs IH] using rev_ind; intros s Hr.
    - injection Hr as <-. destruct (initial_facts _ Hi) as (_ & _ & _ & _ & _ & _ & _ & _ & _ & _ & _ & El & _).
      rewrite El. split; [split; [discriminate|]|].
      + intros (z & _ & pre & t0 & f0 & mid & t1 & f1 & post & E & _). destruct pre; discriminate.
      + intros _. assert (Hz0 : forall z, In z (r_lf s0) -> f_start z = 0) by (intros z Hin; apply Hz; auto).
        clear - Hz0. induction (r_lf s0) as [|z l IH]; constructor.
        * split; auto. split; auto. left. split; [apply Hz0; left; auto|].
          intros tau (pre & V0 & post & E & _). destruct pre; discriminate.
        * apply IH. intros; apply Hz0; right; auto.
    - apply run_app in Hr as (s1 & R1 & R2). apply run_cons in R2 as (s2 & E & R2). injection R2 as ->.
      destruct (IH s1 R1) as [I1 I2]. clear IH.
      pose proof (run_rinv _ _ _ (initial_rinv _ Hi) R1) as Hs.
      pose proof (settings_inj _ _ (run_lfen _ _ _ Hi R1)) as S. destruct S as (_ & S2 & _ & _ & _ & _ & _ & _ & S9 & S10 & _).
      assert (EL : (r_lf s, r_lftrip s) = (if qlt (r_rtlock s1) t then fstep (r_tstable s0) (2#100) (r_lf s1) (r_lftrip s1) t (m_f m) else (r_lf s1, r_lftrip s1))).
      { rewrite <- Hd, <- S10, <- S2. apply eval_lf; auto; [apply Hs|congruence]. }
      assert (EH : H (xs ++ [(t, m)]) = H xs ++ (if qlt (r_rtlock s1) t then if qlt (r_tstable s0) t then [(t, m_f m)] else [] else [])).
      { unfold H. rewrite (processed_snoc (r_tstable s0) s0 xs s1 t m Hi R1). unfold frequencies. rewrite map_app. f_equal.
        destruct (qlt (r_rtlock s1) t); [destruct (qlt (r_tstable s0) t)|]; reflexivity. }
      rewrite EH. destruct (qlt (r_rtlock s1) t) eqn:Ep.
      2:{ injection EL as -> ->. rewrite app_nil_r. auto. }
      apply (new_time s0 xs s1 t Hi R1) in Ep as [Hpos Hnew].
      assert (HnewH : forall t' f', In (t', f') (H xs) -> t' < t).
      { intros t' f' Hin. apply In_freq in Hin as (m' & Hin & _). apply processed_in in Hin as [Hin _]. apply (Hnew _ Hin). }
      unfold fstep in EL. destruct (qlt (r_tstable s0) t) eqn:Ets.
      + destruct (r_lftrip s1) eqn:Etr.
        * injection EL as -> ->. split; [|discriminate]. split; auto. intros _.
          destruct I1 as [I1 _]. destruct (I1 eq_refl) as (z & Hzin & Hu). exists z. split; auto.
          apply under_snoc. auto.
        * injection EL as -> ->. specialize (I2 eq_refl).
          assert (Hno : ~ exists z, In z (r_lf s0) /\ under_frequency_for (f_F z) (2#100) (f_limit z) (H xs)).
          { intros Hx. apply I1 in Hx. discriminate. }
          assert (Hstep : Forall2 (fun z0 z => 
             (f_trips (m_f m) t (f_reset (m_f m) (2#100) (f_begin (m_f m) t z)) = true <->
               under_frequency_for (f_F z0) (2#100) (f_limit z0) (H xs ++ [(t, m_f m)])) /\
             let y := f_reset (m_f m) (2#100) (f_begin (m_f m) t z) in
             f_F y = f_F z0 /\ f_limit y = f_limit z0 /\ fmeans (f_F z0) (2#100) y (H xs ++ [(t, m_f m)])) (r_lf s0) (r_lf s1)).
          { assert (Hz' : forall z, In z (r_lf s0) -> 0 < f_limit z /\ ~ under_frequency_for (f_F z) (2#100) (f_limit z) (H xs)).
            { intros z Hin. split; [apply Hz; auto|]. intros Hu. apply Hno. eauto. }
            clear - I2 Hz' Hpos HnewH. induction I2 as [|z0 z l0 l (HF & Hl & Hm) I2 IH]; constructor.
            - destruct (Hz' z0 (or_introl eq_refl)) as [Hlim Hnu].
              destruct (fzone_step (f_F z0) (2#100) (f_limit z0) ltac:(unfold Qle; simpl; lia) Hlim z (H xs) t (m_f m) HF Hl Hpos HnewH Hm) as [A B].
              split.
              + rewrite B, under_snoc. tauto.
              + cbv zeta. split; [|split; auto].
                * rewrite <- HF. unfold f_reset, f_begin. destruct (_ && _)%bool; destruct (_ && _)%bool; reflexivity.
                * rewrite <- Hl. unfold f_reset, f_begin. destruct (_ && _)%bool; destruct (_ && _)%bool; reflexivity.
            - apply IH. intros y Hy. apply Hz'. right. auto. }
          clear I2 I1. split.
          -- rewrite existsb_exists. split.
             ++ intros (z & Hin & Ht). clear - Hstep Hin Ht. induction Hstep as [|z0 z1 l0 l1 [A _] Hst IH]; [destruct Hin|].
                destruct Hin as [->|Hin]; [exists z0; split; [left; auto|apply A; auto]|].
                destruct (IH Hin) as (y & Hy & Hu). exists y. split; [right; auto|auto].
             ++ intros (z0 & Hin & Hu). clear - Hstep Hin Hu. induction Hstep as [|z1 z l0 l1 [A _] Hst IH]; [destruct Hin|].
                destruct Hin as [->|Hin]; [exists z; split; [left; auto|apply A; auto]|].
                destruct (IH Hin) as (y & Hy & Hu'). exists y. split; [right; auto|auto].
          -- intros Hnt. 
             assert (Hnt' : forall z, In z (r_lf s1) -> f_trips (m_f m) t (f_reset (m_f m) (2#100) (f_begin (m_f m) t z)) = false).
             { intros z Hin. destruct (f_trips _ _ _) eqn:Eq; auto.
               rewrite <- Hnt. symmetry. apply existsb_exists. eauto. }
             clear - Hstep Hnt'. induction Hstep as [|z0 z l0 l [_ A] Hst IH]; constructor; [|apply IH; intros; apply Hnt'; right; auto].
             unfold f_expire. rewrite (Hnt' z (or_introl eq_refl)). exact A.
      + (* before t_stable nothing has been processed *)
        assert (Hemp : processed 0 (r_tstable s0) xs = []).
        { destruct (processed 0 (r_tstable s0) xs) as [|x l] eqn:Epx; auto. exfalso.
          destruct (processed_in xs 0 (r_tstable s0) x) as [Hin Hts]; [rewrite Epx; left; auto|].
          specialize (Hnew x Hin). qb. lra. }
        assert (HE : H xs = []) by (unfold H; rewrite Hemp; reflexivity). rewrite HE in *. cbn [app].
        injection EL as -> ->. split; [split; [discriminate|]|].
        * intros (z & _ & pre & t0 & f0 & mid & t1 & f1 & post & E' & _). destruct pre; discriminate.
        * intros _. assert (Hl1 : r_lftrip s1 = false).
          { destruct (r_lftrip s1) eqn:Etr; auto. destruct I1 as [I1 _]. destruct (I1 eq_refl) as (z & _ & pre & t0 & f0 & mid & t1 & f1 & post & E' & _). destruct pre; discriminate. }
          specialize (I2 Hl1). clear - I2. induction I2 as [|z0 z l0 l (A & B & C) I2 IH]; constructor; auto.
          split; [exact A|]. split; [exact B|]. left. split; [reflexivity|].
          intros tau (pre & V0 & post & E & _). destruct pre; discriminate. }
  apply G.
Qed.
Print Assumptions C28_lfrt_trip_iff_history_partial.

Definition fsmp (t f : Q) : Q * meas := (t, Meas (1#2) (1#2) (1#2) f 1).
Example C28_hypotheses_met :
  let xs := [fsmp (1#10) 60; fsmp (2#10) (565#10); fsmp (205#1000) (5701#100); fsmp (22#100) 57] in
  let s := fst (rt_run (tmpl true) xs) in
  initial (tmpl true) /\ snd (rt_run (tmpl true) xs) = Ok tt /\ r_lftrip s = true /\
  (forall z, In z (r_lf (tmpl true)) -> f_start z = 0 /\ 0 < f_limit z).
Proof.
  split; [apply tmpl_initial|]. split; [vm_compute; reflexivity|]. split; [vm_compute; reflexivity|].
  intros z Hz. simpl in Hz. intuition (subst; reflexivity).
Qed.

(** but the trip aborts the simulation: every further evaluation raises *)
Theorem C28_no_crash_refuted :
  (forall s0 xs s t m, initial s0 -> rt_run s0 xs = (s, Ok tt) ->
     r_lfen s0 = true -> r_mtype s0 <> MOtherType -> r_lftrip s = true -> r_conn s = true ->
     0 < t -> (forall x, In x xs -> fst x < t) -> r_tstable s0 < t ->
     snd (rt_eval s (t, m)) = Raise AssertionError) /\
  exists s0 xs s x, initial s0 /\ rt_run s0 xs = (s, Ok tt) /\ r_lftrip s = true /\ r_conn s = true /\ r_trip s = false /\
    snd (rt_eval s x) = Raise AssertionError.
Proof.
  split.
  - intros s0 xs s t m Hi Hr Hlf0 Hm0 Hl Hc Hpos Hnew Ht0.
    pose proof (run_rinv _ _ _ (initial_rinv _ Hi) Hr) as Hs. destruct (ri_en _ Hs) as [He1 He2].
    pose proof (settings_inj _ _ (run_lfen _ _ _ Hi Hr)) as S. decompose [and] S.
    assert (Ek : qlt (r_rtlock s) t = true) by (apply (new_time s0 xs s t Hi Hr); auto).
    assert (Hlf : r_lfen s = true) by congruence. assert (Hm : r_mtype s <> MOtherType) by congruence.
    assert (Ht : r_tstable s < t) by congruence.
    unfold rt_eval, update_ridethrough_flags. rewrite Ek.
    set (sz := up_locks s t (r_connlock s)).
    assert (P : r_lven sz = true /\ r_hven sz = true /\ r_lfen sz = true /\ r_mtype sz <> MOtherType /\ r_lftrip sz = true /\ r_conn sz = true /\ r_tstable sz = r_tstable s) by (repeat split; auto).
    clearbody sz. destruct P as (P1 & P2 & P3 & P4 & P5 & P6 & P7).
    assert (Et : qlt (r_tstable sz) t = true) by (apply qlt_iff; rewrite P7; auto).
    rewrite P1. unfold LVRT. rewrite get_V_ok by auto. rewrite Et. destruct (zones_loop _ _ _ _) as [[za zb] zc]. proj. rewrite P2.
    unfold HVRT. rewrite get_V_ok by (proj; auto). proj. rewrite Et. destruct (zones_loop _ _ _ _) as [[ya yb] yc]. proj. rewrite P3.
    unfold FRT. proj. rewrite Et, P5. cbn [negb]. unfold DER_reconnect_logic. rewrite get_V_ok by (proj; auto). proj. rewrite P6. reflexivity.
  - exists (tmpl true), [fsmp (1#10) 60; fsmp (2#10) (565#10); fsmp (22#100) 57]. eexists. exists (fsmp (3#10) 60).
    split; [apply tmpl_initial|]. split; [vm_compute; reflexivity|]. vm_compute. auto.
Qed.
Print Assumptions C28_no_crash_refuted.

(** * C63: with LFRT enabled a voltage trip is not permanent *)
Theorem C63_trip_permanent_with_lfrt_refuted :
  exists s0 xs ys s s', initial s0 /\ rt_run s0 xs = (s, Ok tt) /\ r_trip s = true /\ r_conn s = false /\
    rt_run s ys = (s', Ok tt) /\ r_conn s' = true.
Proof.
  set (v t f := (t, Meas (4#10) (4#10) (4#10) f 1) : Q * meas).
  exists (tmpl true), [v (1#10) 60; v (52#10) 60; v (53#10) 60],
    [v (54#10) 56; v (55#10) 56; v (56#10) 56; v (76#10) 56].
  do 2 eexists. split; [apply tmpl_initial|]. split; [vm_compute; reflexivity|]. split; [reflexivity|]. split; [reflexivity|].
  split; vm_compute; reflexivity.
Qed.
Print Assumptions C63_trip_permanent_with_lfrt_refuted.

(** * C29 *)
(** DER 0 sees underfrequency and DER 1 does not: the shared timer makes DER 1
    trip at its first low sample; alone it would not *)
Definition solo (i : nat) (xs : list (nat * (Q * meas))) : list (Q * meas) :=
  map snd (filter (fun p => Nat.eqb (fst p) i) xs).
Theorem C29_isolation_refuted :
  exists w xs w' d0 d1 s', w = RWorld [d0; d1] tmpl_lf /\ initial d0 /\ initial d1 /\
    wrun w xs = (w', Ok tt) /\
    r_lftrip (nth 1 (w_ders w') d1) = true /\
    rt_run d1 (solo 1 xs) = (s', Ok tt) /\ r_lftrip s' = false.
Proof.
  exists (RWorld [tmpl true; tmpl true] tmpl_lf),
   [(0%nat, fsmp (1#10) 56); (1%nat, fsmp (12#100) 56)].
  eexists. exists (tmpl true), (tmpl true). eexists.
  split; [reflexivity|]. split; [apply tmpl_initial|]. split; [apply tmpl_initial|].
  split; [vm_compute; reflexivity|]. split; [vm_compute; reflexivity|]. split; vm_compute; reflexivity.
Qed.
Print Assumptions C29_isolation_refuted.

(** making one DER trip instantaneously changes the limits of every other DER,
    and switching the option off again does not restore them *)
Theorem C29_instantaneous_trip_refuted :
  (forall lf, let lf' := set_FRT_INSTANTANEOUS_TRIP true lf in
     map f_limit lf' = map (fun _ => 1#2) lf /\ map f_F lf' = map f_F lf /\ map f_start lf' = map f_start lf /\
     set_FRT_INSTANTANEOUS_TRIP false lf' = lf' /\ set_FRT_INSTANTANEOUS_TRIP false lf = lf) /\
  map f_limit (set_FRT_INSTANTANEOUS_TRIP false (set_FRT_INSTANTANEOUS_TRIP true tmpl_lf)) <> map f_limit tmpl_lf.
Proof.
  split; [|vm_compute; discriminate].
  intros lf. cbv zeta. cbn [set_FRT_INSTANTANEOUS_TRIP]. rewrite !map_map. repeat split; apply map_ext; reflexivity.
Qed.
Print Assumptions C29_instantaneous_trip_refuted.

(** voltage ride-through alone (LFRT disabled everywhere): however evaluations
    of several DERs are interleaved, each behaves as if it were alone *)
Lemma up_lf_eval s lf t m : r_lfen s = false ->
  rt_eval (with_lf s lf) (t, m) = (with_lf (fst (rt_eval s (t, m))) lf, snd (rt_eval s (t, m))).
Proof.
  intros Hl. unfold rt_eval, update_ridethrough_flags.
  change (r_rtlock (with_lf s lf)) with (r_rtlock s).
  assert (DOR : forall x, disconnect_or_reconnect (with_lf x lf) m t =
      (with_lf (fst (disconnect_or_reconnect x m t)) lf, snd (disconnect_or_reconnect x m t))).
  { clear. intros x. unfold disconnect_or_reconnect. change (r_connlock (with_lf x lf)) with (r_connlock x).
    destruct (qlt (r_connlock x) t).
    - change (up_locks (with_lf x lf) (r_rtlock (with_lf x lf)) t) with (with_lf (up_locks x (r_rtlock x) t) lf).
      set (y := up_locks x (r_rtlock x) t). clearbody y.
      change (r_conn (with_lf y lf)) with (r_conn y). change (r_trip (with_lf y lf)) with (r_trip y). change (r_mc (with_lf y lf)) with (r_mc y).
      assert (DL : DER_disconnect_logic (with_lf y lf) m t = (with_lf (fst (DER_disconnect_logic y m t)) lf, snd (DER_disconnect_logic y m t))).
      { unfold DER_disconnect_logic. change (r_conn (with_lf y lf)) with (r_conn y). change (r_tdis (with_lf y lf)) with (r_tdis y).
        change (r_disdelay (with_lf y lf)) with (r_disdelay y). change (get_Vrms_measured (with_lf y lf) m) with (get_Vrms_measured y m).
        destruct (negb (r_conn y)); [reflexivity|]. destruct (qeq _ _); [reflexivity|]. destruct (qlt _ _); [reflexivity|].
        destruct (get_Vrms_measured y m); reflexivity. }
      assert (RL : DER_reconnect_logic (with_lf y lf) m t = (with_lf (fst (DER_reconnect_logic y m t)) lf, snd (DER_reconnect_logic y m t))).
      { unfold DER_reconnect_logic. change (get_Vrms_measured (with_lf y lf) m) with (get_Vrms_measured y m).
        change (r_conn (with_lf y lf)) with (r_conn y). change (r_mc (with_lf y lf)) with (r_mc y). change (r_trec (with_lf y lf)) with (r_trec y).
        change (r_recdelay (with_lf y lf)) with (r_recdelay y). change (r_restore (with_lf y lf)) with (r_restore y).
        change (r_vdc (with_lf y lf)) with (r_vdc y). change (r_setpoint (with_lf y lf)) with (r_setpoint y).
        destruct (get_Vrms_measured y m); [|reflexivity]. destruct (r_conn y); [reflexivity|].
        destruct (r_mc y); [destruct (qlt _ _); reflexivity|]. destruct (qlt 0 t); [|reflexivity].
        destruct (qlt 0 (r_trec y)).
        - destruct (qlt _ _); [|reflexivity]. destruct (r_restore y); [destruct (Vdc_ref_ramp _ _ _)|]; reflexivity.
        - destruct (qeq _ _); reflexivity. }
      destruct (r_conn y).
      + destruct (_ || _)%bool.
        * rewrite DL. destruct (DER_disconnect_logic y m t) as [a b]. cbn [fst snd]. destruct b; [|reflexivity].
          change (r_conn (with_lf a lf)) with (r_conn a). destruct (negb (r_conn a)); reflexivity.
        * change (r_conn (with_lf y lf)) with (r_conn y). destruct (negb (r_conn y)); reflexivity.
      + destruct (negb (r_trip y)).
        * rewrite RL. destruct (DER_reconnect_logic y m t) as [a b]. cbn [fst snd]. destruct b; [|reflexivity].
          change (r_conn (with_lf a lf)) with (r_conn a). destruct (negb (r_conn a)); reflexivity.
        * change (r_conn (with_lf y lf)) with (r_conn y). destruct (negb (r_conn y)); reflexivity.
    - change (r_conn (with_lf x lf)) with (r_conn x). destruct (negb (r_conn x)); reflexivity. }
  destruct (qlt (r_rtlock s) t).
  - change (up_locks (with_lf s lf) t (r_connlock (with_lf s lf))) with (with_lf (up_locks s t (r_connlock s)) lf).
    set (y := up_locks s t (r_connlock s)). assert (Hy : r_lfen y = false) by exact Hl. clearbody y.
    change (r_lven (with_lf y lf)) with (r_lven y).
    assert (LL : forall y, LVRT (with_lf y lf) m t = (with_lf (fst (LVRT y m t)) lf, snd (LVRT y m t)) /\ r_lfen (fst (LVRT y m t)) = r_lfen y).
    { clear. intros y. unfold LVRT. change (get_Vrms_measured (with_lf y lf) m) with (get_Vrms_measured y m).
      change (r_tstable (with_lf y lf)) with (r_tstable y). change (r_vref (with_lf y lf)) with (r_vref y).
      change (r_lv (with_lf y lf)) with (r_lv y). change (r_lvtrip (with_lf y lf)) with (r_lvtrip y). change (r_lvmc (with_lf y lf)) with (r_lvmc y).
      destruct (get_Vrms_measured y m); [|auto]. destruct (qlt _ _); [|auto]. destruct (zones_loop _ _ _ _) as [[za zb] zc]. auto. }
    assert (HH : forall y, HVRT (with_lf y lf) m t = (with_lf (fst (HVRT y m t)) lf, snd (HVRT y m t)) /\ r_lfen (fst (HVRT y m t)) = r_lfen y).
    { clear. intros y. unfold HVRT. change (get_Vrms_measured (with_lf y lf) m) with (get_Vrms_measured y m).
      change (r_tstable (with_lf y lf)) with (r_tstable y). change (r_vref (with_lf y lf)) with (r_vref y).
      change (r_hv (with_lf y lf)) with (r_hv y). change (r_hvtrip (with_lf y lf)) with (r_hvtrip y). change (r_hvmc (with_lf y lf)) with (r_hvmc y).
      destruct (get_Vrms_measured y m); [|auto]. destruct (qlt _ _); [|auto]. destruct (zones_loop _ _ _ _) as [[za zb] zc]. auto. }
    assert (LE : exists a b, (if r_lven y then LVRT y m t else (y, Ok tt)) = (a, b) /\ (if r_lven y then LVRT (with_lf y lf) m t else (with_lf y lf, Ok tt)) = (with_lf a lf, b) /\ r_lfen a = false).
    { destruct (r_lven y).
      - destruct (LL y) as [A B]. rewrite A. destruct (LVRT y m t) as [a b]. exists a, b. cbn [fst snd] in *. repeat split; congruence.
      - exists y, (Ok tt). auto. }
    destruct LE as (a & b & E1 & E2 & E3). rewrite E1, E2. destruct b as [[]|]; [|reflexivity].
    change (r_hven (with_lf a lf)) with (r_hven a).
    assert (HE : exists c d, (if r_hven a then HVRT a m t else (a, Ok tt)) = (c, d) /\ (if r_hven a then HVRT (with_lf a lf) m t else (with_lf a lf, Ok tt)) = (with_lf c lf, d) /\ r_lfen c = false).
    { destruct (r_hven a).
      - destruct (HH a) as [A B]. rewrite A. destruct (HVRT a m t) as [c d]. exists c, d. cbn [fst snd] in *. repeat split; congruence.
      - exists a, (Ok tt). auto. }
    destruct HE as (c & d & F1 & F2 & F3). rewrite F1, F2. destruct d as [[]|]; [|reflexivity].
    change (r_lfen (with_lf c lf)) with (r_lfen c). rewrite F3.
    change (up_flags (with_lf c lf) (r_lvtrip (with_lf c lf) || r_hvtrip (with_lf c lf)) (r_lvmc (with_lf c lf) || r_hvmc (with_lf c lf)))
      with (with_lf (up_flags c (r_lvtrip c || r_hvtrip c) (r_lvmc c || r_hvmc c)) lf).
    apply DOR.
  - apply DOR.
Qed.

Lemma isolation_without_lfrt :
  forall xs ders lf w', (forall d, In d ders -> r_lfen d = false /\ rinv d) ->
  wrun (RWorld ders lf) xs = (w', Ok tt) ->
  w_lf w' = lf /\
  forall i d, nth_error ders i = Some d ->
    exists d' s', nth_error (w_ders w') i = Some d' /\ rt_run d (solo i xs) = (s', Ok tt) /\ with_lf d' [] = with_lf s' [].
Proof.
  assert (Frame : forall s t m, rinv s -> r_lfen s = false -> snd (rt_eval s (t, m)) = Ok tt ->
     r_lfen (fst (rt_eval s (t, m))) = false /\ rinv (fst (rt_eval s (t, m)))).
  { intros s t m Hs Hl Hok. destruct (rt_eval s (t, m)) as [s' r] eqn:E. cbn [fst snd] in *. subst r.
    destruct (eval_flags s t m s' (ri_en _ Hs) E) as (U & _). apply settings_inj in U. decompose [and] U.
    split; [congruence|eapply eval_rinv; eauto]. }
  assert (Rinv_lf : forall s lf, rinv s -> rinv (with_lf s lf)).
  { intros s lf [A B C D E F]. constructor; auto. }
  (* runs do not depend on the frequency zones *)
  assert (RunLf : forall xs s lf, r_lfen s = false -> rinv s ->
     rt_run (with_lf s lf) xs = (with_lf (fst (rt_run s xs)) lf, snd (rt_run s xs))).
  { induction xs as [|[t m] xs IH]; intros s lf Hl Hs; [reflexivity|]. cbn [rt_run]. rewrite up_lf_eval by auto.
    pose proof (Frame s t m Hs Hl) as Fr. destruct (rt_eval s (t, m)) as [s1 r1]. cbn [fst snd] in *.
    destruct r1 as [[]|]; [|reflexivity]. destruct (Fr eq_refl). apply IH; auto. }
  assert (NthUpd : forall (l : list rt) i j x, nth_error (upd l i x) j = if Nat.eqb i j then match nth_error l j with Some _ => Some x | None => None end else nth_error l j).
  { induction l as [|y l IH]; intros [|i] [|j] x; simpl; auto. destruct (Nat.eqb i j); reflexivity. }
  assert (InUpd : forall (l : list rt) i x y, In y (upd l i x) -> y = x \/ In y l).
  { induction l as [|z l IH]; intros [|i] x y H; simpl in *; auto; destruct H as [<-|H]; auto. apply IH in H. tauto. }
  induction xs as [|[i [t m]] xs IH]; intros ders lf w' Hd H.
  - injection H as <-. cbn [w_lf w_ders]. split; auto. intros j d Hj. exists d, d. split; [auto|]. split; [reflexivity|auto].
  - cbn [wrun] in H. unfold weval in H. cbn [w_ders w_lf] in H.
    destruct (nth_error ders i) as [s|] eqn:Ei.
    + assert (Hin : In s ders) by (eapply nth_error_In; eauto). destruct (Hd s Hin) as [Hl Hs].
      rewrite up_lf_eval in H by auto. pose proof (Frame s t m Hs Hl) as Fr.
      destruct (rt_eval s (t, m)) as [s1 r1] eqn:E1. cbn [fst snd] in *. destruct r1 as [[]|]; [|discriminate].
      destruct (Fr eq_refl) as [Fr1 Fr2].
      change (r_lf (with_lf s1 lf)) with lf in H.
      apply IH in H as [A B].
      2:{ intros d Hdin. apply InUpd in Hdin as [->|Hdin]; [|auto]. split; [exact Fr1|apply Rinv_lf; auto]. }
      split; auto. intros j d Hj. specialize (B j). rewrite NthUpd in B. unfold solo. cbn [filter fst]. destruct (Nat.eqb i j) eqn:Eij.
      * apply Nat.eqb_eq in Eij. subst j. rewrite Ei in Hj, B. injection Hj as <-.
        destruct (B _ eq_refl) as (d' & s' & B1 & B2 & B3). cbn [map snd rt_run]. rewrite E1.
        rewrite RunLf in B2 by auto. fold (solo i xs).
        destruct (rt_run s1 (solo i xs)) as [s2 r2]. cbn [fst snd] in B2. injection B2 as <- ->.
        exists d', s2. split; auto.
      * destruct (B d Hj) as (d' & s' & B1 & B2 & B3). exists d', s'. auto.
    + apply IH in H as [A B]; [|auto]. split; auto. intros j d Hj. destruct (B j d Hj) as (d' & s' & B1 & B2 & B3).
      exists d', s'. split; auto. split; auto. unfold solo. cbn [filter fst]. destruct (Nat.eqb i j) eqn:Eij; auto.
      apply Nat.eqb_eq in Eij. subst j. congruence.
Qed.

Theorem C29_isolation_without_lfrt_partial :
  forall xs ders lf w', (forall d, In d ders -> r_lfen d = false /\ initial d) ->
  wrun (RWorld ders lf) xs = (w', Ok tt) ->
  w_lf w' = lf /\
  forall i d, nth_error ders i = Some d ->
    exists d' s', nth_error (w_ders w') i = Some d' /\ rt_run d (solo i xs) = (s', Ok tt) /\ with_lf d' [] = with_lf s' [].
Proof.
  intros xs ders lf w' Hd H. apply isolation_without_lfrt in H; auto.
  intros d Hin. destruct (Hd d Hin). split; auto. apply initial_rinv; auto.
Qed.
Print Assumptions C29_isolation_without_lfrt_partial.

Example C29_hypotheses_met : (forall d, In d [tmpl false; tmpl false] -> r_lfen d = false /\ initial d) /\
  snd (wrun (RWorld [tmpl false; tmpl false] tmpl_lf) [(0%nat, smp (1#10) (4#10)); (1%nat, smp (1#10) 1); (0%nat, smp 2 (4#10))]) = Ok tt.
Proof.
  split; [|vm_compute; reflexivity]. intros d [<-|[<-|[]]]; (split; [reflexivity|apply tmpl_initial]).
Qed.
