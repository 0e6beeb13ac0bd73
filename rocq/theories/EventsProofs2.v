(** Query runs on the SimulationEvents object. *)
From Verif Require Import Base EventsModel EventsSpec TimedLemmas QueryLemmas EventsProofs.

Definition sol_dflt (s : events) := SolarV (ins_default (espec s)) Tactual_default.

Lemma solar_run_queries ts : forall s, solarEn s = true ->
  solar_run s ts = queries (sol_dflt s) (solar s) ts.
Proof.
  induction ts as [|t ts IH]; simpl; intros s He; auto.
  unfold solar_events. rewrite He. unfold sol_dflt in *.
  destruct (query_sched _ (solar s) t) as [sc r]. simpl. f_equal.
  rewrite IH; auto.
Qed.
Lemma load_run_queries ts : forall s, loadEn s = true ->
  load_run s ts = queries Zload_default (load s) ts.
Proof.
  induction ts as [|t ts IH]; simpl; intros s He; auto.
  unfold load_events. rewrite He.
  destruct (query_sched _ (load s) t) as [sc r]. simpl. f_equal.
  rewrite IH; auto.
Qed.

Lemma synced_start {A} (sc : sched A) : counter sc = 0%Z -> synced sc None.
Proof. intros H Hne. rewrite H. simpl. pose proof (len_pos _ Hne). lia. Qed.

Lemma solar_wf s : Inv s -> wf (solar s).
Proof. intros HI. split; [apply HI|apply (inv_ts s HI)]. Qed.
Lemma load_wf s : Inv s -> wf (load s).
Proof. intros HI. split; [apply (inv_sched s HI)|apply (inv_tl s HI)]. Qed.

Lemma solar_forward s ts :
  Inv s -> solarEn s = true -> counter (solar s) = 0%Z ->
  forward (items (solar s)) None ts ->
  Forall2 (fun t r => exists v, r = Ok v /\ scheduled (sol_dflt s) (items (solar s)) t v) ts (solar_run s ts).
Proof.
  intros HI He Hc Hf. rewrite solar_run_queries by auto.
  apply (queries_forward (sol_dflt s) ts (solar s) None); auto.
  - apply solar_wf; auto.
  - apply synced_start; auto.
Qed.
Lemma load_forward s ts :
  Inv s -> loadEn s = true -> counter (load s) = 0%Z ->
  forward (items (load s)) None ts ->
  Forall2 (fun t r => exists v, r = Ok v /\ scheduled Zload_default (items (load s)) t v) ts (load_run s ts).
Proof.
  intros HI He Hc Hf. rewrite load_run_queries by auto.
  apply (queries_forward Zload_default ts (load s) None); auto.
  - apply load_wf; auto.
  - apply synced_start; auto.
Qed.

Lemma mono_eq ts : forall p, nondecreasing p ts ->
  (fix mono p ts := match ts with [] => True | t :: ts' => not_before p t /\ mono (Some t) ts' end) p ts.
Proof. intros p H. exact H. Qed.

Lemma solar_no_future s ts :
  Inv s -> solarEn s = true -> counter (solar s) = 0%Z -> nondecreasing None ts ->
  Forall2 (fun t r => exists v, r = Ok v /\
     (v = sol_dflt s \/ exists e, In e (items (solar s)) /\ eT e <= t /\ v = eV e)) ts (solar_run s ts).
Proof.
  intros HI He Hc Hf. rewrite solar_run_queries by auto.
  apply (queries_no_future (sol_dflt s) ts (solar s) None); auto.
  - apply solar_wf; auto.
  - split; rewrite Hc; [lia|]. intros Hne. pose proof (len_pos _ Hne). lia.
  - intros Hne. rewrite Hc. simpl. lia.
Qed.

Lemma solar_catch_up s t :
  Inv s -> solarEn s = true -> counter (solar s) = 0%Z ->
  exists v, last (solar_run s (repeat t (S (length (items (solar s)))))) (Raise ValueError) = Ok v /\
            scheduled (sol_dflt s) (items (solar s)) t v.
Proof.
  intros HI He Hc. rewrite solar_run_queries by auto.
  apply query_catch_up.
  - apply solar_wf; auto.
  - split; rewrite Hc; [lia|]. intros Hne. pose proof (len_pos _ Hne). lia.
  - intros c Hc'. rewrite Hc in Hc'. assert (c = O) by lia. subst. simpl.
    pose proof (started_le_length (items (solar s)) t). lia.
Qed.

(** ** grid *)
Lemma started_vf l t : started (map vf l) t = started l t.
Proof. induction l as [|e l IH]; simpl; auto. rewrite IH. reflexivity. Qed.
Lemma started_times {A B} (l : list (ev A)) (l' : list (ev B)) t :
  map eT l = map eT l' -> started l t = started l' t.
Proof.
  revert l'. induction l as [|e l IH]; intros [|e' l'] H; simpl in *; try discriminate; auto.
  injection H as He Hl. rewrite He, (IH l' Hl). reflexivity.
Qed.
Lemma started_opt_times {A B} (l : list (ev A)) (l' : list (ev B)) p :
  map eT l = map eT l' -> started_opt l p = started_opt l' p.
Proof. destruct p; simpl; auto. apply started_times. Qed.
Lemma vf_times l : map eT (map vf l) = map eT l.
Proof. rewrite map_map. reflexivity. Qed.
Lemma vf_times_eq l l' : map vf l = map vf l' -> map eT l = map eT l'.
Proof. intros H. rewrite <- (vf_times l), <- (vf_times l'), H. reflexivity. Qed.
Lemma increasing_vf l : increasing l -> increasing (map vf l).
Proof.
  induction 1 as [|x l Hs IH Hf]; simpl; constructor; auto.
  rewrite Forall_forall in *. intros y Hy. apply in_map_iff in Hy as (z & <- & Hz). simpl. auto.
Qed.

Lemma In_vf l e : In e l -> In (vf e) (map vf l).
Proof. apply in_map. Qed.
Lemma amob_vf l l' p t :
  map vf l = map vf l' -> at_most_one_boundary l p t -> at_most_one_boundary l' p t.
Proof.
  intros E H e1 e2 H1 H2 A1 A2 T1 T2.
  apply In_vf in H1. apply In_vf in H2. rewrite <- E in H1, H2.
  apply in_map_iff in H1 as (x1 & E1 & H1). apply in_map_iff in H2 as (x2 & E2 & H2).
  assert (X1 : eT x1 = eT e1) by (apply (f_equal (@eT _)) in E1; exact E1).
  assert (X2 : eT x2 = eT e2) by (apply (f_equal (@eT _)) in E2; exact E2).
  rewrite <- X1, <- X2 in *. auto.
Qed.
Lemma forward_vf ts : forall l l' p, map vf l = map vf l' -> forward l p ts -> forward l' p ts.
Proof.
  induction ts as [|t ts IH]; simpl; intros l l' p E H; auto.
  destruct H as (H1 & H2 & H3). split; auto. split; [eapply amob_vf; eauto|eauto].
Qed.
Lemma seen_vf l l' p t : map vf l = map vf l' -> last_seen_in_window l p t -> last_seen_in_window l' p t.
Proof.
  intros E H e He Hm Ht. apply In_vf in He as He'. rewrite <- E in He'.
  apply in_map_iff in He' as (x & Ex & Hx).
  assert (X : eT x = eT e) by (apply (f_equal (@eT _)) in Ex; exact Ex).
  rewrite <- X in *. apply (H x); auto.
  intros y Hy. apply In_vf in Hy. rewrite E in Hy. apply in_map_iff in Hy as (z & Ez & Hz).
  assert (Z : eT z = eT y) by (apply (f_equal (@eT _)) in Ez; exact Ez).
  rewrite <- Z. auto.
Qed.
Lemma windowed_vf ts : forall l l' p, map vf l = map vf l' -> windowed l p ts -> windowed l' p ts.
Proof.
  induction ts as [|t ts IH]; simpl; intros l l' p E H; auto.
  destruct H as (H1 & H2). split; [eapply seen_vf; eauto|eauto].
Qed.

Definition angles_ok (s : events) (p : option Q) : Prop :=
  forall i e, nth_error (items (grid s)) i = Some e ->
    (i < started_opt (items (grid s)) p)%nat -> angle_follows_frequency s (eV e).

Lemma nth_error_prefix {A} (l1 l2 : list A) i x :
  nth_error l1 i = Some x -> nth_error (l1 ++ l2) i = Some x.
Proof.
  intros H. assert (i < length l1)%nat by (apply nth_error_Some; congruence).
  rewrite nth_error_app1; auto.
Qed.

Lemma prev_grid_cases s l1 :
  (l1 = [] /\ prev_grid s l1 = grid_default s) \/
  exists l e, l1 = l ++ [e] /\ prev_grid s l1 = eV e.
Proof.
  unfold prev_grid. destruct l1 as [|x l] eqn:E; [left; auto|right].
  destruct (last_split (x :: l)) as (l' & y & Ey); [congruence|].
  exists l', y. split; auto. rewrite Ey, map_app. apply last_last.
Qed.

Lemma grid_step s p t :
  Safe s -> gridEn s = true -> items (grid s) <> [] ->
  synced (grid s) p -> not_before p t -> at_most_one_boundary (items (grid s)) p t ->
  exists v s', grid_events s t = (s', Ok v) /\ Safe s' /\ same_config s s' /\
    synced (grid s') (Some t) /\ map vf (items (grid s')) = map vf (items (grid s)) /\
    scheduled (vol_default (espec s), frq_default (espec s))
              (map vf (items (grid s))) t (Vgrid v, fgrid v) /\
    (angles_ok s p -> last_seen_in_window (items (grid s)) p t ->
     angles_ok s' (Some t) /\ angle_follows_frequency s v).
Proof.
  intros HS En Hne Hsy Hnb Hamb.
  pose proof (grid_safe s t HS) as [_ HS'].
  destruct HS as [HI Ho Rs [Rg Rg0] Rl].
  assert (Hinc : increasing (items (grid s))) by apply (inv_sched s HI).
  pose proof (increasing_vf _ Hinc) as Hincv.
  pose proof (started_mono (items (grid s)) p t Hinc Hnb) as Hm.
  pose proof (started_step (items (grid s)) p t Hinc Hamb) as Hs.
  pose proof (started_le_length (items (grid s)) t) as Hlen.
  specialize (Hsy Hne).
  pose proof (len_pos _ Hne) as Hpos.
  destruct (grid_exact s t HI Rg Ho En Hne)
    as (l1 & ec & l2 & el & Hit & Hc & (l' & Hel) & Hcase).
  cbv zeta in Hcase.
  assert (Hec : nth_error (items (grid s)) (length l1) = Some ec)
    by (rewrite Hit, nth_error_app2, Nat.sub_diag by lia; reflexivity).
  assert (Hlen1 : (length l1 < length (items (grid s)))%nat)
    by (apply nth_error_Some; congruence).
  unfold len in *.
  assert (Hkp : (length l1 <= started_opt (items (grid s)) p)%nat) by lia.
  assert (Hprev : angles_ok s p -> angle_follows_frequency s (prev_grid s l1)).
  { intros Ha. destruct (prev_grid_cases s l1) as [[-> ->]|(l0 & e0 & -> & ->)].
    - unfold angle_follows_frequency. simpl. ring.
    - apply (Ha (length l0) e0).
      + rewrite Hit, <- app_assoc, nth_error_app2, Nat.sub_diag by lia. reflexivity.
      + rewrite app_length in Hkp. simpl in Hkp. lia. }
  destruct Hcase as [[Ht Eq]|[(Ht & Hw & s' & Eq & Hcfg & Hi & Hc' & Htt & Hi2 & Hi3 & Hc2 & Hc3)|(Ht & Hw & Eq)]];
    rewrite Eq in HS'; simpl in HS'.
  - (* before the pending event *)
    assert (Hk : (started (items (grid s)) t <= length l1)%nat).
    { destruct (le_lt_dec (started (items (grid s)) t) (length l1)); auto.
      apply (started_nth _ t _ ec Hinc Hec) in l. lra. }
    exists (prev_grid s l1), s. split; auto. split; auto. split; [apply same_config_refl|].
    split; [intros _; unfold len; simpl; lia|]. split; auto. split.
    + apply scheduled_started; auto. rewrite started_vf.
      destruct (prev_grid_cases s l1) as [[-> ->]|(l0 & e0 & -> & ->)].
      * left. simpl in *. split; [lia|reflexivity].
      * right. exists (length l0), (vf e0). rewrite app_length in *. simpl in *.
        split; [lia|]. split; [|reflexivity].
        apply map_nth_error. rewrite Hit, <- app_assoc, nth_error_app2, Nat.sub_diag by lia. reflexivity.
    + intros Ha _. split; auto. intros i e He Hlt. simpl in Hlt. apply (Ha i e He). lia.
  - (* the pending (or last) event has started: rewritten in place *)
    match type of Eq with _ = (_, Ok ?w) => set (v := w) in * end.
    assert (Hk : (length l1 < started (items (grid s)) t)%nat)
      by (apply (started_nth _ t _ ec Hinc Hec); auto).
    assert (Hvf : map vf (items (grid s')) = map vf (items (grid s))).
    { rewrite Hi, Hit, !map_app. reflexivity. }
    assert (Hst : started (items (grid s')) t = started (items (grid s)) t).
    { rewrite <- (started_vf (items (grid s'))), Hvf, started_vf. reflexivity. }
    assert (Hln : length (items (grid s')) = length (items (grid s))).
    { rewrite Hi, Hit, !app_length. reflexivity. }
    exists v, s'. split; auto. split; auto. split; auto.
    split. { intros _. simpl. rewrite Hc', Hst. unfold len. rewrite Hln. lia. }
    split; auto. split.
    + apply scheduled_started; auto. rewrite started_vf.
      right. exists (length l1), (vf ec). split; [lia|]. split; [|reflexivity].
      apply map_nth_error. auto.
    + intros Ha Hwin.
      assert (Hv : angle_follows_frequency s v).
      { specialize (Hprev Ha). unfold angle_follows_frequency in *. simpl.
        rewrite Hprev. unfold del_t_event. ring. }
      split; auto.
      intros i e He Hlt. simpl in Hlt. rewrite Hst in Hlt.
      assert (Hespec : espec s' = espec s) by apply Hcfg.
      cut (angle_follows_frequency s (eV e)).
      { unfold angle_follows_frequency. rewrite Hespec. auto. }
      rewrite Hi in He. destruct (lt_eq_lt_dec i (length l1)) as [[Hi1|Hi1]|Hi1].
      * rewrite nth_error_app1 in He by lia.
        apply (Ha i e); [rewrite Hit; apply nth_error_prefix; auto|lia].
      * subst i. rewrite nth_error_app2, Nat.sub_diag in He by lia. injection He as <-. exact Hv.
      * (* i beyond the pending index: only when everything has started *)
        exfalso. assert (i < length (items (grid s)))%nat.
        { rewrite <- Hln, Hi. apply nth_error_Some. congruence. }
        lia.
  - (* the last event, more than 3 ms ago *)
    assert (Hlast : nth_error (items (grid s)) (length l') = Some el)
      by (rewrite Hel, nth_error_app2, Nat.sub_diag by lia; reflexivity).
    assert (Hll : length (items (grid s)) = S (length l'))
      by (rewrite Hel, app_length; simpl; lia).
    assert (Hk : (length l' < started (items (grid s)) t)%nat).
    { apply (started_nth _ t _ el Hinc Hlast). lra. }
    assert (Hl1 : length l1 = length l') by lia.
    rewrite Hl1, Hlast in Hec. injection Hec as <-.
    exists (eV el), (advance_grid s). split; auto. split; auto.
    split; [repeat split|].
    split. { intros _. simpl. rewrite (inv_tg s HI Hne), Hc. unfold len. lia. }
    split; auto. split.
    + apply scheduled_started; auto. rewrite started_vf.
      right. exists (length l'), (vf el). split; [lia|]. split; [|reflexivity].
      apply map_nth_error. auto.
    + intros Ha Hwin.
      destruct (Hwin el) as (q & -> & Hq); auto.
      { eapply nth_error_In; eauto. }
      { intros e' He'. apply In_nth_error in He' as [i Hi].
        destruct (Nat.eq_dec i (length l')) as [->|].
        - rewrite Hlast in Hi. injection Hi as <-. lra.
        - assert (i < length (items (grid s)))%nat by (apply nth_error_Some; congruence).
          apply Qlt_le_weak. eapply (increasing_nth_lt _ i (length l')); eauto. lia. }
      apply (started_nth _ q _ el Hinc Hlast) in Hq. simpl in Hm, Ha.
      split.
      * intros i e He Hlt. simpl in *. apply (Ha i e He). simpl. lia.
      * apply (Ha (length l') el Hlast). simpl. auto.
Qed.

Lemma grid_run_forward ts : forall s p,
  Safe s -> gridEn s = true -> synced (grid s) p -> forward (items (grid s)) p ts ->
  Forall2 (fun t r => exists v, r = Ok v /\
     scheduled (vol_default (espec s), frq_default (espec s))
               (map vf (items (grid s))) t (Vgrid v, fgrid v)) ts (grid_run s ts).
Proof.
  induction ts as [|t ts IH]; simpl; intros s p HS En Hsy Hf; [constructor|].
  destruct Hf as (Hnb & Hamb & Hf).
  assert (Hd : items (grid s) = [] \/ items (grid s) <> [])
    by (destruct (items (grid s)); [left|right]; congruence).
  destruct Hd as [He|Hne].
  - rewrite grid_empty by auto. simpl. constructor.
    + exists (grid_default s). split; auto. right. rewrite He. simpl. split; [tauto|auto].
    + apply (IH s (Some t)); auto. intros Hn. congruence.
  - destruct (grid_step s p t HS En Hne Hsy Hnb Hamb)
      as (v & s' & Eq & HS' & Hcfg & Hsy' & Hvf & Hsch & _).
    rewrite Eq. simpl. constructor; [eauto|].
    destruct Hcfg as (Hsp & _ & _ & Hg & _).
    rewrite <- Hvf, <- Hsp. apply (IH s' (Some t)); auto; [congruence|].
    eapply forward_vf; [symmetry; apply Hvf|auto].
Qed.

Lemma grid_run_angle ts : forall s p,
  Safe s -> gridEn s = true -> synced (grid s) p -> forward (items (grid s)) p ts ->
  windowed (items (grid s)) p ts -> angles_ok s p ->
  Forall (fun r => exists v, r = Ok v /\ angle_follows_frequency s v) (grid_run s ts).
Proof.
  induction ts as [|t ts IH]; simpl; intros s p HS En Hsy Hf Hw Ha; [constructor|].
  destruct Hf as (Hnb & Hamb & Hf). destruct Hw as [Hw Hws].
  assert (Hd : items (grid s) = [] \/ items (grid s) <> [])
    by (destruct (items (grid s)); [left|right]; congruence).
  destruct Hd as [He|Hne].
  - rewrite grid_empty by auto. simpl. constructor.
    + exists (grid_default s). split; auto. unfold angle_follows_frequency. simpl. ring.
    + apply (IH s (Some t)); auto; [intros Hn; congruence|].
      intros i e Hi. rewrite He in Hi. destruct i; discriminate.
  - destruct (grid_step s p t HS En Hne Hsy Hnb Hamb)
      as (v & s' & Eq & HS' & Hcfg & Hsy' & Hvf & _ & Hang).
    destruct (Hang Ha Hw) as [Ha' Hv].
    rewrite Eq. simpl. constructor; [eauto|].
    destruct Hcfg as (Hsp & _ & _ & Hg & _).
    assert (IH' : Forall (fun r => exists v, r = Ok v /\ angle_follows_frequency s' v) (grid_run s' ts)).
    { apply (IH s' (Some t)); auto; [congruence| |].
      - eapply forward_vf; [symmetry; apply Hvf|auto].
      - eapply windowed_vf; [symmetry; apply Hvf|auto]. }
    revert IH'. apply Forall_impl. intros r (w & Hr & Hw').
    exists w. split; auto. unfold angle_follows_frequency in *. rewrite <- Hsp. auto.
Qed.

(** ** removal *)
Lemma remove_grid_ok s T :
  Inv s ->
  snd (remove_grid_event s T) = Ok tt /\
  (forall t, lookup (items (grid (fst (remove_grid_event s T)))) t =
             if qeq T t then None else lookup (items (grid s)) t) /\
  items (solar (fst (remove_grid_event s T))) = items (solar s) /\
  items (load (fst (remove_grid_event s T))) = items (load s).
Proof.
  intros HI. split; auto. split; auto. intros t. simpl.
  apply lookup_remove; [apply gridV_refl|apply (inv_sched s HI)].
Qed.
Lemma remove_load_ok s T :
  Inv s ->
  snd (remove_load_event s (Some T) false) = Ok tt /\
  (forall t, lookup (items (load (fst (remove_load_event s (Some T) false)))) t =
             if qeq T t then None else lookup (items (load s)) t) /\
  items (solar (fst (remove_load_event s (Some T) false))) = items (solar s) /\
  items (grid (fst (remove_load_event s (Some T) false))) = items (grid s).
Proof.
  intros HI. split; auto. split; auto. intros t. simpl.
  apply lookup_remove; [apply loadV_refl|apply (inv_sched s HI)].
Qed.

(** ** random events *)
Lemma random_insolation_ok s t r :
  ins_min (espec s) <= ins_max (espec s) -> 0 <= r <= 1 ->
  exists s', create_random_insolation s t r = (s', Ok tt).
Proof.
  intros Hm Hr. unfold create_random_insolation.
  destruct (add_solar_exact s t (ins_min (espec s) + r * (ins_max (espec s) - ins_min (espec s))) (29815#100))
    as [[_ H]|[Hbad _]]; auto.
  exfalso. apply Hbad. unfold solar_ok. simpl. split; [|split; reflexivity || (unfold Qle; simpl; lia)].
  split; nra.
Qed.
Lemma random_voltage_ok s t r :
  vol_min (espec s) <= vol_max (espec s) -> frq_min (espec s) <= 60 <= frq_max (espec s) -> 0 <= r <= 1 ->
  exists s', create_random_voltage s t r = (s', Ok tt).
Proof.
  intros Hm Hf Hr. unfold create_random_voltage.
  destruct (add_grid_exact s t (vol_min (espec s) + r * (vol_max (espec s) - vol_min (espec s))) 0 60)
    as [[_ H]|[Hbad _]]; auto.
  exfalso. apply Hbad. unfold grid_ok. simpl. split; [split; nra|auto].
Qed.

(** ** insolation ramps *)
Lemma ramp_loop_ok pts : forall s,
  Inv s -> Forall (fun p => ins_min (espec s) <= snd p <= ins_max (espec s)) pts ->
  exists s', ramp_loop s pts = (s', Ok tt) /\ Inv s' /\ same_config s s' /\
    items (grid s') = items (grid s) /\ items (load s') = items (load s) /\
    forall t, lookup (items (solar s')) t =
      fold_left (fun acc p => if qeq (fst p) t then Some (SolarV (snd p) (29815#100)) else acc)
                pts (lookup (items (solar s)) t).
Proof.
  induction pts as [|[T si] pts IH]; simpl; intros s HI Hr.
  - exists s. split; auto. split; auto. split; [apply same_config_refl|]. auto.
  - inversion Hr as [|? ? Hh Ht]; subst. simpl in Hh.
    destruct (add_solar_exact s T si (29815#100)) as [[_ [s1 E]]|[Hbad _]].
    2:{ exfalso. apply Hbad. unfold solar_ok. simpl. split; [auto|].
        split; unfold Qle; simpl; lia. }
    pose proof (add_solar_inv s T si (29815#100) HI) as HI1. rewrite E in HI1. simpl in HI1.
    destruct (add_solar_ok s T si (29815#100) s1 HI E) as (Hl & Hg & Hld & _ & _ & _ & Hcfg & _).
    rewrite E. destruct (IH s1 HI1) as (s' & E' & HI' & Hcfg' & Hg' & Hld' & Hl').
    { destruct Hcfg as (-> & _). auto. }
    exists s'. split; auto. split; auto. split; [eapply same_config_trans; eauto|].
    split; [congruence|]. split; [congruence|].
    intros t. rewrite Hl', Hl. reflexivity.
Qed.

Lemma arange_nth a b st l i :
  arange a b st = Ok l -> (i < length l)%nat ->
  nth_error l i = Some (a + inject_Z (Z.of_nat i) * st).
Proof.
  unfold arange. destruct (qeq st 0); [discriminate|]. intros [= <-].
  rewrite map_length, seq_length. intros Hi.
  erewrite map_nth_error; [reflexivity|].
  rewrite (nth_error_nth' _ O) by (rewrite seq_length; auto).
  rewrite seq_nth by auto. reflexivity.
Qed.

Lemma arange_length a b st l :
  0 < st -> arange a b st = Ok l ->
  forall i, (i < length l)%nat <-> a + inject_Z (Z.of_nat i) * st < b.
Proof.
  intros Hst. unfold arange. destruct (qeq st 0) eqn:E; [qb; lra|].
  match goal with |- Ok ?l0 = _ -> _ => remember l0 as ll eqn:Ell end. intros [= <-].
  intros i. rewrite Ell. rewrite map_length, seq_length.
  set (x := (b - a) / st).
  assert (Hx : b - a == x * st) by (unfold x; field; lra).
  remember (- Qfloor (- x))%Z as n eqn:En.
  assert (H1 : inject_Z (n - 1) < x).
  { pose proof (Qlt_floor (- x)) as H. rewrite En.
    assert (Hn : inject_Z (- Qfloor (- x) - 1) == - inject_Z (Qfloor (- x) + 1)).
    { rewrite <- inject_Z_opp. unfold Qeq; simpl. lia. }
    rewrite Hn. lra. }
  assert (H2 : x <= inject_Z n).
  { pose proof (Qfloor_le (- x)) as H. rewrite En. rewrite inject_Z_opp. lra. }
  split; intros H.
  - assert (Hz : (Z.of_nat i <= n - 1)%Z) by lia.
    rewrite Zle_Qle in Hz.
    assert (inject_Z (Z.of_nat i) * st < b - a) by (rewrite Hx; apply Qmult_lt_compat_r; lra). lra.
  - assert (Hz : inject_Z (Z.of_nat i) < inject_Z n).
    { apply Qlt_le_trans with x; auto.
      apply Qmult_lt_r with st; auto. lra. }
    rewrite <- Zlt_Qlt in Hz. lia.
Qed.

Lemma linspace_length a b n : length (linspace a b n) = n.
Proof. unfold linspace. rewrite map_length, seq_length. auto. Qed.
Lemma linspace_nth a b n i : (i < n)%nat ->
  nth_error (linspace a b n) i = Some
    (match n with S (S m) => a + inject_Z (Z.of_nat i) * ((b - a) / inject_Z (Z.of_nat (S m))) | _ => a end).
Proof.
  intros Hi. unfold linspace. erewrite map_nth_error; [reflexivity|].
  rewrite (nth_error_nth' _ O) by (rewrite seq_length; auto).
  rewrite seq_nth by auto. reflexivity.
Qed.

Lemma inject_pos n : (0 < n)%nat -> 0 < inject_Z (Z.of_nat n).
Proof. intros H. change 0 with (inject_Z 0). rewrite <- Zlt_Qlt. lia. Qed.

Lemma linspace_between a b n lo hi x :
  lo <= a <= hi -> lo <= b <= hi -> In x (linspace a b n) -> lo <= x <= hi.
Proof.
  intros Ha Hb Hx. apply In_nth_error in Hx as [i Hi].
  assert (Hlt : (i < n)%nat).
  { rewrite <- (linspace_length a b n). apply nth_error_Some. congruence. }
  rewrite (linspace_nth a b n i Hlt) in Hi.
  apply (f_equal (fun o => match o with Some y => y | None => 0 end)) in Hi.
  cbv beta iota in Hi. rewrite <- Hi. clear Hi.
  destruct n as [|[|m]]; auto.
  set (N := inject_Z (Z.of_nat (S m))). set (I := inject_Z (Z.of_nat i)).
  assert (HN : 0 < N) by (apply inject_pos; lia).
  assert (HI0 : 0 <= I) by (unfold I; change 0 with (inject_Z 0); rewrite <- Zle_Qle; lia).
  assert (HIN : I <= N) by (unfold I, N; rewrite <- Zle_Qle; lia).
  set (u := I / N).
  assert (Hu : I * ((b - a) / N) == u * (b - a)) by (unfold u; field; lra).
  assert (Hu0 : 0 <= u) by (unfold u; apply Qle_shift_div_l; lra).
  assert (Hu1 : u <= 1) by (unfold u; apply Qle_shift_div_r; lra).
  rewrite Hu. split; nra.
Qed.

Lemma fold_lookup_miss pts t v0 :
  (forall p, In p pts -> ~ fst p == t) ->
  fold_left (fun acc (p : Q * Q) => if qeq (fst p) t then Some (SolarV (snd p) (29815#100)) else acc)
            pts v0 = v0.
Proof.
  revert v0. induction pts as [|p pts IH]; simpl; intros v0 H; auto.
  assert (E : qeq (fst p) t = false) by (apply qeq_false; apply H; auto).
  rewrite E. apply IH. auto.
Qed.

Lemma fold_lookup_hit pts : forall t v0 i T si,
  nth_error pts i = Some (T, si) -> T == t ->
  (forall j p, (i < j)%nat -> nth_error pts j = Some p -> ~ fst p == t) ->
  fold_left (fun acc (p : Q * Q) => if qeq (fst p) t then Some (SolarV (snd p) (29815#100)) else acc)
            pts v0 = Some (SolarV si (29815#100)).
Proof.
  induction pts as [|p pts IH]; intros t v0 i T si Hi HT Hj; [destruct i; discriminate|].
  destruct i as [|i]; simpl in Hi.
  - injection Hi as ->. simpl. assert (E : qeq T t = true) by (apply qeq_iff; auto).
    rewrite E. apply fold_lookup_miss. intros q Hq. apply In_nth_error in Hq as [j Hq].
    apply (Hj (S j) q); simpl; auto. lia.
  - simpl. eapply (IH _ _ i); eauto. intros j q Hlt Hq. apply (Hj (S j) q); simpl; auto. lia.
Qed.

Lemma combine_nth {A B} (l : list A) (l' : list B) i a b :
  nth_error l i = Some a -> nth_error l' i = Some b -> nth_error (combine l l') i = Some (a, b).
Proof.
  revert l' i. induction l as [|x l IH]; intros l' i Ha Hb; destruct i; simpl in *; try discriminate.
  - injection Ha as ->. destruct l'; [discriminate|]. simpl in *. congruence.
  - destruct l'; [discriminate|]. simpl in *. auto.
Qed.
Lemma combine_nth_inv {A B} (l : list A) (l' : list B) i p :
  nth_error (combine l l') i = Some p -> nth_error l i = Some (fst p) /\ nth_error l' i = Some (snd p).
Proof.
  revert l' i. induction l as [|x l IH]; intros l' i H; [destruct i; discriminate|].
  destruct l' as [|y l']; [destruct i; discriminate|].
  destruct i; simpl in *; [injection H as <-; auto|auto].
Qed.

(** the schedule after a ramp *)
Lemma insolation_ramp_ok s a b g st S0 :
  Inv s -> 0 < st -> snd (solar_events s a) = Ok S0 ->
  ins_min (espec s) <= Sinsol S0 <= ins_max (espec s) ->
  ins_min (espec s) <= g <= ins_max (espec s) ->
  exists s' n, insolation_ramp s a b g st = (s', Ok tt) /\ Inv s' /\
    items (grid s') = items (grid s) /\ items (load s') = items (load s) /\
    (forall i, (i < n)%nat <-> a + inject_Z (Z.of_nat i) * st < b) /\
    (forall i, (i < n)%nat -> exists v,
        lookup (items (solar s')) (a + inject_Z (Z.of_nat i) * st) = Some v /\
        Tactual v = 29815#100 /\
        (n = 1%nat -> Sinsol v == Sinsol S0) /\
        ((2 <= n)%nat -> Sinsol v == Sinsol S0 +
           inject_Z (Z.of_nat i) / inject_Z (Z.of_nat (n - 1)) * (g - Sinsol S0))) /\
    (forall t, (forall i, (i < n)%nat -> ~ t == a + inject_Z (Z.of_nat i) * st) ->
        lookup (items (solar s')) t = lookup (items (solar s)) t).
Proof.
  intros HI Hst Hq HS0 Hg. unfold insolation_ramp.
  pose proof (solar_query_inv s a HI) as HI1.
  assert (Hsame : items (solar (fst (solar_events s a))) = items (solar s) /\
                  items (grid (fst (solar_events s a))) = items (grid s) /\
                  items (load (fst (solar_events s a))) = items (load s) /\
                  espec (fst (solar_events s a)) = espec s).
  { unfold solar_events. destruct (solarEn s); auto.
    pose proof (query_items (SolarV (ins_default (espec s)) Tactual_default) (solar s) a) as [Hi _].
    destruct (query_sched _ _ _) as [sc r]. simpl in *. auto. }
  destruct (solar_events s a) as [s1 r]. simpl in *. subst r.
  destruct Hsame as (Hs1 & Hs2 & Hs3 & Hs4).
  destruct (arange a b st) as [l|x] eqn:Ear.
  2:{ unfold arange in Ear. destruct (qeq st 0) eqn:E; [qb; lra|discriminate]. }
  pose proof (arange_length a b st l Hst Ear) as Hlen.
  pose proof (fun i => arange_nth a b st l i Ear) as Hnth.
  set (ys := linspace (Sinsol S0) g (length l)).
  destruct (ramp_loop_ok (combine l ys) s1 HI1) as (s' & E' & HI' & _ & Hg' & Hl' & Hlk).
  { apply Forall_forall. intros [T y] Hin. simpl. apply in_combine_r in Hin. rewrite Hs4.
    exact (linspace_between _ _ _ _ _ _ HS0 Hg Hin). }
  exists s', (length l). split; auto. split; auto. split; [congruence|]. split; [congruence|].
  split; auto. split.
  - intros i Hi. rewrite Hlk.
    pose proof (Hnth i Hi) as Hni.
    pose proof (linspace_nth (Sinsol S0) g (length l) i Hi) as Hyi. fold ys in Hyi.
    pose proof (combine_nth _ _ _ _ _ Hni Hyi) as Hci.
    erewrite (fold_lookup_hit _ _ _ i); [|exact Hci|reflexivity|].
    2:{ intros j p Hij Hp. apply combine_nth_inv in Hp as [Hp _].
        assert (Hj : (j < length l)%nat) by (apply nth_error_Some; congruence).
        rewrite (Hnth j Hj) in Hp.
        apply (f_equal (fun o => match o with Some y => y | None => 0 end)) in Hp.
        cbv beta iota in Hp. rewrite <- Hp.
        assert (Hz : inject_Z (Z.of_nat i) < inject_Z (Z.of_nat j)) by (rewrite <- Zlt_Qlt; lia).
        intros Heq. nra. }
    eexists. split; [reflexivity|]. split; [reflexivity|]. simpl Sinsol.
    destruct (length l) as [|[|m]] eqn:El; [lia| |].
    + split; [reflexivity|lia].
    + split; [lia|]. intros _. replace (S (S m) - 1)%nat with (S m) by lia.
      pose proof (inject_pos (S m) ltac:(lia)). set (N := inject_Z (Z.of_nat (S m))) in *.
      cbv iota. change (inject_Z (Z.pos (Pos.of_succ_nat m))) with N. field. lra.
  - intros t Hmiss. rewrite Hlk, <- Hs1. apply fold_lookup_miss.
    intros p Hp. apply In_nth_error in Hp as [i Hp]. apply combine_nth_inv in Hp as [Hp _].
    assert (Hi : (i < length l)%nat) by (apply nth_error_Some; congruence).
    rewrite (Hnth i Hi) in Hp.
    apply (f_equal (fun o => match o with Some y => y | None => 0 end)) in Hp.
    cbv beta iota in Hp.
    specialize (Hmiss i Hi). rewrite <- Hp. lra.
Qed.
