(** Runs of grid queries without angle override. *)
From Verif Require Import Base EventsModel EventsSpec TimedLemmas QueryLemmas EventsProofs EventsProofs2 AngleSpec.

Definition fan := with_step_frequency.
Definition prev_angle (s : events) (l1 : list (ev gridV)) : Q := Vangle (prev_grid s l1).

Lemma last_shift {A} (m : list A) : forall x d, last (x :: m) d = last m x.
Proof.
  induction m as [|y m IH]; intros x d; [reflexivity|].
  change (last (x :: y :: m) d) with (last (y :: m) d). rewrite !IH. reflexivity.
Qed.

Lemma fan_nth ad l1 : forall ec l2,
  nth_error (fan ad (l1 ++ ec :: l2)) (length l1) =
  Some (Ev (eT ec) (Vgrid (eV ec), Vangle (eV ec),
        step_frequency (last (map (fun e => Vangle (eV e)) l1) ad) (Vangle (eV ec)))).
Proof.
  revert ad. induction l1 as [|x l1 IH]; intros ad ec l2; [reflexivity|].
  simpl. fold fan. rewrite IH. rewrite <- (last_shift _ (Vangle (eV x)) ad). reflexivity.
Qed.

Lemma prev_angle_last s l1 :
  prev_angle s l1 = last (map (fun e => Vangle (eV e)) l1) (ang_default (espec s)).
Proof.
  unfold prev_angle. destruct (prev_grid_cases s l1) as [[-> ->]|(l & e & -> & ->)]; [reflexivity|].
  rewrite map_app. symmetry. apply last_last.
Qed.

Lemma fan_va ad l : forall l', map va l = map va l' -> fan ad l = fan ad l'.
Proof.
  revert ad. induction l as [|e l IH]; intros ad [|e' l'] H; simpl in *; try discriminate; auto.
  injection H as H1 H2 H3 H4. rewrite H1, H2, H3. f_equal. apply IH. auto.
Qed.
Lemma fan_times ad l : map eT (fan ad l) = map eT l.
Proof. revert ad. induction l as [|e l IH]; intros ad; simpl; auto. f_equal. apply IH. Qed.
Lemma va_times l : map eT (map va l) = map eT l.
Proof. rewrite map_map. reflexivity. Qed.

Lemma increasing_times {A B} (l : list (ev A)) : forall (l' : list (ev B)),
  map eT l = map eT l' -> increasing l -> increasing l'.
Proof.
  intros l' E H. revert l' E. induction H as [|x l Hs IH Hf]; intros [|y l'] E; simpl in E; try discriminate; constructor.
  - apply IH. congruence.
  - injection E as Exy El. rewrite Forall_forall in *. intros z Hz.
    apply (in_map eT) in Hz. rewrite <- El in Hz. apply in_map_iff in Hz as (w & Ew & Hw).
    rewrite <- Ew, <- Exy. auto.
Qed.

Lemma in_times {A B} (l : list (ev A)) (l' : list (ev B)) e :
  map eT l = map eT l' -> In e l -> exists e', In e' l' /\ eT e' = eT e.
Proof.
  intros E H. apply (in_map eT) in H. rewrite E in H. apply in_map_iff in H as (x & Ex & Hx). eauto.
Qed.
Lemma amob_times {A B} (l : list (ev A)) (l' : list (ev B)) p t :
  map eT l = map eT l' -> at_most_one_boundary l p t -> at_most_one_boundary l' p t.
Proof.
  intros E H e1 e2 H1 H2 A1 A2 T1 T2.
  destruct (in_times l' l e1 (eq_sym E) H1) as (x1 & I1 & X1).
  destruct (in_times l' l e2 (eq_sym E) H2) as (x2 & I2 & X2).
  rewrite <- X1, <- X2 in *. auto.
Qed.
Lemma forward_times {A B} ts : forall (l : list (ev A)) (l' : list (ev B)) p,
  map eT l = map eT l' -> forward l p ts -> forward l' p ts.
Proof.
  induction ts as [|t ts IH]; simpl; intros l l' p E H; auto.
  destruct H as (H1 & H2 & H3). split; auto. split; [eapply amob_times; eauto|eauto].
Qed.
Lemma windowed_times {A B} ts : forall (l : list (ev A)) (l' : list (ev B)) p,
  map eT l = map eT l' -> windowed l p ts -> windowed l' p ts.
Proof.
  induction ts as [|t ts IH]; simpl; intros l l' p E H; auto.
  destruct H as (H1 & H2). split; [|eauto].
  intros e He Hm Ht. destruct (in_times l' l e (eq_sym E) He) as (x & Ix & X).
  rewrite <- X in *. apply (H1 x); auto.
  intros y Hy. destruct (in_times l l' y E Hy) as (z & Iz & Z). rewrite <- Z. auto.
Qed.

Lemma grid_exact_off s t :
  Inv s -> in_range (grid s) -> override_angle s = false -> gridEn s = true ->
  items (grid s) <> [] -> steps_admissible s ->
  exists l1 ec l2 elast,
    items (grid s) = l1 ++ ec :: l2 /\ counter (grid s) = Z.of_nat (length l1) /\
    (exists l', items (grid s) = l' ++ [elast]) /\
    let f := step_frequency (prev_angle s l1) (Vangle (eV ec)) in
    let c' := Z.min (len (items (grid s)) - 1) (Z.of_nat (length l1) + 1) in
    ( (t < eT ec /\ grid_events s t = (s, Ok (prev_grid s l1)))
    \/ (eT ec <= t /\ t < eT elast + (3#1000) /\
        let v := GridV (Vgrid (eV ec)) (Vangle (eV ec)) f in
        exists s', grid_events s t = (s', Ok v) /\ same_config s s' /\
          items (grid s') = l1 ++ Ev (eT ec) v :: l2 /\ counter (grid s') = c')
    \/ (eT ec <= t /\ eT elast + (3#1000) <= t /\
        grid_events s t = (advance_grid s, Ok (eV ec)))).
Proof.
  intros HI [Hc0 Hc1] Hov Hen Hne Hadm. specialize (Hc1 Hne).
  destruct HI as [(I1 & I2 & I3 & R1 & R2 & R3) Hs Hg Hl Cs Cg Cl]. specialize (Hg Hne).
  set (c := Z.to_nat (counter (grid s))).
  assert (Hc : counter (grid s) = Z.of_nat c) by lia.
  assert (Hcl : (c < length (items (grid s)))%nat) by (unfold len in Hc1; lia).
  destruct (nth_error (items (grid s)) c) as [ec|] eqn:Ec; [|apply nth_error_None in Ec; lia].
  destruct (nth_error_split _ _ Ec) as (l1 & l2 & El & Hl1).
  destruct (last_split _ Hne) as (l' & elast & Elast).
  exists l1, ec, l2, elast. split; auto. split; [lia|]. split; [eauto|]. cbv zeta.
  remember (Z.min (len (items (grid s)) - 1) (Z.of_nat (length l1) + 1)) as c' eqn:Ec'.
  assert (Hfr : frq_min (espec s) <= step_frequency (prev_angle s l1) (Vangle (eV ec)) <= frq_max (espec s)).
  { pose proof (fan_nth (ang_default (espec s)) l1 ec l2) as Hf. rewrite <- El in Hf.
    apply nth_error_In in Hf. apply Hadm in Hf. cbn [eV snd] in Hf. rewrite prev_angle_last. exact Hf. }
  assert (Hold : old_grid s = Ok (prev_grid s l1)).
  { unfold old_grid, prev_grid. rewrite Hc. destruct (Z.of_nat c =? 0)%Z eqn:E0.
    - apply Z.eqb_eq in E0. destruct l1; [reflexivity|simpl in Hl1; lia].
    - apply Z.eqb_neq in E0.
      destruct (nth_error (items (grid s)) (c - 1)) as [ep|] eqn:Ep;
        [|apply nth_error_None in Ep; lia].
      replace (Z.of_nat c - 1)%Z with (Z.of_nat (c - 1)) by lia.
      rewrite (py_index_nat _ _ _ Ep). f_equal.
      rewrite El, nth_error_app1 in Ep by lia. rewrite <- Hl1 in Ep.
      symmetry. apply (last_map_nth eV); auto. destruct l1; simpl in *; [lia|congruence]. }
  unfold grid_events, grid_events_at. rewrite Hen. simpl negb. cbv iota.
  destruct (items (grid s)) as [|x0 lx] eqn:Eit; [congruence|].
  rewrite Hc, (py_index_nat _ _ _ Ec).
  destruct (qlt t (eT ec)) eqn:Et; qb.
  - left. split; auto. simpl. destruct (Z.of_nat c =? 0)%Z eqn:E0.
    + apply Z.eqb_eq in E0. destruct l1; [reflexivity|simpl in Hl1; lia].
    + apply Z.eqb_neq in E0.
      replace (1 <=? Z.of_nat c)%Z with true by (symmetry; apply Z.leb_le; lia). simpl.
      unfold old_grid in Hold. rewrite Hc in Hold.
      replace (Z.of_nat c =? 0)%Z with false in Hold by (symmetry; apply Z.eqb_neq; lia).
      rewrite Eit in Hold.
      destruct (py_index (x0 :: lx) (Z.of_nat c - 1)); [|discriminate].
      injection Hold as ->. reflexivity.
  - right. simpl. assert (E : qle (eT ec) t = true) by (apply qle_iff; auto). rewrite E.
    rewrite Elast, py_index_last. rewrite Hov. simpl.
    destruct (qlt t (eT elast + (3#1000))) eqn:Ew; qb.
    + left. split; auto. split; auto. rewrite Hold.
      assert (Hin : In ec (x0 :: lx)) by (eapply nth_error_In; eauto).
      specialize (R2 ec Hin).
      change (60 + (Vangle (eV ec) - Vangle (prev_grid s l1)) / (2 * math_pi * del_t_event))
        with (step_frequency (prev_angle s l1) (Vangle (eV ec))).
      set (f := step_frequency _ _) in *.
      destruct (add_grid_exact s (eT ec) (Vgrid (eV ec)) (Vangle (eV ec)) f) as [[_ [s' Ea]]|[Hbad _]].
      2:{ exfalso. apply Hbad. split; [apply R2|exact Hfr]. }
      rewrite Ea. exists (advance_grid s'). split; auto.
      unfold add_grid_event in Ea.
      destruct (_ || _)%bool; [discriminate|]. destruct (_ || _)%bool; [discriminate|].
      injection Ea as <-. simpl. repeat split; auto.
      * rewrite Eit, El. apply insert_existing; [apply gridV_refl|]. rewrite <- El. auto.
      * rewrite Ec', Eit, El, insert_existing; [|apply gridV_refl|rewrite <- El; auto].
        unfold len. rewrite !app_length. cbn [length]. lia.
    + right. split; auto.
Qed.

Definition freqs_ok (s : events) (p : option Q) : Prop :=
  forall i e, nth_error (items (grid s)) i = Some e ->
    (i < started_opt (items (grid s)) p)%nat ->
    nth_error (fan (ang_default (espec s)) (items (grid s))) i = Some (vaf e).

Lemma grid_step_off s p t :
  Inv s -> in_range (grid s) -> override_angle s = false -> gridEn s = true ->
  items (grid s) <> [] -> steps_admissible s ->
  synced (grid s) p -> not_before p t -> at_most_one_boundary (items (grid s)) p t ->
  exists v s', grid_events s t = (s', Ok v) /\ Inv s' /\ in_range (grid s') /\ same_config s s' /\
    synced (grid s') (Some t) /\ map va (items (grid s')) = map va (items (grid s)) /\
    scheduled (vol_default (espec s), ang_default (espec s))
              (map va (items (grid s))) t (Vgrid v, Vangle v) /\
    (freqs_ok s p -> last_seen_in_window (items (grid s)) p t ->
     freqs_ok s' (Some t) /\
     scheduled (vol_default (espec s), ang_default (espec s), frq_default (espec s))
       (fan (ang_default (espec s)) (items (grid s))) t (Vgrid v, Vangle v, fgrid v)).
Proof.
  intros HI Rg Ho En Hne Hadm Hsy Hnb Hamb.
  pose proof (grid_query_inv s t HI) as HI'.
  assert (Hinc : increasing (items (grid s))) by apply (inv_sched s HI).
  set (ad := ang_default (espec s)) in *. set (fl := fan ad (items (grid s))) in *.
  assert (Tv : map eT (items (grid s)) = map eT (map va (items (grid s)))) by (symmetry; apply va_times).
  assert (Tf : map eT (items (grid s)) = map eT fl) by (symmetry; apply fan_times).
  pose proof (increasing_times _ _ Tv Hinc) as Hincv.
  pose proof (increasing_times _ _ Tf Hinc) as Hincf.
  pose proof (started_times _ _ t Tv) as Stv.
  pose proof (started_times _ _ t Tf) as Stf.
  pose proof (started_mono (items (grid s)) p t Hinc Hnb) as Hm.
  pose proof (started_step (items (grid s)) p t Hinc Hamb) as Hs.
  pose proof (started_le_length (items (grid s)) t) as Hlen.
  specialize (Hsy Hne).
  pose proof (len_pos _ Hne) as Hpos.
  destruct (grid_exact_off s t HI Rg Ho En Hne Hadm)
    as (l1 & ec & l2 & el & Hit & Hc & (l' & Hel) & Hcase).
  cbv zeta in Hcase.
  assert (Hec : nth_error (items (grid s)) (length l1) = Some ec)
    by (rewrite Hit, nth_error_app2, Nat.sub_diag by lia; reflexivity).
  assert (Hlen1 : (length l1 < length (items (grid s)))%nat)
    by (apply nth_error_Some; congruence).
  unfold len in *.
  assert (Hkp : (length l1 <= started_opt (items (grid s)) p)%nat) by lia.
  destruct Hcase as [[Ht Eq]|[(Ht & Hw & s' & Eq & Hcfg & Hi & Hc')|(Ht & Hw & Eq)]];
    rewrite Eq in HI'; simpl in HI'.
  - assert (Hk : (started (items (grid s)) t <= length l1)%nat).
    { destruct (le_lt_dec (started (items (grid s)) t) (length l1)); auto.
      apply (started_nth _ t _ ec Hinc Hec) in l. lra. }
    exists (prev_grid s l1), s. split; auto. split; auto. split; auto. split; [apply same_config_refl|].
    split; [intros _; unfold len; simpl; lia|]. split; auto. split.
    + apply scheduled_started; auto. rewrite <- Stv.
      destruct (prev_grid_cases s l1) as [[-> ->]|(l0 & e0 & -> & ->)].
      * left. simpl in *. split; [lia|reflexivity].
      * right. exists (length l0), (va e0). rewrite app_length in *. simpl in *.
        split; [lia|]. split; [|reflexivity].
        apply map_nth_error. rewrite Hit, <- app_assoc, nth_error_app2, Nat.sub_diag by lia. reflexivity.
    + intros Ha _. split.
      { intros i e He Hlt. simpl in Hlt. apply (Ha i e He). lia. }
      apply scheduled_started; auto. rewrite <- Stf.
      destruct (prev_grid_cases s l1) as [[-> ->]|(l0 & e0 & -> & ->)].
      * left. simpl in *. split; [lia|reflexivity].
      * right. exists (length l0), (vaf e0). rewrite app_length in *. simpl in *.
        split; [lia|]. split; [|reflexivity].
        apply Ha; [|lia]. rewrite Hit, <- app_assoc, nth_error_app2, Nat.sub_diag by lia. reflexivity.
  - match type of Eq with _ = (_, Ok ?w) => set (v := w) in * end.
    assert (Hk : (length l1 < started (items (grid s)) t)%nat)
      by (apply (started_nth _ t _ ec Hinc Hec); auto).
    assert (Hva : map va (items (grid s')) = map va (items (grid s))).
    { rewrite Hi, Hit, !map_app. reflexivity. }
    assert (Tt : map eT (items (grid s')) = map eT (items (grid s))).
    { rewrite <- (va_times (items (grid s'))), Hva. apply va_times. }
    pose proof (started_times _ _ t Tt) as Hst.
    assert (Hln : length (items (grid s')) = length (items (grid s))).
    { rewrite Hi, Hit, !app_length. reflexivity. }
    assert (Hvf : nth_error fl (length l1) = Some (vaf (Ev (eT ec) v))).
    { unfold fl. rewrite Hit, fan_nth. unfold vaf, v. cbn [eT eV Vgrid Vangle fgrid].
      rewrite prev_angle_last. reflexivity. }
    exists v, s'. split; auto. split; auto.
    split. { destruct Rg as [Rg0 Rg1]. split; [rewrite Hc'; lia|]. intros _. rewrite Hc'. unfold len. rewrite Hln. lia. }
    split; auto.
    split. { intros _. simpl. rewrite Hc', Hst. unfold len. rewrite Hln. lia. }
    split; auto. split.
    + apply scheduled_started; auto. rewrite <- Stv.
      right. exists (length l1), (va ec). split; [lia|]. split; [|reflexivity].
      apply map_nth_error. auto.
    + intros Ha Hwin. split.
      2:{ apply scheduled_started; auto. rewrite <- Stf.
          right. exists (length l1), (vaf (Ev (eT ec) v)). split; [lia|]. split; [exact Hvf|reflexivity]. }
      intros i e He Hlt. simpl in Hlt. rewrite Hst in Hlt.
      assert (Hespec : espec s' = espec s) by apply Hcfg. rewrite Hespec. fold ad.
      rewrite (fan_va ad _ _ Hva). fold fl.
      rewrite Hi in He. destruct (lt_eq_lt_dec i (length l1)) as [[Hi1|Hi1]|Hi1].
      * rewrite nth_error_app1 in He by lia.
        apply (Ha i e); [rewrite Hit; apply nth_error_prefix; auto|lia].
      * subst i. rewrite nth_error_app2, Nat.sub_diag in He by lia. injection He as <-. exact Hvf.
      * exfalso. assert (i < length (items (grid s)))%nat.
        { rewrite <- Hln, Hi. apply nth_error_Some. congruence. }
        lia.
  - assert (Hlast : nth_error (items (grid s)) (length l') = Some el)
      by (rewrite Hel, nth_error_app2, Nat.sub_diag by lia; reflexivity).
    assert (Hll : length (items (grid s)) = S (length l'))
      by (rewrite Hel, app_length; simpl; lia).
    assert (Hk : (length l' < started (items (grid s)) t)%nat).
    { apply (started_nth _ t _ el Hinc Hlast). lra. }
    assert (Hl1 : length l1 = length l') by lia.
    rewrite Hl1, Hlast in Hec. injection Hec as <-.
    exists (eV el), (advance_grid s). split; auto. split; auto.
    split. { split; simpl; rewrite (inv_tg s HI Hne), Hc; unfold len; intros; lia. }
    split; [repeat split|].
    split. { intros _. simpl. rewrite (inv_tg s HI Hne), Hc. unfold len. lia. }
    split; auto. split.
    + apply scheduled_started; auto. rewrite <- Stv.
      right. exists (length l'), (va el). split; [lia|]. split; [|reflexivity].
      apply map_nth_error. auto.
    + intros Ha Hwin.
      destruct (Hwin el) as (q & -> & Hq); auto.
      { eapply nth_error_In; eauto. }
      { intros e' He'. apply In_nth_error in He' as [i Hi].
        destruct (Nat.eq_dec i (length l')) as [->|].
        - rewrite Hlast in Hi. injection Hi as <-. lra.
        - assert (i < length (items (grid s)))%nat by (apply nth_error_Some; congruence).
          apply Qlt_le_weak. eapply (increasing_nth_lt _ i (length l')); eauto. lia. }
      apply (started_nth _ q _ el Hinc Hlast) in Hq. simpl in Hm, Ha.
      split.
      * intros i e He Hlt. simpl in *. apply (Ha i e He). simpl. lia.
      * apply scheduled_started; auto. rewrite <- Stf.
        right. exists (length l'), (vaf el). split; [lia|]. split; [|reflexivity].
        apply (Ha (length l') el Hlast). simpl. auto.
Qed.

Lemma adm_step s s' : same_config s s' -> map va (items (grid s')) = map va (items (grid s)) ->
  steps_admissible s -> steps_admissible s'.
Proof.
  intros Hcfg Hva H. destruct Hcfg as (Hsp & _). unfold steps_admissible.
  rewrite Hsp. change with_step_frequency with fan. rewrite (fan_va _ _ _ Hva). exact H.
Qed.

Lemma grid_run_off ts : forall s p,
  Inv s -> in_range (grid s) -> override_angle s = false -> gridEn s = true -> steps_admissible s ->
  synced (grid s) p -> forward (items (grid s)) p ts ->
  Forall2 (fun t r => exists v, r = Ok v /\
     scheduled (vol_default (espec s), ang_default (espec s))
               (map va (items (grid s))) t (Vgrid v, Vangle v)) ts (grid_run s ts).
Proof.
  induction ts as [|t ts IH]; simpl; intros s p HI Rg Ho En Hadm Hsy Hf; [constructor|].
  destruct Hf as (Hnb & Hamb & Hf).
  assert (Hd : items (grid s) = [] \/ items (grid s) <> [])
    by (destruct (items (grid s)); [left|right]; congruence).
  destruct Hd as [He|Hne].
  - rewrite grid_empty by auto. simpl. constructor.
    + exists (grid_default s). split; auto. right. rewrite He. simpl. split; [tauto|auto].
    + apply (IH s (Some t)); auto. intros Hn. congruence.
  - destruct (grid_step_off s p t HI Rg Ho En Hne Hadm Hsy Hnb Hamb)
      as (v & s' & Eq & HI' & Rg' & Hcfg & Hsy' & Hva & Hsch & _).
    rewrite Eq. simpl. constructor; [eauto|].
    pose proof (adm_step s s' Hcfg Hva Hadm) as Hadm'.
    destruct Hcfg as (Hsp & Hov & _ & Hg & _).
    rewrite <- Hva, <- Hsp. apply (IH s' (Some t)); auto; [congruence|congruence|].
    eapply forward_times; [|exact Hf]. rewrite <- (va_times (items (grid s'))), Hva. symmetry. apply va_times.
Qed.

Lemma grid_run_off_freq ts : forall s p,
  Inv s -> in_range (grid s) -> override_angle s = false -> gridEn s = true -> steps_admissible s ->
  synced (grid s) p -> forward (items (grid s)) p ts ->
  windowed (items (grid s)) p ts -> freqs_ok s p ->
  Forall2 (fun t r => exists v, r = Ok v /\
     scheduled (vol_default (espec s), ang_default (espec s), frq_default (espec s))
       (fan (ang_default (espec s)) (items (grid s))) t (Vgrid v, Vangle v, fgrid v)) ts (grid_run s ts).
Proof.
  induction ts as [|t ts IH]; simpl; intros s p HI Rg Ho En Hadm Hsy Hf Hw Ha; [constructor|].
  destruct Hf as (Hnb & Hamb & Hf). destruct Hw as [Hw Hws].
  assert (Hd : items (grid s) = [] \/ items (grid s) <> [])
    by (destruct (items (grid s)); [left|right]; congruence).
  destruct Hd as [He|Hne].
  - rewrite grid_empty by auto. simpl. constructor.
    + exists (grid_default s). split; auto. right. rewrite He. simpl. split; [tauto|auto].
    + apply (IH s (Some t)); auto; [intros Hn; congruence|].
      intros i e Hi. rewrite He in Hi. destruct i; discriminate.
  - destruct (grid_step_off s p t HI Rg Ho En Hne Hadm Hsy Hnb Hamb)
      as (v & s' & Eq & HI' & Rg' & Hcfg & Hsy' & Hva & _ & Hfr).
    destruct (Hfr Ha Hw) as [Ha' Hv].
    rewrite Eq. simpl. constructor; [eauto|].
    pose proof (adm_step s s' Hcfg Hva Hadm) as Hadm'.
    destruct Hcfg as (Hsp & Hov & _ & Hg & _).
    assert (Tt : map eT (items (grid s)) = map eT (items (grid s'))).
    { rewrite <- (va_times (items (grid s'))), Hva. symmetry. apply va_times. }
    rewrite <- (fan_va _ _ _ Hva), <- Hsp. apply (IH s' (Some t)); auto; try congruence.
    + eapply forward_times; eauto.
    + eapply windowed_times; eauto.
Qed.

(** a query never changes times, voltages or angles of the schedule *)
Lemma grid_query_keeps s t :
  Inv s -> override_angle s = false ->
  map va (items (grid (fst (grid_events s t)))) = map va (items (grid s)) /\
  espec (fst (grid_events s t)) = espec s /\ override_angle (fst (grid_events s t)) = false.
Proof.
  intros HI Ho. unfold grid_events, grid_events_at. destruct (gridEn s); [|cbn [fst]; auto].
  simpl negb. cbv iota. destruct (items (grid s)) as [|x l] eqn:E; [cbn [fst]; rewrite E; auto|].
  rewrite <- E. rewrite Ho.
  destruct (py_index (items (grid s)) (counter (grid s))) as [ec|] eqn:Ec; [|cbn [fst]; auto].
  destruct (_ && _)%bool; [cbn [fst]; auto|]. destruct (_ && _)%bool.
  { destruct (py_index (items (grid s)) (counter (grid s) - 1)); cbn [fst]; auto. }
  destruct (qle _ _); [|cbn [fst]; auto].
  destruct (py_index _ (-1)); [|cbn [fst]; auto].
  cbn [andb negb]. destruct (qlt t _); [|cbn [fst]; auto].
  destruct (old_grid s) as [old|]; [|cbn [fst]; auto].
  unfold add_grid_event. destruct (_ || _)%bool; [cbn [fst]; auto|]. destruct (_ || _)%bool; [cbn [fst]; auto|].
  cbn [fst]. cbn. split; [|auto].
  assert (Hin : exists l1 l2, items (grid s) = l1 ++ ec :: l2).
  { apply in_split. unfold py_index in Ec.
    destruct (_ && _)%bool; [|discriminate].
    destruct (nth_error _ _) eqn:En; [|discriminate]. injection Ec as <-. eapply nth_error_In; eauto. }
  destruct Hin as (l1 & l2 & Hit). rewrite Hit.
  rewrite insert_existing; [|apply gridV_refl|rewrite <- Hit; apply (inv_sched s HI)].
  rewrite !map_app. reflexivity.
Qed.
