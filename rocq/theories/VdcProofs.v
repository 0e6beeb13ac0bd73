(** Lemmas about the DC-link reference schedule. *)
From Verif Require Import Base EventsModel EventsSpec TimedLemmas QueryLemmas EventsProofs2 VdcModel.

Lemma qeq_refl a : qeq a a = true.
Proof. apply qeq_iff. reflexivity. Qed.

(** ** numpy.arange with a step of either sign *)
Lemma arange_gen a b st l :
  ~ st == 0 -> arange a b st = Ok l ->
  forall i, (i < length l)%nat <-> inject_Z (Z.of_nat i) < (b - a) / st.
Proof.
  intros Hst. unfold arange. destruct (qeq st 0) eqn:E; [qb; contradiction|].
  match goal with |- Ok ?l0 = _ -> _ => remember l0 as ll eqn:Ell end. intros [= <-].
  intros i. rewrite Ell. rewrite map_length, seq_length.
  set (x := (b - a) / st).
  remember (- Qfloor (- x))%Z as n eqn:En.
  assert (H1 : inject_Z (n - 1) < x).
  { pose proof (Qlt_floor (- x)) as H. rewrite En.
    assert (Hn : inject_Z (- Qfloor (- x) - 1) == - inject_Z (Qfloor (- x) + 1)).
    { rewrite <- inject_Z_opp. unfold Qeq; simpl. lia. }
    rewrite Hn. lra. }
  assert (H2 : x <= inject_Z n).
  { pose proof (Qfloor_le (- x)) as H. rewrite En. rewrite inject_Z_opp. lra. }
  split; intros H.
  - assert (Hz : (Z.of_nat i <= n - 1)%Z) by lia.
    rewrite Zle_Qle in Hz. lra.
  - assert (Hz : inject_Z (Z.of_nat i) < inject_Z n) by lra.
    rewrite <- Zlt_Qlt in Hz. lia.
Qed.

(** ** invariant *)
Definition vinv (v : vdc) : Prop :=
  increasing (items (refs v)) /\ total (refs v) = len (items (refs v)) /\ in_range (refs v) /\
  (items (refs v) = [] -> counter (refs v) = 0%Z) /\
  (forall e, In e (items (refs v)) -> exists x, vmin v <= x <= vmax v /\ eV e = x / vbase v) /\
  (vdel v == 2 \/ vdel v == -(2)) /\ vdelt v = (1#2).

Definition same_limits (v v' : vdc) : Prop :=
  vmin v' = vmin v /\ vmax v' = vmax v /\ vbase v' = vbase v /\ vdelt v' = vdelt v.
Lemma same_limits_trans a b c : same_limits a b -> same_limits b c -> same_limits a c.
Proof. unfold same_limits. intuition congruence. Qed.

Lemma init_vinv cur lo hi base : vinv (init_vdc cur lo hi base).
Proof.
  unfold vinv, in_range; simpl. split; [constructor|]. split; [reflexivity|].
  split; [split; [lia|congruence]|]. split; [auto|]. split; [intros e []|]. split; [left; reflexivity|reflexivity].
Qed.

Lemma vinv_wf v : vinv v -> wf (refs v).
Proof. intros (H1 & H2 & _). split; auto. Qed.

Lemma add_ok v t x :
  vinv v -> vmin v <= x <= vmax v ->
  exists v', add_Vdc_ref v t x = (v', Ok tt) /\ vinv v' /\ same_limits v v' /\
    vcur v' = vcur v /\ vdel v' = vdel v /\
    (forall u, lookup (items (refs v')) u =
               if qeq t u then Some (x / vbase v) else lookup (items (refs v)) u).
Proof.
  intros (Hi & Ht & Hr & Hz & Hv & Hd & Hdt) Hx. unfold add_Vdc_ref.
  destruct (qlt x (vmin v)) eqn:E1; [qb; lra|]. destruct (qlt (vmax v) x) eqn:E2; [qb; lra|].
  cbn [orb]. eexists. split; [reflexivity|].
  pose proof (insert_event_increasing qeq qeq_refl t (x / vbase v) (items (refs v)) Hi) as Hi'.
  pose proof (insert_length qeq qeq_refl t (x / vbase v) (items (refs v)) Hi) as Hl.
  pose proof (insert_length_pos qeq qeq_refl t (x / vbase v) (items (refs v)) Hi) as Hp.
  split; [|split; [unfold same_limits; simpl; auto|]; split; [reflexivity|]; split; [reflexivity|]].
  - unfold vinv; cbn [refs items total counter set_refs vmin vmax vbase vdel vdelt].
    split; [exact Hi'|]. split; [reflexivity|]. split.
    + destruct Hr as [Hr1 Hr2]. split; cbn [counter items]; auto. intros _.
      unfold len in *. destruct (items (refs v)) as [|a l] eqn:El.
      * rewrite Hz by auto. destruct (insert_event qeq t (x / vbase v) []) as [|? ?]; [congruence|simpl; lia].
      * assert (Hne : a :: l <> []) by congruence. specialize (Hr2 Hne). lia.
    + split; [intros Hc; congruence|]. split; [|auto].
      intros e He. apply insert_event_In in He; auto using qeq_refl.
      destruct He as [->|[He _]]; [exists x; auto|auto].
  - intros u. simpl. apply lookup_insert; auto using qeq_refl.
Qed.

Lemma add_reject v t x :
  ~ (vmin v <= x <= vmax v) -> add_Vdc_ref v t x = (v, Raise ValueError).
Proof.
  intros H. unfold add_Vdc_ref. destruct (qlt x (vmin v)) eqn:E1; [reflexivity|].
  destruct (qlt (vmax v) x) eqn:E2; [reflexivity|]. qb. exfalso. apply H. split; auto.
Qed.

Lemma add_vinv v t x : vinv v ->
  vinv (fst (add_Vdc_ref v t x)) /\ same_limits v (fst (add_Vdc_ref v t x)).
Proof.
  intros H. destruct (qle (vmin v) x && qle x (vmax v))%bool eqn:E.
  - apply andb_true_iff in E as [Ea Eb]. qb.
    destruct (add_ok v t x H) as (v' & -> & Hv' & Hs' & _); auto.
  - rewrite add_reject; [simpl; split; [auto|unfold same_limits; auto]|].
    intros [H1 H2]. apply qle_iff in H1, H2. rewrite H1, H2 in E. discriminate.
Qed.

Lemma get_vinv v t : vinv v ->
  exists x, snd (get_Vdc_ref v t) = Ok x /\ vinv (fst (get_Vdc_ref v t)) /\
    same_limits v (fst (get_Vdc_ref v t)) /\
    items (refs (fst (get_Vdc_ref v t))) = items (refs v) /\
    vcur (fst (get_Vdc_ref v t)) = vcur v /\ vdel (fst (get_Vdc_ref v t)) = vdel v.
Proof.
  intros H. pose proof H as (Hi & Ht & Hr & Hz & Hv & Hd).
  unfold get_Vdc_ref. pose proof (query_safe (vcur v) (refs v) t (vinv_wf v H) Hr) as Hs.
  assert (Hz' : items (refs v) = [] -> counter (fst (query_sched (vcur v) (refs v) t)) = 0%Z).
  { intros E. rewrite query_empty by auto. simpl. auto. }
  destruct (query_sched (vcur v) (refs v) t) as [sc r]. destruct Hs as (Hok & Hit & Hto & Hir).
  destruct r as [x|]; [|discriminate]. exists x. simpl.
  split; [reflexivity|]. split; [|split; [unfold same_limits; simpl; auto|auto]].
  unfold vinv. simpl. rewrite Hit, Hto. split; [auto|]. split; [auto|]. split; [auto|].
  split; [auto|]. auto.
Qed.

Lemma add_loop_r_vinv pts : forall v, vinv v ->
  vinv (fst (add_loop_r v pts)) /\ same_limits v (fst (add_loop_r v pts)).
Proof.
  induction pts as [|[[t|e] x] pts IH]; simpl; intros v H; try solve [split; [assumption|unfold same_limits; tauto]].
  pose proof (add_vinv v t x H) as [H1 H2].
  destruct (add_Vdc_ref v t x) as [v1 [[]|e]]; simpl in *; [|auto].
  destruct (IH v1 H1) as [H3 H4]. split; auto. eapply same_limits_trans; eauto.
Qed.

Lemma set_vdel_vinv v : vinv v -> vinv (set_vdel v (- vdel v)).
Proof.
  intros (Hi & Ht & Hr & Hz & Hv & Hd & Hdt). unfold vinv; simpl.
  split; [auto|]. split; [auto|]. split; [auto|]. split; [auto|]. split; [auto|].
  split; [|auto]. destruct Hd as [Hd|Hd]; [right|left]; rewrite Hd; reflexivity.
Qed.

Lemma ramp_vinv v t x : vinv v ->
  vinv (fst (Vdc_ref_ramp v t x)) /\ same_limits v (fst (Vdc_ref_ramp v t x)).
Proof.
  intros H. unfold Vdc_ref_ramp. destruct (get_vinv v t H) as (y & Hy & H1 & H2 & _).
  destruct (get_Vdc_ref v t) as [v1 r]. simpl in *. subst r.
  destruct (qle _ _).
  - destruct (add_vinv v1 t x H1) as [H3 H4]. split; auto. eapply same_limits_trans; eauto.
  - set (v2 := if qlt x (y * vbase v1) then set_vdel v1 (- vdel v1) else v1).
    assert (Hv2 : vinv v2) by (unfold v2; destruct (qlt _ _); auto using set_vdel_vinv).
    assert (Hs2 : same_limits v v2).
    { unfold v2; destruct (qlt _ _); auto. }
    destruct (bindR _ _) as [xs|e]; [|simpl; auto].
    destruct (arange t _ _) as [tr|e]; [|simpl; auto].
    destruct (add_loop_r_vinv (with_times 0 tr xs) v2 Hv2) as [H5 H6].
    split; auto. eapply same_limits_trans; eauto.
Qed.

Lemma update_ok v t : vinv v ->
  snd (update_Vdc_ref v t) = Ok tt /\ vinv (fst (update_Vdc_ref v t)) /\
  same_limits v (fst (update_Vdc_ref v t)) /\
  items (refs (fst (update_Vdc_ref v t))) = items (refs v) /\
  snd (get_Vdc_ref v t) = Ok (vcur (fst (update_Vdc_ref v t))).
Proof.
  intros H. destruct (get_vinv v t H) as (x & Hx & H1 & H2 & H3 & _).
  unfold update_Vdc_ref. destruct (get_Vdc_ref v t) as [v1 r]. simpl in *. subst r. simpl.
  repeat split; try apply H1; try apply H2; auto.
Qed.

Lemma vstep_vinv v o : vinv v -> vinv (fst (vstep v o)) /\ same_limits v (fst (vstep v o)).
Proof.
  intros H. destruct o as [t x|t|t x| |x]; simpl.
  - apply add_vinv; auto.
  - destruct (update_ok v t H) as (_ & H1 & H2 & _). auto.
  - apply ramp_vinv; auto.
  - destruct H as (Hi & Ht & Hr & Hz & Hv & Hd). split; [|unfold same_limits; simpl; auto].
    unfold vinv; simpl. split; [auto|]. split; [auto|]. split; [|auto].
    split; simpl; [lia|]. unfold len. destruct (items (refs v)); [congruence|simpl; lia].
  - split; [exact H|unfold same_limits; simpl; auto].
Qed.

Lemma vrun_vinv os : forall v, vinv v -> vinv (fst (vrun v os)) /\ same_limits v (fst (vrun v os)).
Proof.
  induction os as [|o os IH]; simpl; intros v H; [split; [auto|unfold same_limits; auto]|].
  pose proof (vstep_vinv v o H) as [H1 H2].
  destruct (vstep v o) as [v1 r]. simpl in *. specialize (IH v1 H1).
  destruct (vrun v1 os) as [v2 rs]. simpl in *. destruct IH.
  split; auto. eapply same_limits_trans; eauto.
Qed.

(** ** forward runs *)
Fixpoint vcur_run (v : vdc) (ts : list Q) : list Q :=
  match ts with [] => [] | t :: ts' => let v1 := fst (update_Vdc_ref v t) in vcur v1 :: vcur_run v1 ts' end.

Lemma scheduled_default_irrel {A} (d d' : A) l t v :
  scheduled d l t v -> (exists e, In e l /\ eT e <= t) -> scheduled d' l t v.
Proof.
  intros [H|[H _]] (e & He & Ht); [left; auto|]. specialize (H e He). lra.
Qed.

Lemma vdc_forward ts : forall v p d,
  vinv v -> synced (refs v) p ->
  ((exists q, p = Some q /\ exists e, In e (items (refs v)) /\ eT e <= q) \/ vcur v = d) ->
  forward (items (refs v)) p ts ->
  Forall2 (fun t x => scheduled d (items (refs v)) t x) ts (vcur_run v ts).
Proof.
  induction ts as [|t ts IH]; simpl; intros v p d Hv Hs Hd Hf; [constructor|].
  destruct Hf as (Hnb & Hamb & Hf).
  destruct (query_forward (vcur v) (refs v) p t (vinv_wf v Hv) Hs Hnb Hamb) as (x & Hx & Hsch & Hs' & _).
  destruct (update_ok v t Hv) as (_ & Hv1 & _ & Hit & Hcur).
  assert (Hxc : vcur (fst (update_Vdc_ref v t)) = x).
  { unfold get_Vdc_ref in Hcur. destruct (query_sched (vcur v) (refs v) t) as [sc r].
    simpl in *. congruence. }
  assert (Hrefs : refs (fst (update_Vdc_ref v t)) = fst (query_sched (vcur v) (refs v) t)).
  { unfold update_Vdc_ref, get_Vdc_ref. destruct (query_sched (vcur v) (refs v) t) as [sc r].
    simpl in *. rewrite Hx. reflexivity. }
  assert (Hsd : scheduled d (items (refs v)) t x).
  { destruct Hd as [(q & -> & e & He & Hq)|<-]; auto.
    eapply scheduled_default_irrel; eauto. exists e. simpl in Hnb. split; auto. lra. }
  constructor; [rewrite Hxc; auto|].
  rewrite <- Hit. apply (IH _ (Some t)); auto.
  - rewrite Hrefs. auto.
  - rewrite Hxc, Hit. destruct Hsd as [(e & He & Ht & _)|[_ ->]]; [left|right; reflexivity].
    exists t. split; auto. exists e. auto.
  - rewrite Hit. auto.
Qed.

(** ** ramps *)
Lemma fold_miss {A} (f : Q -> A) pts t v0 :
  (forall p, In p pts -> ~ fst p == t) ->
  fold_left (fun acc (p : Q * Q) => if qeq (fst p) t then Some (f (snd p)) else acc) pts v0 = v0.
Proof.
  revert v0. induction pts as [|p pts IH]; simpl; intros v0 H; auto.
  assert (E : qeq (fst p) t = false) by (apply qeq_false; apply H; auto).
  rewrite E. apply IH. auto.
Qed.

Lemma fold_hit {A} (f : Q -> A) pts : forall t v0 i T x,
  nth_error pts i = Some (T, x) -> T == t ->
  (forall j p, (i < j)%nat -> nth_error pts j = Some p -> ~ fst p == t) ->
  fold_left (fun acc (p : Q * Q) => if qeq (fst p) t then Some (f (snd p)) else acc) pts v0 = Some (f x).
Proof.
  induction pts as [|p pts IH]; intros t v0 i T si Hi HT Hj; [destruct i; discriminate|].
  destruct i as [|i]; simpl in Hi.
  - injection Hi as ->. simpl. assert (E : qeq T t = true) by (apply qeq_iff; auto).
    rewrite E. apply fold_miss. intros q Hq. apply In_nth_error in Hq as [j Hq].
    apply (Hj (S j) q); simpl; auto. lia.
  - simpl. eapply (IH _ _ i); eauto. intros j q Hlt Hq. apply (Hj (S j) q); simpl; auto. lia.
Qed.

Lemma add_loop_ok pts : forall v, vinv v ->
  Forall (fun p => vmin v <= snd p <= vmax v) pts ->
  exists v', add_loop_r v (map (fun p => (Ok (fst p), snd p)) pts) = (v', Ok tt) /\ vinv v' /\
    same_limits v v' /\ vcur v' = vcur v /\ vdel v' = vdel v /\
    forall u, lookup (items (refs v')) u =
      fold_left (fun acc (p : Q * Q) => if qeq (fst p) u then Some (snd p / vbase v) else acc)
                pts (lookup (items (refs v)) u).
Proof.
  induction pts as [|[t x] pts IH]; simpl; intros v Hv HF.
  - exists v. split; auto. split; auto. split; [unfold same_limits; auto|]. auto.
  - inversion HF as [|? ? Hx HF']; subst. simpl in Hx.
    destruct (add_ok v t x Hv Hx) as (v1 & E & Hv1 & Hs1 & Hc1 & Hd1 & Hl1). rewrite E.
    destruct (IH v1 Hv1) as (v' & E' & Hv' & Hs' & Hc' & Hd' & Hl').
    { destruct Hs1 as (-> & -> & _). auto. }
    exists v'. split; auto. split; auto. split; [eapply same_limits_trans; eauto|].
    split; [congruence|]. split; [congruence|].
    intros u. rewrite Hl', Hl1. destruct Hs1 as (_ & _ & -> & _). reflexivity.
Qed.

Lemma with_times_ok tr xs : forall i,
  (forall k, (k < length xs)%nat -> exists t, nth_error tr (i + k) = Some t) ->
  exists ts, length ts = length xs /\
    with_times i tr xs = map (fun p => (Ok (fst p), snd p)) (combine ts xs) /\
    forall k, (k < length xs)%nat -> nth_error ts k = nth_error tr (i + k).
Proof.
  induction xs as [|x xs IH]; simpl; intros i H.
  - exists []. simpl. split; auto. split; auto. lia.
  - destruct (IH (S i)) as (ts & Hl & E & Hn).
    { intros k Hk. replace (S i + k)%nat with (i + S k)%nat by lia. apply H. lia. }
    destruct (H O ltac:(lia)) as [t Ht]. rewrite Nat.add_0_r in Ht.
    exists (t :: ts). simpl. split; [auto|]. split.
    + rewrite E, (py_index_nat _ _ _ Ht). reflexivity.
    + intros [|k] Hk; simpl; [rewrite Nat.add_0_r; auto|].
      rewrite Hn by lia. f_equal. lia.
Qed.

Lemma set_last_ok l x : l <> [] -> exists l', set_last l x = Ok l' /\ length l' = length l /\
  nth_error l' (length l - 1) = Some x /\
  forall i, (i < length l - 1)%nat -> nth_error l' i = nth_error l i.
Proof.
  intros H. destruct l as [|y l]; [congruence|]. unfold set_last.
  eexists. split; [reflexivity|].
  pose proof (app_removelast_last 0 H) as E.
  set (m := removelast (y :: l)) in *. 
  assert (Hm : length (y :: l) = S (length m)) by (rewrite E, app_length; simpl; lia).
  split; [rewrite app_length; simpl length in *; lia|].
  rewrite Hm. replace (S (length m) - 1)%nat with (length m) by lia. split.
  - rewrite nth_error_app2 by lia. rewrite Nat.sub_diag. reflexivity.
  - intros i Hi. rewrite E, !nth_error_app1 by lia. reflexivity.
Qed.

Definition ramp_dir (start target : Q) : Q := if qlt target start then -(1) else 1.

Lemma inj_S n : inject_Z (Z.of_nat (S n)) == inject_Z (Z.of_nat n) + 1.
Proof. rewrite Nat2Z.inj_succ. unfold Z.succ. rewrite inject_Z_plus. reflexivity. Qed.
Lemma inj_nonneg n : 0 <= inject_Z (Z.of_nat n).
Proof. change 0 with (inject_Z 0). rewrite <- Zle_Qle. lia. Qed.

(** a ramp with a positive step size reaches its target *)
Lemma ramp_ok v t target v1 x :
  vinv v -> 0 < vdel v -> ~ vbase v == 0 ->
  get_Vdc_ref v t = (v1, Ok x) ->
  let start := x * vbase v in
  vmin v <= start <= vmax v -> vmin v <= target <= vmax v ->
  exists v' n, Vdc_ref_ramp v t target = (v', Ok tt) /\ vinv v' /\ (0 < n)%nat /\
    (forall i, (i < n)%nat -> exists y,
       lookup (items (refs v')) (t + inject_Z (Z.of_nat i) * vdelt v) = Some y /\
       ((i = n - 1)%nat -> y * vbase v == target) /\
       ((i < n - 1)%nat -> y * vbase v == start + ramp_dir start target * inject_Z (Z.of_nat (S i)) * vdel v /\
                           inject_Z (Z.of_nat (S i)) * vdel v < py_abs (target - start))) /\
    py_abs (target - start) <= inject_Z (Z.of_nat n) * vdel v /\
    (forall u, (forall i, (i < n)%nat -> ~ u == t + inject_Z (Z.of_nat i) * vdelt v) ->
       lookup (items (refs v')) u = lookup (items (refs v)) u).
Proof.
  intros Hv Hdel Hb Hg start Hst Htg.
  destruct (get_vinv v t Hv) as (x' & Hx & H1 & H2 & H3 & H4 & H5).
  rewrite Hg in *. simpl in *. injection Hx as <-.
  destruct H2 as (Hlo & Hhi & Hba & Hdt).
  unfold Vdc_ref_ramp. rewrite Hg. rewrite Hba, H5. fold start.
  destruct (qle (py_abs (start - target)) (vdel v)) eqn:Ed; qb.
  - destruct (add_ok v1 t target H1) as (v' & E & Hv' & _ & _ & _ & Hl).
    { rewrite Hlo, Hhi. auto. }
    rewrite E. exists v', 1%nat. split; auto. split; auto. split; [lia|].
    assert (Hz : t + inject_Z (Z.of_nat 0) * vdelt v == t).
    { change (inject_Z (Z.of_nat 0)) with 0. lra. }
    split; [|split].
    + intros [|i] Hi; [|lia]. exists (target / vbase v). rewrite Hl, Hba.
      assert (Eq : qeq t (t + inject_Z (Z.of_nat 0) * vdelt v) = true)
        by (apply qeq_iff; rewrite Hz; reflexivity).
      rewrite Eq. split; auto. split; [|lia]. intros _. field. auto.
    + change (inject_Z (Z.of_nat 1)) with 1.
      destruct (py_abs_spec (start - target)) as [[Ea ?]|[Ea ?]];
      destruct (py_abs_spec (target - start)) as [[Eb ?]|[Eb ?]]; rewrite Ea in Ed; rewrite Eb; lra.
    + intros u Hu. rewrite Hl, H3. specialize (Hu O ltac:(lia)).
      destruct (qeq t u) eqn:E2; auto. qb. exfalso. apply Hu. rewrite Hz. symmetry. auto.
  - set (v2 := if qlt target start then set_vdel v1 (- vdel v) else v1).
    assert (Hv2 : vinv v2).
    { unfold v2. rewrite <- H5. destruct (qlt _ _); auto using set_vdel_vinv. }
    assert (Hs2 : same_limits v v2).
    { unfold v2, same_limits. destruct (qlt _ _); simpl; auto. }
    set (dir := ramp_dir start target).
    assert (Hd2 : vdel v2 == dir * vdel v).
    { unfold v2, dir, ramp_dir. destruct (qlt _ _); simpl; [|rewrite H5]; lra. }
    assert (Hi2 : items (refs v2) = items (refs v)).
    { unfold v2. destruct (qlt _ _); simpl; auto. }
    assert (Hdist : py_abs (target - start) == dir * (target - start) /\ vdel v < dir * (target - start)).
    { unfold dir, ramp_dir. destruct (qlt target start) eqn:E3; qb;
      destruct (py_abs_spec (start - target)) as [[Ea ?]|[Ea ?]];
      destruct (py_abs_spec (target - start)) as [[Eb ?]|[Eb ?]]; rewrite Ea in Ed; rewrite Eb; lra. }
    destruct Hdist as [Habs Hgt].
    assert (Hdir : dir == 1 \/ dir == -(1)).
    { unfold dir, ramp_dir. destruct (qlt target start); [right|left]; reflexivity. }
    assert (Hne : ~ vdel v2 == 0).
    { rewrite Hd2. destruct Hdir as [E|E]; rewrite E; lra. }
    destruct (arange (start + vdel v2) (target + vdel v2) (vdel v2)) as [l|e] eqn:Ear.
    2:{ unfold arange in Ear. destruct (qeq (vdel v2) 0) eqn:E0; [qb; contradiction|discriminate]. }
    pose proof (arange_gen _ _ _ _ Hne Ear) as Hlen.
    pose proof (fun i => arange_nth _ _ _ l i Ear) as Hnth.
    assert (Hrat : (target + vdel v2 - (start + vdel v2)) / vdel v2 == dir * (target - start) / vdel v).
    { assert (~ dir == 0) by (destruct Hdir as [E|E]; rewrite E; lra).
      assert (Hdd : dir * dir == 1) by (destruct Hdir as [E|E]; rewrite E; reflexivity).
      transitivity ((target - start) / (dir * vdel v)).
      - rewrite <- Hd2. field. auto.
      - transitivity ((dir * dir) * (target - start) / (dir * vdel v)); [rewrite Hdd; field; split; auto; lra|].
        field. split; auto; lra. }
    assert (Hlen' : forall i, (i < length l)%nat <-> inject_Z (Z.of_nat i) * vdel v < dir * (target - start)).
    { intros i. rewrite Hlen, Hrat. split; intros H.
      - apply Qmult_lt_compat_r with (z := vdel v) in H; auto.
        assert (Hq : dir * (target - start) / vdel v * vdel v == dir * (target - start)) by (field; lra).
        rewrite Hq in H. auto.
      - apply Qlt_shift_div_l; auto. }
    assert (Hpos : (1 < length l)%nat).
    { apply Hlen'. change (inject_Z (Z.of_nat 1)) with 1. lra. }
    destruct (set_last_ok l target) as (xs & Esl & Hxl & Hxlast & Hxi).
    { destruct l; simpl in *; [lia|congruence]. }
    simpl bindR. rewrite Esl. destruct Hs2 as (Hlo2 & Hhi2 & Hba2 & Hdt2).
    assert (Hdth : vdelt v == 1#2) by (destruct Hv as (_ & _ & _ & _ & _ & _ & ->); reflexivity).
    rewrite Hdt2.
    destruct (arange t (t + inject_Z (len xs)) (vdelt v)) as [tr|e] eqn:Etr.
    2:{ unfold arange in Etr. destruct (qeq (vdelt v) 0) eqn:E0; [qb; lra|discriminate]. }
    assert (Htr : forall i, (i < length xs)%nat -> (i < length tr)%nat).
    { intros i Hi. assert (Hdp : 0 < vdelt v) by (rewrite Hdth; reflexivity).
      apply (arange_length _ _ _ _ Hdp Etr).
      assert (inject_Z (Z.of_nat i) < inject_Z (len xs)) by (unfold len; rewrite <- Zlt_Qlt; lia).
      pose proof (inj_nonneg i). rewrite Hdth. lra. }
    destruct (with_times_ok tr xs 0) as (ts & Htl & Ewt & Hts).
    { intros k Hk. simpl. destruct (nth_error tr k) eqn:E0; eauto. apply nth_error_None in E0.
      specialize (Htr k Hk). lia. }
    rewrite Ewt.
    assert (Htsn : forall k, (k < length xs)%nat -> nth_error ts k = Some (t + inject_Z (Z.of_nat k) * vdelt v)).
    { intros k Hk. rewrite Hts by auto. simpl. apply (arange_nth _ _ _ _ k Etr). auto. }
    (* the scheduled voltages *)
    assert (Hxs : forall i y, nth_error xs i = Some y ->
       (i < length l)%nat /\
       ((i = length l - 1)%nat -> y = target) /\
       ((i < length l - 1)%nat -> y == start + dir * inject_Z (Z.of_nat (S i)) * vdel v /\
           inject_Z (Z.of_nat (S i)) * vdel v < dir * (target - start))).
    { intros i y Hy. assert (Hil : (i < length l)%nat) by (rewrite <- Hxl; apply nth_error_Some; congruence).
      split; auto. split.
      - intros ->. congruence.
      - intros Hi. rewrite Hxi in Hy by auto. rewrite (Hnth i Hil) in Hy.
        apply (f_equal (fun o => match o with Some y => y | None => 0 end)) in Hy.
        cbv beta iota in Hy. split.
        + rewrite <- Hy, Hd2, inj_S. ring.
        + apply Hlen'. lia. }
    clear Hg. destruct (add_loop_ok (combine ts xs) v2 Hv2) as (v' & E' & Hv' & _ & _ & _ & Hlk).
    { apply Forall_forall. intros [T y] Hin. simpl. apply in_combine_r in Hin.
      apply In_nth_error in Hin as [i Hi]. destruct (Hxs i y Hi) as (Hil & Ha & Hc).
      rewrite Hlo2, Hhi2.
      destruct (Nat.eq_dec i (length l - 1)) as [->|Hn]; [rewrite Ha; auto|].
      destruct Hc as [Hc1 Hc2]; [lia|]. pose proof (inj_nonneg (S i)) as Hnn.
      assert (0 <= inject_Z (Z.of_nat (S i)) * vdel v) by (apply Qmult_le_0_compat; lra).
      set (m := inject_Z (Z.of_nat (S i)) * vdel v) in *.
      assert (Hm : dir * inject_Z (Z.of_nat (S i)) * vdel v == dir * m) by (unfold m; ring).
      rewrite Hm in Hc1. rewrite Hc1. destruct Hdir as [E|E]; rewrite E in *; split; lra. }
    exists v', (length l). rewrite E'. split; auto. split; auto. split; [lia|].
    split; [|split].
    + intros i Hi. rewrite Hlk, Hba2.
      destruct (nth_error xs i) as [y|] eqn:Ey; [|apply nth_error_None in Ey; lia].
      destruct (Hxs i y Ey) as (_ & Ha & Hc).
      erewrite (fold_hit (fun z => z / vbase v) _ _ _ i).
      2:{ apply combine_nth; [apply Htsn; lia|exact Ey]. }
      2:{ reflexivity. }
      2:{ intros j p Hij Hp. apply combine_nth_inv in Hp as [Hp _].
          assert (Hj : (j < length xs)%nat) by (rewrite <- Htl; apply nth_error_Some; congruence).
          rewrite (Htsn j Hj) in Hp.
          apply (f_equal (fun o => match o with Some y => y | None => 0 end)) in Hp.
          cbv beta iota in Hp. rewrite <- Hp.
          assert (Hz : inject_Z (Z.of_nat i) < inject_Z (Z.of_nat j)) by (rewrite <- Zlt_Qlt; lia).
          rewrite Hdth. clear - Hz. lra. }
      exists (y / vbase v). split; auto.
      assert (Hyb : y / vbase v * vbase v == y) by (field; auto).
      split.
      * intros Hi'. rewrite Hyb, (Ha Hi'). reflexivity.
      * intros Hi'. destruct (Hc Hi') as [Hc1 Hc2]. split; [rewrite Hyb; exact Hc1|]. rewrite Habs. exact Hc2.
    + rewrite Habs. destruct (Qlt_le_dec (inject_Z (Z.of_nat (length l)) * vdel v) (dir * (target - start))) as [Hc|Hc]; auto.
      apply Hlen' in Hc. lia.
    + intros u Hu. rewrite Hlk, Hba2, Hi2. apply (fold_miss (fun z => z / vbase v)).
      intros p Hp. apply In_nth_error in Hp as [i Hp]. apply combine_nth_inv in Hp as [Hp _].
      assert (Hi : (i < length xs)%nat) by (rewrite <- Htl; apply nth_error_Some; congruence).
      rewrite (Htsn i Hi) in Hp.
      apply (f_equal (fun o => match o with Some y => y | None => 0 end)) in Hp.
      cbv beta iota in Hp. rewrite <- Hp. specialize (Hu i ltac:(lia)). lra.
Qed.

(** with a negative step size every ramp fails *)
Lemma ramp_negative v t target :
  vinv v -> vdel v < 0 -> snd (Vdc_ref_ramp v t target) = Raise IndexError.
Proof.
  intros Hv Hdel. destruct (get_vinv v t Hv) as (x & Hx & H1 & H2 & H3 & H4 & H5).
  unfold Vdc_ref_ramp. destruct (get_Vdc_ref v t) as [v1 r]. simpl in *. subst r.
  set (start := x * vbase v1). rewrite H5.
  destruct (qle (py_abs (start - target)) (vdel v)) eqn:Ed; qb.
  { destruct (py_abs_spec (start - target)) as [[Ea ?]|[Ea ?]]; rewrite Ea in Ed; lra. }
  set (v2 := if qlt target start then set_vdel v1 (- vdel v) else v1).
  assert (Hne : ~ vdel v2 == 0) by (unfold v2; destruct (qlt _ _); simpl; rewrite ?H5; lra).
  destruct (arange (start + vdel v2) (target + vdel v2) (vdel v2)) as [l|e] eqn:Ear.
  2:{ unfold arange in Ear. destruct (qeq (vdel v2) 0) eqn:E0; [qb; contradiction|discriminate]. }
  pose proof (arange_gen _ _ _ _ Hne Ear) as Hlen.
  destruct l as [|y l]; [reflexivity|]. exfalso.
  assert (H0 : (0 < length (y :: l))%nat) by (simpl; lia).
  apply Hlen in H0. change (inject_Z (Z.of_nat 0)) with 0 in H0.
  assert (Hr : (target + vdel v2 - (start + vdel v2)) / vdel v2 == (target - start) / vdel v2) by (field; auto).
  rewrite Hr in H0.
  assert (Hp : (target - start) == (target - start) / vdel v2 * vdel v2) by (field; auto).
  set (k := (target - start) / vdel v2) in *. clearbody k.
  assert (Hcase : (target < start /\ vdel v2 == - vdel v) \/ (start <= target /\ vdel v2 == vdel v)).
  { unfold v2. destruct (qlt target start) eqn:E; qb; simpl; [left|right; rewrite H5]; split; auto; reflexivity. }
  clearbody v2 start. destruct Hcase as [[Hc1 Hc2]|[Hc1 Hc2]]; rewrite Hc2 in Hp; nra.
Qed.

Lemma add_vdel v t x : vdel (fst (add_Vdc_ref v t x)) = vdel v.
Proof. unfold add_Vdc_ref. destruct (_ || _)%bool; reflexivity. Qed.
Lemma add_loop_vdel pts : forall v, vdel (fst (add_loop_r v pts)) = vdel v.
Proof.
  induction pts as [|[[t|e] x] pts IH]; simpl; intros v; auto.
  pose proof (add_vdel v t x) as H. destruct (add_Vdc_ref v t x) as [v1 [[]|e]]; simpl in *; auto.
  rewrite IH. auto.
Qed.
Lemma ramp_down_vdel v t target v1 x :
  vinv v -> 0 < vdel v -> get_Vdc_ref v t = (v1, Ok x) -> target < x * vbase v - vdel v ->
  vdel (fst (Vdc_ref_ramp v t target)) == - vdel v.
Proof.
  intros Hv Hdel Hg Hlt. destruct (get_vinv v t Hv) as (x' & Hx & H1 & (Hlo & Hhi & Hba & Hdt) & H3 & H4 & H5).
  rewrite Hg in *. simpl in *. unfold Vdc_ref_ramp. rewrite Hg, Hba, H5.
  destruct (qle _ (vdel v)) eqn:Ed; qb.
  { destruct (py_abs_spec (x * vbase v - target)) as [[Ea ?]|[Ea ?]]; rewrite Ea in Ed; lra. }
  assert (E : qlt target (x * vbase v) = true) by (apply qlt_iff; lra). rewrite E.
  destruct (bindR _ _) as [xs|e]; [|simpl; reflexivity].
  destruct (arange t _ _) as [tr|e]; [|simpl; reflexivity].
  rewrite add_loop_vdel. simpl. reflexivity.
Qed.
