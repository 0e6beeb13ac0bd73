(** Facts about timed lists: the remove-while-iterating loop, the sort and the
    abstract map. *)
From Verif Require Import Base EventsModel EventsSpec.

Section Timed.
  Context {A : Type} (veqb : A -> A -> bool).
  Hypothesis veqb_refl : forall a, veqb a a = true.

  Lemma ev_eqb_refl (e : ev A) : ev_eqb veqb e e = true.
  Proof. unfold ev_eqb. rewrite veqb_refl, andb_true_r. apply qeq_iff. reflexivity. Qed.

  Definition keep (T : Q) (l : list (ev A)) := filter (fun e => negb (qeq T (eT e))) l.

  Lemma keep_noop T l : (forall e, In e l -> ~ T == eT e) -> keep T l = l.
  Proof.
    induction l as [|x l IH]; simpl; intros H; auto.
    destruct (qeq T (eT x)) eqn:E; simpl.
    - qb. exfalso. apply (H x); auto.
    - rewrite IH; auto.
  Qed.

  Lemma remove_loop_noop T l fuel : forall i fl,
    (forall e, In e l -> ~ T == eT e) -> fst (remove_loop veqb fuel T i l fl) = l.
  Proof.
    induction fuel as [|f IH]; simpl; intros i fl H; auto.
    destruct (nth_error l i) as [e|] eqn:En; auto.
    destruct (qeq T (eT e)) eqn:E; auto.
    apply nth_error_In in En. qb. exfalso. apply (H e); auto.
  Qed.

  Lemma py_remove_app (l1 : list (ev A)) e l2 :
    (forall x, In x l1 -> ~ eT x == eT e) -> py_remove veqb e (l1 ++ e :: l2) = l1 ++ l2.
  Proof.
    induction l1 as [|y l1 IH]; simpl; intros H.
    - rewrite ev_eqb_refl. reflexivity.
    - destruct (ev_eqb veqb y e) eqn:E.
      + unfold ev_eqb in E. qb. exfalso. apply (H y); auto.
      + rewrite IH; auto.
  Qed.

  Lemma increasing_app_lt (l1 l2 : list (ev A)) a b :
    increasing (l1 ++ l2) -> In a l1 -> In b l2 -> eT a < eT b.
  Proof.
    induction l1 as [|x l1 IH]; simpl; intros H Ha Hb; [tauto|].
    inversion H as [|? ? Hs Hf]; subst. destruct Ha as [->|Ha]; auto.
    rewrite Forall_forall in Hf. apply Hf. apply in_or_app; auto.
  Qed.

  Lemma increasing_app_r (l1 l2 : list (ev A)) : increasing (l1 ++ l2) -> increasing l2.
  Proof. induction l1; simpl; auto. intros H. inversion H; subst; auto. Qed.

  Lemma remove_loop_spec T (l2 l1 : list (ev A)) fuel fl :
    increasing (l1 ++ l2) -> (forall e, In e l1 -> ~ T == eT e) ->
    (length l2 <= fuel)%nat ->
    fst (remove_loop veqb fuel T (length l1) (l1 ++ l2) fl) = l1 ++ keep T l2.
  Proof.
    revert l1 fuel fl. induction l2 as [|e l2 IH]; intros l1 fuel fl Hs Hn Hf.
    - rewrite app_nil_r in *. simpl. rewrite app_nil_r. apply remove_loop_noop. auto.
    - destruct fuel as [|f]; simpl in Hf; [lia|]. simpl remove_loop.
      rewrite nth_error_app2, Nat.sub_diag by lia. simpl.
      destruct (qeq T (eT e)) eqn:E; simpl.
      + assert (Hlt : forall x, In x l1 -> eT x < eT e)
          by (intros x Hx; apply (increasing_app_lt l1 (e :: l2)); simpl; auto).
        assert (Hgt : forall x, In x l2 -> eT e < eT x).
        { apply increasing_app_r in Hs. inversion Hs as [|? ? _ Hf']; subst.
          rewrite Forall_forall in Hf'. auto. }
        qb. rewrite py_remove_app.
        2:{ intros x Hx. specialize (Hlt x Hx). lra. }
        assert (Hno : forall x, In x l2 -> ~ T == eT x).
        { intros x Hx. specialize (Hgt x Hx). lra. }
        fold (keep T l2). rewrite (keep_noop T l2 Hno).
        apply remove_loop_noop. intros x Hx. apply in_app_or in Hx as [Hx|Hx]; auto.
      + specialize (IH (l1 ++ [e]) f fl).
        rewrite <- app_assoc in IH. simpl in IH. rewrite app_length in IH. simpl in IH.
        replace (length l1 + 1)%nat with (S (length l1)) in IH by lia.
        rewrite IH; auto; [|intros x Hx|lia].
        * rewrite <- app_assoc. reflexivity.
        * apply in_app_or in Hx as [Hx|[->|[]]]; auto. qb. auto.
  Qed.

  Lemma remove_at_spec T (l : list (ev A)) :
    increasing l -> fst (remove_at veqb T l) = keep T l.
  Proof.
    intros H. unfold remove_at.
    apply (remove_loop_spec T l [] (length l) false); simpl; auto; try tauto.
  Qed.

  Lemma keep_In T (l : list (ev A)) e : In e (keep T l) <-> In e l /\ ~ T == eT e.
  Proof. unfold keep. rewrite filter_In, negb_true_iff, qeq_false. tauto. Qed.

  Lemma keep_increasing T (l : list (ev A)) : increasing l -> increasing (keep T l).
  Proof.
    induction 1 as [|x l Hs IH Hf]; simpl; [constructor|].
    destruct (negb (qeq T (eT x))); auto. constructor; auto.
    rewrite Forall_forall in *. intros y Hy. apply keep_In in Hy. apply Hf. tauto.
  Qed.

  (** ** sorting *)
  Lemma ins_In x (l : list (ev A)) y : In y (ins_sorted x l) <-> y = x \/ In y l.
  Proof.
    induction l as [|z l IH]; simpl; [intuition|].
    destruct (qle (eT x) (eT z)); simpl; rewrite ?IH; intuition.
  Qed.
  Lemma sort_In (l : list (ev A)) y : In y (sort_T l) <-> In y l.
  Proof. induction l; simpl; [tauto|]. rewrite ins_In, IHl. intuition. Qed.

  Lemma ins_increasing x (l : list (ev A)) :
    increasing l -> (forall y, In y l -> ~ eT x == eT y) -> increasing (ins_sorted x l).
  Proof.
    induction 1 as [|z l Hs IH Hf]; simpl; intros Hx.
    - repeat constructor.
    - destruct (qle (eT x) (eT z)) eqn:E; qb.
      + assert (eT x < eT z) by (specialize (Hx z (or_introl eq_refl)); lra).
        constructor; [constructor; auto|]. rewrite Forall_forall in *.
        intros y [<-|Hy]; auto. specialize (Hf y Hy). lra.
      + constructor; [apply IH; intros y Hy; apply Hx; right; exact Hy|].
        rewrite Forall_forall in *. intros y Hy. apply ins_In in Hy as [->|Hy]; auto.
  Qed.

  Lemma sort_app_last x (l : list (ev A)) :
    increasing l -> (forall y, In y l -> ~ eT x == eT y) -> increasing (sort_T (l ++ [x])).
  Proof.
    induction 1 as [|z l Hs IH Hf]; simpl; intros Hx.
    - repeat constructor.
    - apply ins_increasing; auto. intros y Hy.
      apply (proj1 (sort_In _ _)) in Hy. apply in_app_or in Hy as [Hy|[<-|[]]].
      + rewrite Forall_forall in Hf. specialize (Hf y Hy). lra.
      + intros E. apply (Hx z); auto. lra.
  Qed.

  Lemma insert_event_In T v (l : list (ev A)) e :
    increasing l ->
    (In e (insert_event veqb T v l) <-> e = Ev T v \/ (In e l /\ ~ T == eT e)).
  Proof.
    intros H. unfold insert_event. rewrite sort_In, remove_at_spec by auto.
    rewrite in_app_iff, keep_In. simpl. intuition.
  Qed.

  Lemma insert_event_increasing T v (l : list (ev A)) :
    increasing l -> increasing (insert_event veqb T v l).
  Proof.
    intros H. unfold insert_event. rewrite remove_at_spec by auto.
    apply sort_app_last; [apply keep_increasing; auto|].
    intros y Hy. apply keep_In in Hy. simpl. tauto.
  Qed.

  (** ** the abstract map *)
  Lemma lookup_In (l : list (ev A)) t v :
    increasing l -> (lookup l t = Some v <-> exists e, In e l /\ eT e == t /\ eV e = v).
  Proof.
    induction 1 as [|x l Hs IH Hf]; simpl.
    - split; [discriminate|]. intros (e & [] & _).
    - rewrite Forall_forall in Hf. destruct (qeq (eT x) t) eqn:E; qb.
      + split.
        * intros [= <-]. exists x. auto.
        * intros (e & [->|He] & Et & Ev'); [congruence|].
          specialize (Hf e He). lra.
      + rewrite IH. split; intros (e & He & Et & Ev'); exists e; auto.
        destruct He as [->|He]; [contradiction|auto].
  Qed.

  Lemma lookup_ext (l l' : list (ev A)) t :
    increasing l -> increasing l' ->
    (forall v, (exists e, In e l /\ eT e == t /\ eV e = v) <->
               (exists e, In e l' /\ eT e == t /\ eV e = v)) ->
    lookup l t = lookup l' t.
  Proof.
    intros H H' E.
    destruct (lookup l t) as [v|] eqn:L.
    - apply lookup_In in L; auto. apply E in L. apply lookup_In in L; auto.
    - destruct (lookup l' t) as [v|] eqn:L'; auto.
      apply lookup_In in L'; auto. apply E in L'. apply lookup_In in L'; auto. congruence.
  Qed.

  Lemma lookup_insert T v (l : list (ev A)) t :
    increasing l ->
    lookup (insert_event veqb T v l) t = if qeq T t then Some v else lookup l t.
  Proof.
    intros H. destruct (qeq T t) eqn:E; qb.
    - apply lookup_In; [apply insert_event_increasing; auto|].
      exists (Ev T v). rewrite insert_event_In by auto. simpl. auto.
    - apply lookup_ext; auto; [apply insert_event_increasing; auto|].
      intros v'. split; intros (e & He & Et & Ev').
      + rewrite insert_event_In in He by auto. destruct He as [->|[He _]].
        * simpl in Et. contradiction.
        * exists e; auto.
      + exists e. rewrite insert_event_In by auto. repeat split; auto. right.
        split; auto. lra.
  Qed.

  Lemma lookup_remove T (l : list (ev A)) t :
    increasing l ->
    lookup (fst (remove_at veqb T l)) t = if qeq T t then None else lookup l t.
  Proof.
    intros H. rewrite remove_at_spec by auto. destruct (qeq T t) eqn:E; qb.
    - destruct (lookup (keep T l) t) as [v|] eqn:L; auto.
      apply lookup_In in L; [|apply keep_increasing; auto].
      destruct L as (e & He & Et & _). apply keep_In in He. exfalso. apply He. lra.
    - apply lookup_ext; auto; [apply keep_increasing; auto|].
      intros v. split; intros (e & He & Et & Ev').
      + apply keep_In in He. exists e. tauto.
      + exists e. rewrite keep_In. repeat split; auto. lra.
  Qed.

  Lemma insert_length_pos T v (l : list (ev A)) : increasing l -> insert_event veqb T v l <> [].
  Proof.
    intros H E. assert (In (Ev T v) (insert_event veqb T v l)) as Hin
      by (rewrite insert_event_In; auto). rewrite E in Hin. destruct Hin.
  Qed.

  Lemma ins_length x (l : list (ev A)) : length (ins_sorted x l) = S (length l).
  Proof. induction l as [|y l IH]; simpl; auto. destruct (qle _ _); simpl; auto. Qed.
  Lemma sort_length (l : list (ev A)) : length (sort_T l) = length l.
  Proof. induction l; simpl; auto. rewrite ins_length; auto. Qed.

  Lemma keep_length T (l : list (ev A)) :
    increasing l -> (length l <= S (length (keep T l)) /\ length (keep T l) <= length l)%nat.
  Proof.
    induction 1 as [|x l Hs IH Hf]; simpl; [lia|].
    destruct (qeq T (eT x)) eqn:E; simpl; [|lia].
    qb. fold (keep T l). rewrite keep_noop; [lia|]. intros e He. rewrite Forall_forall in Hf.
    specialize (Hf e He). lra.
  Qed.

  (** the schedule never shrinks when an event is added *)
  Lemma insert_length T v (l : list (ev A)) :
    increasing l -> (length l <= length (insert_event veqb T v l) <= S (length l))%nat.
  Proof.
    intros H. unfold insert_event. rewrite remove_at_spec, sort_length, app_length by auto.
    simpl. pose proof (keep_length T l H). lia.
  Qed.

  (** re-adding at the time of an existing event replaces it in place *)
  Lemma ins_before x (l : list (ev A)) :
    (forall y, In y l -> eT x <= eT y) -> ins_sorted x l = x :: l.
  Proof.
    destruct l as [|y l]; simpl; auto. intros H.
    assert (E : qle (eT x) (eT y) = true) by (apply qle_iff; apply H; auto).
    rewrite E. reflexivity.
  Qed.
  Lemma sort_sorted_app (l1 l2 : list (ev A)) x :
    increasing (l1 ++ x :: l2) -> sort_T (l1 ++ l2 ++ [x]) = l1 ++ x :: l2.
  Proof.
    induction l1 as [|y l1 IH]; simpl; intros H.
    - inversion H as [|? ? Hs Hf]; subst. clear H. rewrite Forall_forall in Hf.
      induction l2 as [|z l2 IH]; simpl; auto.
      inversion Hs as [|? ? Hs' Hf']; subst. rewrite IH; auto.
      2:{ intros e He. apply Hf. simpl; auto. }
      simpl. assert (E : qle (eT z) (eT x) = false).
      { apply qle_false. apply Hf. simpl; auto. }
      rewrite E. f_equal. apply ins_before. rewrite Forall_forall in Hf'.
      intros w Hw. apply Qlt_le_weak. auto.
    - inversion H as [|? ? Hs Hf]; subst. rewrite IH by auto. apply ins_before.
      rewrite Forall_forall in Hf. intros w Hw. apply Qlt_le_weak. auto.
  Qed.

  Lemma increasing_replace (l1 l2 : list (ev A)) x y :
    eT x == eT y -> increasing (l1 ++ x :: l2) -> increasing (l1 ++ y :: l2).
  Proof.
    intros E. induction l1 as [|z l1 IH]; simpl; intros H; inversion H as [|? ? Hs Hf]; subst;
      (constructor; [first [exact Hs | apply IH; exact Hs]|]);
      rewrite Forall_forall in *; intros w Hw.
    - specialize (Hf w Hw). lra.
    - apply in_app_or in Hw as [Hw|[->|Hw]].
      + apply Hf. apply in_or_app; auto.
      + specialize (Hf x). rewrite E in Hf. apply Hf. apply in_or_app; simpl; auto.
      + apply Hf. apply in_or_app; simpl; auto.
  Qed.

  Lemma insert_existing (l1 l2 : list (ev A)) x v :
    increasing (l1 ++ x :: l2) ->
    insert_event veqb (eT x) v (l1 ++ x :: l2) = l1 ++ Ev (eT x) v :: l2.
  Proof.
    intros H. unfold insert_event. rewrite remove_at_spec by auto.
    assert (E : keep (eT x) (l1 ++ x :: l2) = l1 ++ l2).
    { unfold keep. rewrite filter_app. simpl.
      assert (Ex : qeq (eT x) (eT x) = true) by (apply qeq_iff; reflexivity).
      rewrite Ex. simpl. fold (keep (eT x) l1) (keep (eT x) l2).
      rewrite !keep_noop; auto.
      - intros e He. apply increasing_app_r in H. inversion H as [|? ? _ Hf]; subst.
        rewrite Forall_forall in Hf. specialize (Hf e He). lra.
      - intros e He. pose proof (increasing_app_lt _ _ e x H He (or_introl eq_refl)). lra. }
    rewrite E, <- app_assoc. apply sort_sorted_app.
    eapply increasing_replace; [|exact H]. simpl. reflexivity.
  Qed.
End Timed.
