(** Counter semantics of the event queries. *)
From Verif Require Import Base EventsModel EventsSpec TimedLemmas.

(** ** number of started events *)
Section Count.
  Context {A : Type}.
  Fixpoint started (l : list (ev A)) (t : Q) : nat :=
    match l with [] => O | e :: l' => if qle (eT e) t then S (started l' t) else O end.

  Definition started_opt (l : list (ev A)) (p : option Q) : nat :=
    match p with None => O | Some q => started l q end.

  Lemma started_le_length l t : (started l t <= length l)%nat.
  Proof. induction l; simpl; [lia|]. destruct (qle _ _); lia. Qed.
  Lemma started_opt_le l p : (started_opt l p <= length l)%nat.
  Proof. destruct p; simpl; [apply started_le_length|lia]. Qed.

  Lemma started_nth l t i e :
    increasing l -> nth_error l i = Some e -> (eT e <= t <-> (i < started l t)%nat).
  Proof.
    intros H. revert i. induction H as [|x l Hs IH Hf]; intros i Hi.
    - destruct i; discriminate.
    - simpl. destruct (qle (eT x) t) eqn:E; qb; destruct i as [|i]; simpl in Hi.
      + injection Hi as <-. split; [lia|auto].
      + rewrite (IH i Hi). lia.
      + injection Hi as <-. split; [intros; lra|lia].
      + split; [|lia]. intros Ht. rewrite Forall_forall in Hf.
        apply nth_error_In in Hi. specialize (Hf e Hi). lra.
  Qed.

  Lemma increasing_nth_lt (l : list (ev A)) i j a b :
    increasing l -> nth_error l i = Some a -> nth_error l j = Some b ->
    (i < j)%nat -> eT a < eT b.
  Proof.
    intros H. revert i j. induction H as [|x l Hs IH Hf]; intros i j Hi Hj Hij.
    - destruct i; discriminate.
    - destruct j as [|j]; [lia|]. simpl in Hj. destruct i as [|i]; simpl in Hi.
      + injection Hi as <-. rewrite Forall_forall in Hf. apply Hf.
        eapply nth_error_In; eauto.
      + apply (IH i j); auto. lia.
  Qed.

  Lemma scheduled_started dflt (l : list (ev A)) t v :
    increasing l ->
    (scheduled dflt l t v <->
     (started l t = O /\ v = dflt) \/
     exists k e, started l t = S k /\ nth_error l k = Some e /\ v = eV e).
  Proof.
    intros H. split.
    - intros [(e & He & Ht & Hv & Hm)|[Hb Hv]].
      + right. apply In_nth_error in He as [i Hi].
        assert (Hlt : (i < started l t)%nat) by (eapply started_nth; eauto).
        destruct (started l t) as [|k] eqn:Ek; [lia|].
        assert (Hk : (k < length l)%nat) by (pose proof (started_le_length l t); lia).
        destruct (nth_error l k) as [e'|] eqn:En;
          [|apply nth_error_None in En; lia].
        assert (Ht' : eT e' <= t).
        { apply (started_nth l t k e' H En). rewrite Ek. lia. }
        assert (i = k).
        { destruct (Nat.eq_dec i k); auto. assert (i < k)%nat by lia.
          pose proof (increasing_nth_lt l i k e e' H Hi En H0).
          specialize (Hm e' (nth_error_In _ _ En) Ht'). lra. }
        subst i. rewrite En in Hi. injection Hi as ->. eauto.
      + left. split; auto. destruct l as [|x l]; auto. simpl.
        specialize (Hb x (or_introl eq_refl)).
        destruct (qle (eT x) t) eqn:E; auto. qb. lra.
    - intros [[Hk Hv]|(k & e & Hk & He & Hv)].
      + right. split; auto. intros e He. apply In_nth_error in He as [i Hi].
        destruct (Qlt_le_dec t (eT e)) as [|Hle]; auto.
        apply (started_nth l t i e H Hi) in Hle. lia.
      + left. exists e. split; [eapply nth_error_In; eauto|].
        split; [apply (started_nth l t k e H He); lia|]. split; auto.
        intros e' He' Ht'. apply In_nth_error in He' as [i Hi].
        apply (started_nth l t i e' H Hi) in Ht'.
        destruct (Nat.eq_dec i k) as [->|].
        * rewrite He in Hi. injection Hi as ->. lra.
        * assert (Hlt : (i < k)%nat) by lia.
          pose proof (increasing_nth_lt l i k e' e H Hi He Hlt). lra.
  Qed.

  Lemma started_mono (l : list (ev A)) p t : increasing l -> not_before p t -> (started_opt l p <= started l t)%nat.
  Proof.
    intros H. destruct p as [q|]; simpl; [|lia]. intros Hq.
    destruct (started l q) as [|k] eqn:E; [lia|].
    assert (Hk : (k < length l)%nat) by (pose proof (started_le_length l q); lia).
    destruct (nth_error l k) as [e|] eqn:En; [|apply nth_error_None in En; lia].
    assert (eT e <= q) by (apply (started_nth l q k e H En); lia).
    assert (eT e <= t) by lra. apply (started_nth l t k e H En) in H1. lia.
  Qed.

  Lemma started_step (l : list (ev A)) p t :
    increasing l -> at_most_one_boundary l p t ->
    (started l t <= S (started_opt l p))%nat.
  Proof.
    intros H Hb. destruct (le_lt_dec (started l t) (S (started_opt l p))) as [|Hgt]; auto.
    exfalso. set (k := started_opt l p) in *.
    pose proof (started_le_length l t).
    destruct (nth_error l k) as [a|] eqn:Ea; [|apply nth_error_None in Ea; lia].
    destruct (nth_error l (S k)) as [b|] eqn:Eb; [|apply nth_error_None in Eb; lia].
    assert (Hab : eT a < eT b) by (eapply (increasing_nth_lt l k (S k)); eauto).
    assert (Ha : eT a <= t) by (apply (started_nth l t k a H Ea); lia).
    assert (Hb' : eT b <= t) by (apply (started_nth l t (S k) b H Eb); lia).
    assert (Hpa : after p (eT a)).
    { destruct p as [q|]; simpl in *; auto. apply Qnot_le_lt. intros Hle.
      apply (started_nth l q k a H Ea) in Hle. unfold k in Hle. lia. }
    assert (Hpb : after p (eT b)).
    { destruct p as [q|]; simpl in *; auto. lra. }
    specialize (Hb a b (nth_error_In _ _ Ea) (nth_error_In _ _ Eb) Hpa Hpb Ha Hb'). lra.
  Qed.
End Count.

(** ** exact behaviour of one query, for an in-range counter *)
Section Query.
  Context {A : Type} (dflt : A).

  Definition wf (sc : sched A) : Prop :=
    increasing (items sc) /\ (items sc <> [] -> total sc = len (items sc)).
  Definition in_range (sc : sched A) : Prop :=
    (0 <= counter sc)%Z /\ (items sc <> [] -> (counter sc < len (items sc))%Z).

  (** what the counter value [c] makes a query at [t] return *)
  Lemma query_exact sc t :
    wf sc -> in_range sc -> items sc <> [] ->
    exists c, counter sc = Z.of_nat c /\ (c < length (items sc))%nat /\
    let l := items sc in
    ( (started l t = O /\ query_sched dflt sc t = (sc, Ok dflt))
    \/ ((0 < started l t <= c)%nat /\ exists e, nth_error l (c - 1) = Some e /\
        query_sched dflt sc t = (sc, Ok (eV e)))
    \/ ((c < started l t)%nat /\ exists e, nth_error l c = Some e /\
        query_sched dflt sc t =
        (Sched l (total sc) (Z.min (Z.of_nat (length l) - 1) (Z.of_nat c + 1)), Ok (eV e)))).
  Proof.
    intros [Hinc Htot] [Hc0 Hc1] Hne. specialize (Htot Hne). specialize (Hc1 Hne).
    exists (Z.to_nat (counter sc)). unfold len in *.
    assert (Hc : counter sc = Z.of_nat (Z.to_nat (counter sc))) by lia.
    set (c := Z.to_nat (counter sc)) in *. split; auto. split; [lia|]. cbv zeta.
    remember (items sc) as l eqn:Eitems.
    assert (Hcl : (c < length l)%nat) by lia.
    destruct (nth_error l c) as [ec|] eqn:Ec; [|apply nth_error_None in Ec; lia].
    unfold query_sched. rewrite <- Eitems. destruct l as [|e0 l'] eqn:El; [congruence|].
    assert (E0 : nth_error (e0 :: l') 0 = Some e0) by reflexivity.
    destruct (qlt t (eT e0)) eqn:Et; qb.
    - left. split; auto. simpl. destruct (qle (eT e0) t) eqn:E; auto. qb. lra.
    - right. assert (Hpos : (0 < started (e0 :: l') t)%nat)
        by (apply (started_nth (e0 :: l') t 0 e0); auto).
      rewrite Hc, (py_index_nat _ _ _ Ec).
      destruct (qlt t (eT ec)) eqn:Ec'; qb.
      + left. assert (Hle : (started (e0 :: l') t <= c)%nat).
        { destruct (le_lt_dec (started (e0 :: l') t) c); auto.
          apply (started_nth (e0 :: l') t c ec) in l0; auto. lra. }
        split; [lia|].
        destruct c as [|c']; [lia|].
        replace (S c' - 1)%nat with c' by lia.
        destruct (nth_error (e0 :: l') c') as [ep|] eqn:Ep;
          [|apply nth_error_None in Ep; lia].
        exists ep. split; auto.
        replace (1 <=? Z.of_nat (S c'))%Z with true by (symmetry; apply Z.leb_le; lia).
        replace (Z.of_nat (S c') - 1)%Z with (Z.of_nat c') by lia.
        rewrite (py_index_nat _ _ _ Ep). reflexivity.
      + right. assert (Hlt : (c < started (e0 :: l') t)%nat)
          by (apply (started_nth (e0 :: l') t c ec); auto).
        split; auto. exists ec. split; auto. simpl.
        assert (E : qle (eT ec) t = true) by (apply qle_iff; auto).
        rewrite E, Htot. reflexivity.
  Qed.

  Lemma query_empty sc t : items sc = [] -> query_sched dflt sc t = (sc, Ok dflt).
  Proof. intros H. unfold query_sched. rewrite H. reflexivity. Qed.

  (** queries never raise and preserve everything but the counter *)
  Lemma query_safe sc t :
    wf sc -> in_range sc ->
    let '(sc', r) := query_sched dflt sc t in
    is_ok r = true /\ items sc' = items sc /\ total sc' = total sc /\ in_range sc'.
  Proof.
    intros Hw Hr.
    assert (Hd : items sc = [] \/ items sc <> []) by (destruct (items sc); [left|right]; congruence).
    destruct Hd as [He|Hne].
    - rewrite query_empty; auto.
    - destruct (query_exact sc t Hw Hr Hne) as (c & Hc & Hcl & [[_ E]|[(_ & e & _ & E)|(_ & e & _ & E)]]);
        rewrite E; simpl; repeat split; auto; try apply Hr; auto; simpl; try lia.
      intros _. unfold len. lia.
  Qed.

  Lemma query_items sc t : items (fst (query_sched dflt sc t)) = items sc /\
                           total (fst (query_sched dflt sc t)) = total sc.
  Proof.
    unfold query_sched. destruct (items sc) eqn:E; [rewrite ?E; auto|].
    rewrite <- E.
    repeat match goal with
    | |- context [if ?b then _ else _] => destruct b
    | |- context [match py_index ?l ?i with _ => _ end] => destruct (py_index l i)
    end; simpl; rewrite ?E; auto.
  Qed.

  (** ** forward runs *)
  Fixpoint queries (sc : sched A) (ts : list Q) : list (res A) :=
    match ts with
    | [] => []
    | t :: ts' => snd (query_sched dflt sc t) :: queries (fst (query_sched dflt sc t)) ts'
    end.

  Definition synced (sc : sched A) (p : option Q) : Prop :=
    items sc <> [] ->
    counter sc = Z.min (len (items sc) - 1) (Z.of_nat (started_opt (items sc) p)).

  Lemma synced_in_range sc p : synced sc p -> (items sc = [] -> (0 <= counter sc)%Z) -> in_range sc.
  Proof.
    intros H H0. unfold in_range, synced in *.
    destruct (items sc) as [|e l] eqn:E.
    - split; [auto|congruence].
    - rewrite H by congruence. unfold len. simpl length. split; [|intros _]; lia.
  Qed.

  Lemma query_forward sc p t :
    wf sc -> synced sc p -> not_before p t -> at_most_one_boundary (items sc) p t ->
    exists v, snd (query_sched dflt sc t) = Ok v /\ scheduled dflt (items sc) t v /\
              synced (fst (query_sched dflt sc t)) (Some t) /\ wf (fst (query_sched dflt sc t)).
  Proof.
    intros Hw Hsy Hnb Hamb.
    assert (Hd : items sc = [] \/ items sc <> []) by (destruct (items sc); [left|right]; congruence).
    destruct Hd as [He|Hne].
    - rewrite query_empty by auto. simpl. exists dflt. repeat split; auto.
      + right. rewrite He. split; auto. intros e [].
      + intros Hn. congruence.
      + apply Hw.
      + apply Hw.
    - destruct Hw as [Hinc Htot] eqn:EHw. clear EHw.
      assert (Hr : in_range sc) by (eapply synced_in_range; eauto; intros; contradiction).
      assert (Hw' : wf sc) by (split; auto).
      pose proof (started_mono (items sc) p t Hinc Hnb) as Hm.
      pose proof (started_step (items sc) p t Hinc Hamb) as Hs.
      pose proof (started_le_length (items sc) t) as Hlen.
      specialize (Hsy Hne). unfold len in Hsy.
      assert (Hpos : (0 < length (items sc))%nat) by (destruct (items sc); simpl; [congruence|lia]).
      destruct (query_exact sc t Hw' Hr Hne) as (c & Hc & Hcl & [[Hk E]|[(Hk & e & He & E)|(Hk & e & He & E)]]);
        rewrite E; simpl.
      + exists dflt. repeat split; auto.
        * apply scheduled_started; auto.
        * intros _. simpl. rewrite Hsy. unfold len. lia.
      + exists (eV e). repeat split; auto.
        * apply scheduled_started; auto. right. exists (c - 1)%nat, e. split; auto. lia.
        * intros _. simpl. unfold len. rewrite Hc. lia.
      + exists (eV e). repeat split; auto.
        * apply scheduled_started; auto. right. exists c, e. split; auto. lia.
        * intros _. simpl. unfold len. lia.
  Qed.

  Lemma queries_forward ts : forall sc p,
    wf sc -> synced sc p -> forward (items sc) p ts ->
    Forall2 (fun t r => exists v, r = Ok v /\ scheduled dflt (items sc) t v) ts (queries sc ts).
  Proof.
    induction ts as [|t ts IH]; simpl; intros sc p Hw Hs Hf; [constructor|].
    destruct Hf as (Hnb & Hamb & Hf).
    destruct (query_forward sc p t Hw Hs Hnb Hamb) as (v & Hv & Hsch & Hs' & Hw').
    constructor; [eauto|].
    destruct (query_items sc t) as [Hi _]. rewrite <- Hi.
    rewrite <- Hi in Hf. apply (IH _ (Some t)); auto.
  Qed.

  (** a non-decreasing (possibly skipping) run never sees the future *)
  Definition behind (sc : sched A) (p : option Q) : Prop :=
    items sc <> [] -> (counter sc <= Z.of_nat (started_opt (items sc) p))%Z.

  Lemma query_no_future sc p t v :
    wf sc -> in_range sc -> behind sc p -> not_before p t ->
    snd (query_sched dflt sc t) = Ok v ->
    ((v = dflt) \/ exists e, In e (items sc) /\ eT e <= t /\ v = eV e) /\
    in_range (fst (query_sched dflt sc t)) /\ behind (fst (query_sched dflt sc t)) (Some t).
  Proof.
    intros Hw Hr Hb Hnb Hq.
    pose proof (query_safe sc t Hw Hr) as Hsafe.
    destruct (query_sched dflt sc t) as [sc' r] eqn:Eq. simpl in *. subst r.
    destruct Hsafe as (_ & Hi & _ & Hr').
    assert (Hd : items sc = [] \/ items sc <> []) by (destruct (items sc); [left|right]; congruence).
    destruct Hd as [He|Hne].
    - rewrite query_empty in Eq by auto. injection Eq as <- <-. repeat split; auto; try apply Hr.
      intros Hn. congruence.
    - destruct Hw as [Hinc Htot] eqn:EHw. clear EHw.
      assert (Hw' : wf sc) by (split; auto).
      pose proof (started_mono (items sc) p t Hinc Hnb) as Hm. specialize (Hb Hne).
      destruct (query_exact sc t Hw' Hr Hne) as (c & Hc & Hcl & [[Hk E]|[(Hk & e & He & E)|(Hk & e & He & E)]]);
        rewrite Eq in E; injection E as -> Ev.
      + split; auto. split; auto. intros _. simpl. lia.
      + split; [|split; auto; intros _; simpl; lia].
        right. exists e. split; [eapply nth_error_In; eauto|]. split; [|congruence].
        apply (started_nth (items sc) t (c - 1) e Hinc He). lia.
      + split; [|split; auto; intros _; simpl; lia].
        right. exists e. split; [eapply nth_error_In; eauto|]. split; [|congruence].
        apply (started_nth (items sc) t c e Hinc He). lia.
  Qed.

  Lemma queries_no_future ts : forall sc p,
    wf sc -> in_range sc -> behind sc p ->
    (fix mono p ts := match ts with [] => True | t :: ts' => not_before p t /\ mono (Some t) ts' end) p ts ->
    Forall2 (fun t r => exists v, r = Ok v /\
               (v = dflt \/ exists e, In e (items sc) /\ eT e <= t /\ v = eV e)) ts (queries sc ts).
  Proof.
    induction ts as [|t ts IH]; simpl; intros sc p Hw Hr Hb Hm; [constructor|].
    destruct Hm as [Hnb Hm].
    pose proof (query_safe sc t Hw Hr) as Hsafe.
    destruct (query_items sc t) as [Hi Ht].
    assert (Hv : exists v, snd (query_sched dflt sc t) = Ok v).
    { destruct (query_sched dflt sc t) as [sc' [v|x]]; simpl in *; [eauto|].
      destruct Hsafe as [Hs _]. discriminate. }
    destruct Hv as [v Hv].
    destruct (query_no_future sc p t v Hw Hr Hb Hnb Hv) as (Hval & Hr' & Hb').
    constructor; [eauto|]. rewrite <- Hi.
    apply (IH _ (Some t)); auto. destruct Hw as [Hinc Htot]. split; rewrite Hi, ?Ht; auto.
  Qed.

  (** repeating a query at a fixed time catches up *)
  Lemma query_catch_up n : forall sc t,
    wf sc -> in_range sc ->
    (forall c, counter sc = Z.of_nat c -> (c <= started (items sc) t <= S (c + n))%nat) ->
    exists v, last (queries sc (repeat t (S n))) (Raise ValueError) = Ok v /\
              scheduled dflt (items sc) t v.
  Proof.
    induction n as [|n IH]; intros sc t Hw Hr Hc.
    - simpl. assert (Hd : items sc = [] \/ items sc <> []) by (destruct (items sc); [left|right]; congruence).
      destruct Hd as [He|Hne].
      + rewrite query_empty by auto. exists dflt. split; auto. right. rewrite He. simpl. tauto.
      + destruct (query_exact sc t Hw Hr Hne) as (c & Hcc & Hcl & [[Hk E]|[(Hk & e & He & E)|(Hk & e & He & E)]]);
          specialize (Hc c Hcc); rewrite E; simpl.
        * exists dflt. split; auto. apply scheduled_started; [apply Hw|auto].
        * exists (eV e). split; auto. apply scheduled_started; [apply Hw|].
          right. exists (c - 1)%nat, e. split; auto. lia.
        * exists (eV e). split; auto. apply scheduled_started; [apply Hw|].
          right. exists c, e. split; auto. lia.
    - change (repeat t (S (S n))) with (t :: repeat t (S n)).
      assert (Hl : forall sc', queries sc' (repeat t (S n)) <> []) by (intros; simpl; congruence).
      cbn [queries].
      assert (Hd : items sc = [] \/ items sc <> []) by (destruct (items sc); [left|right]; congruence).
      destruct Hd as [He|Hne].
      + rewrite query_empty by auto. cbn [fst snd].
        destruct (IH sc t Hw Hr) as (v & Hv & Hs).
        { intros c Hcc. rewrite He. simpl. specialize (Hc c Hcc). rewrite He in Hc. simpl in Hc. lia. }
        exists v. split; [|assumption]. specialize (Hl sc). destruct (queries sc (repeat t (S n))); [congruence|auto].
      + pose proof (query_safe sc t Hw Hr) as Hsafe.
        destruct (query_exact sc t Hw Hr Hne) as (c & Hcc & Hcl & [[Hk E]|[(Hk & e & He & E)|(Hk & e & He & E)]]);
          specialize (Hc c Hcc); rewrite E in *; cbn [fst snd].
        * destruct (IH sc t Hw Hr) as (v & Hv & Hs).
          { intros c' Hc'. lia. }
          exists v. split; [|assumption]. specialize (Hl sc). destruct (queries sc (repeat t (S n))); [congruence|auto].
        * destruct (IH sc t Hw Hr) as (v & Hv & Hs).
          { intros c' Hc'. assert (c' = c) by lia. subst. lia. }
          exists v. split; [|assumption]. specialize (Hl sc). destruct (queries sc (repeat t (S n))); [congruence|auto].
        * match goal with |- context [queries ?x (repeat t (S n))] => set (sc' := x) in * end.
          destruct Hsafe as (_ & Hi & _ & Hr').
          destruct (IH sc' t) as (v & Hv & Hs).
          { unfold sc'; split; simpl; auto; apply Hw. }
          { exact Hr'. }
          { intros c' Hc'. unfold sc' in *. simpl in *.
            pose proof (started_le_length (items sc) t). lia. }
          exists v. split; [|assumption]. specialize (Hl sc'). destruct (queries sc' (repeat t (S n))); [congruence|auto].
  Qed.
End Query.
