(** Loop-mode histories: the invariant behind C55, C56 and C75. *)
From Coq Require Import String.
From Verif Require Import Base EventsModel SimModel SimLemmas SimSpec SimProofs.
Open Scope string_scope.

Definition flat {V} (a : arr V) : list V := match a with A0 v => [v] | A1 l => l end.
Lemma flat_append {V} (a : arr V) l : a_append a l = A1 (flat a ++ l)%list.
Proof. destruct a; reflexivity. Qed.

Lemma aset_eq {V} k (v : arr V) a : aset k v a k = Some v.
Proof. unfold aset. now rewrite String.eqb_refl. Qed.
Lemma aset_neq {V} k k' (v : arr V) a : k <> k' -> aset k v a k' = a k'.
Proof. intros H. unfold aset. destruct (String.eqb k k') eqn:E; auto. apply String.eqb_eq in E. contradiction. Qed.
Lemma under_inj k k' : under k = under k' -> k = k'.
Proof. unfold under. simpl. intros [= H]. exact H. Qed.

Lemma append_all_ok {V} l : NoDup l -> (forall k k', In k l -> In k' l -> under k <> k') ->
  forall a : attrs V, (forall k, In k l -> exists u x, a (under k) = Some u /\ a k = Some (A1 x)) ->
  exists a', append_all l a = Ok a' /\
    (forall k u x, In k l -> a (under k) = Some u -> a k = Some (A1 x) ->
       a' (under k) = Some (a_append u (tl x))) /\
    (forall y, ~ In y (List.map under l) -> a' y = a y).
Proof.
  induction l as [|k l IH]; intros ND Hu a Ha.
  - exists a. simpl. repeat split; auto. intros ? ? ? [].
  - inversion ND as [|? ? Hk ND']; subst.
    destruct (Ha k) as (u & x & Eu & Ex); [now left|].
    assert (E1 : append1 k a = Ok (aset (under k) (a_append u (tl x)) a)).
    { unfold append1, aget. rewrite Eu, Ex. reflexivity. }
    destruct (IH ND') with (a := aset (under k) (a_append u (tl x)) a) as (a' & X & H1 & H2).
    + intros; apply Hu; simpl; auto.
    + intros k' Hk'. destruct (Ha k') as (u' & x' & Eu' & Ex'); [now right|].
      exists u', x'. rewrite !aset_neq; auto.
      * apply Hu; simpl; auto.
      * intros C. apply under_inj in C. subst. contradiction.
    + exists a'. cbn [append_all]. rewrite E1. cbn [bindR]. split; auto. split.
      * intros k' u' x' [<-|Hk'] Eu' Ex'.
        -- assert (u' = u) as -> by congruence. assert (x' = x) as -> by congruence.
           rewrite H2. { apply aset_eq. } intros C. apply in_map_iff in C.
           destruct C as (k2 & C & Hk2). apply under_inj in C. subst. contradiction.
        -- apply H1; auto; rewrite aset_neq; auto.
           ++ intros C. apply under_inj in C. subst. contradiction.
           ++ apply Hu; simpl; auto.
      * intros y Hy. rewrite H2, aset_neq; auto; intros C; apply Hy; simpl; auto.
Qed.

Lemma invert_ok {V} l : (forall k k', In k l -> In k' l -> under k <> k') ->
  forall a : attrs V, (forall k, In k l -> exists u, a (under k) = Some u) ->
  exists a', invert_steps l a = (a', Ok tt) /\
    (forall k, In k l -> a' k = a (under k)) /\ (forall y, ~ In y l -> a' y = a y).
Proof.
  induction l as [|k l IH]; intros Hu a Ha.
  - exists a. simpl. repeat split; auto. intros ? [].
  - destruct (Ha k) as (u & Eu); [now left|].
    assert (E1 : invert1 k a = Ok (aset k u a)) by (unfold invert1, aget; now rewrite Eu).
    destruct IH with (a := aset k u a) as (a' & X & H1 & H2).
    + intros; apply Hu; simpl; auto.
    + intros k' Hk'. destruct (Ha k') as (u' & Eu'); [now right|]. exists u'. rewrite aset_neq; auto.
      intros C. symmetry in C. revert C. apply Hu; simpl; auto.
    + exists a'. cbn [invert_steps]. rewrite E1. split; auto. split.
      * intros k' [<-|Hk'].
        -- destruct (in_dec string_dec k l) as [Hi|Hi].
           ++ rewrite H1 by auto. apply aset_neq. intros C. symmetry in C. revert C. apply Hu; simpl; auto.
           ++ rewrite H2 by auto. rewrite aset_eq. congruence.
        -- rewrite H1 by auto. apply aset_neq. intros C. symmetry in C. revert C. apply Hu; simpl; auto.
      * intros y Hy. rewrite H2, aset_neq; auto; intros C; apply Hy; simpl; auto.
Qed.

(** Facts about the attribute lists, by computation. *)
Definition nodupb (l : list string) : bool :=
  (fix go l := match l with [] => true | x :: r => negb (inb x r) && go r end) l.
Lemma nodupb_ok l : nodupb l = true -> NoDup l.
Proof.
  induction l as [|x l IH]; simpl; intros H; constructor; apply andb_true_iff in H; destruct H as [H1 H2].
  - apply not_inb. now destruct (inb x l).
  - auto.
Qed.
Lemma append_nodup m : NoDup (append_list m).
Proof. apply nodupb_ok. destruct m; reflexivity. Qed.
Lemma forallb_sub l l' : forallb (fun k => inb k l') l = true -> forall k, In k l -> In k l'.
Proof. intros H k Hk. rewrite forallb_forall in H. apply inb_In. auto. Qed.
Lemma append_invert m k : In k (append_list m) <-> In k (invert_list m).
Proof. split; revert k; apply forallb_sub; destruct m; reflexivity. Qed.
Lemma traj_append m k : In k (traj_list m) -> In k (append_list m).
Proof. revert k; apply forallb_sub; destruct m; reflexivity. Qed.
Lemma reset_append m k : In k (List.map fst (reset_list m)) <-> In k (append_list m).
Proof. split; revert k; apply forallb_sub; destruct m; reflexivity. Qed.
Lemma traj_names m k : In k (traj_list m) <-> In k (spec_names m).
Proof. split; revert k; apply forallb_sub; destruct m; reflexivity. Qed.
Lemma append_head m k : In k (append_list m) -> String.prefix "_" k = false.
Proof.
  revert k. apply Forall_forall.
  assert (H : forallb (fun k => negb (String.prefix "_" k)) (append_list m) = true) by (destruct m; reflexivity).
  rewrite forallb_forall in H. apply Forall_forall. intros k Hk. specialize (H k Hk).
  now destruct (String.prefix "_" k).
Qed.
Lemma under_prefix k : String.prefix "_" (under k) = true.
Proof. unfold under. simpl. destruct k; reflexivity. Qed.
Lemma append_under m k k' : In k (append_list m) -> In k' (append_list m) -> under k <> k'.
Proof. intros _ H C. subst. apply append_head in H. rewrite under_prefix in H. discriminate. Qed.

(** The state attributes. *)
Definition state_attr (x : string) : string := (x ++ "_t")%string.
Lemma state_attrs m : m <> MThree -> sim_y0_attrs m = List.map state_attr (spec_states m).
Proof. destruct m; intros H; try reflexivity. contradiction. Qed.
Lemma state_attrs3 : sim_y0_attrs MThree = (List.map state_attr (firstn 23 (spec_states MThree)) ++ ["Vrms_filter"])%list.
Proof. reflexivity. Qed.
Lemma spec_states_len m : List.length (spec_states m) = n_ODE m.
Proof. destruct m; reflexivity. Qed.

Lemma all_check_states {V} (o : ops V) m d g kn :
  check_all (n_ODE m) [] (all_steps o m d g) = Some kn ->
  forall k, In k (List.map state_attr (spec_states m)) -> In k kn.
Proof.
  unfold all_steps, ft_steps, ft_v, cs_steps. destruct m, (d_alone d); cbn [is_three three_phases];
  (intros H; injection H as <-); apply forallb_sub; reflexivity.
Qed.
Lemma cs_check_states {V} (o : ops V) m vdc kn :
  check_all (n_ODE m) [] (cs_steps o m vdc) = Some kn ->
  forall k, In k (List.map state_attr (spec_states m)) -> In k kn.
Proof.
  unfold cs_steps. destruct m;
  (intros H; injection H as <-); apply forallb_sub; reflexivity.
Qed.
Definition iy_attr (m : mtype) (x : string) : string :=
  match m with MThree => if String.eqb x "Vrms_filter" then x else state_attr x | _ => state_attr x end.
Lemma iy_attrs m : sim_y0_attrs m = List.map (iy_attr m) (spec_states m).
Proof. destruct m; reflexivity. Qed.
Lemma iy_check_states {V} (o : ops V) m vdc kn :
  check_all (n_ODE m) [] (iy_steps o m vdc) = Some kn ->
  forall k, In k (sim_y0_attrs m) -> In k kn.
Proof.
  unfold iy_steps. destruct m;
  (intros H; injection H as <-); apply forallb_sub; reflexivity.
Qed.

Lemma in_index {A} (l : list A) i x : nth_error l i = Some x -> (i < List.length l)%nat.
Proof. intros H. apply nth_error_Some. congruence. Qed.

Ltac all_index :=
  match goal with
  | |- forall i x, nth_error ?l i = Some x -> _ =>
    let i := fresh "i" in let x := fresh "x" in let H := fresh "H" in
    intros i x H; do 24 (destruct i as [|i]; [injection H as <-; reflexivity|]);
    try discriminate H
  end.

Lemma state_sample {V} (o : ops V) m d g t r : List.length r = n_ODE m ->
  forall i x, nth_error (spec_states m) i = Some x ->
  sexec_all o t (Some r) (all_steps o m d g) (fun _ => None) (state_attr x) = nth_error r i.
Proof.
  intros Hr. unfold all_steps, ft_steps, ft_v, cs_steps, state_attr.
  destruct m;
  (repeat (destruct r as [|? r]; try discriminate Hr)); clear Hr;
  (destruct (d_alone d);
   intros i x H; repeat (destruct i as [|i]; [injection H as <-; reflexivity|]); destruct i; discriminate H).
Qed.
Lemma cs_sample {V} (o : ops V) m vdc t r : List.length r = n_ODE m ->
  forall i x, nth_error (spec_states m) i = Some x ->
  sexec_all o t (Some r) (cs_steps o m vdc) (fun _ => None) (state_attr x) = nth_error r i.
Proof.
  intros Hr. unfold cs_steps, state_attr.
  destruct m;
  (repeat (destruct r as [|? r]; try discriminate Hr)); clear Hr;
   intros i x H; repeat (destruct i as [|i]; [injection H as <-; reflexivity|]); destruct i; discriminate H.
Qed.
Lemma iy_sample {V} (o : ops V) m vdc t r : List.length r = n_ODE m ->
  forall i x, nth_error (sim_y0_attrs m) i = Some x ->
  sexec_all o t (Some r) (iy_steps o m vdc) (fun _ => None) x = nth_error r i.
Proof.
  intros Hr. unfold iy_steps.
  destruct m;
  (repeat (destruct r as [|? r]; try discriminate Hr)); clear Hr;
   intros i x H; repeat (destruct i as [|i]; [injection H as <-; reflexivity|]); destruct i; discriminate H.
Qed.
