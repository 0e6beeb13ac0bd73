(** Lemmas about dictionaries and raising loops. *)
From Verif Require Import Base ConfigValues.
Open Scope string_scope.

Lemma dget_dset_same {A} k (v : A) d : dget k (dset k v d) = Some v.
Proof.
  induction d as [|[k' v'] d IH]; cbn; [now rewrite String.eqb_refl|].
  destruct (String.eqb k k') eqn:E; cbn; rewrite E; auto.
Qed.
Lemma dget_dset_other {A} k k' (v : A) d : k <> k' -> dget k (dset k' v d) = dget k d.
Proof.
  intros N. induction d as [|[k2 v2] d IH]; cbn.
  - apply String.eqb_neq in N. now rewrite N.
  - destruct (String.eqb k' k2) eqn:E; cbn.
    + apply String.eqb_eq in E. subst. apply String.eqb_neq in N. now rewrite N.
    + destruct (String.eqb k k2); auto.
Qed.
Lemma dget_dset {A} k k' (v : A) d : dget k (dset k' v d) = if String.eqb k k' then Some v else dget k d.
Proof.
  destruct (String.eqb k k') eqn:E.
  - apply String.eqb_eq in E. subst. apply dget_dset_same.
  - apply String.eqb_neq in E. now apply dget_dset_other.
Qed.
Lemma dmem_dget {A} k (d : list (string * A)) : dmem k d = true <-> exists v, dget k d = Some v.
Proof. unfold dmem. destruct (dget k d); split; intros H; eauto; try discriminate. destruct H; discriminate. Qed.
Lemma dmem_false {A} k (d : list (string * A)) : dmem k d = false <-> dget k d = None.
Proof. unfold dmem. destruct (dget k d); split; intros H; auto; discriminate. Qed.
Lemma dget_In {A} k (d : list (string * A)) v : dget k d = Some v -> In (k, v) d.
Proof.
  induction d as [|[k' v'] d IH]; cbn; [discriminate|].
  destruct (String.eqb k k') eqn:E; intros H.
  - apply String.eqb_eq in E. injection H as ->. subst. now left.
  - right; auto.
Qed.
Lemma dget_In_nodup {A} k (d : list (string * A)) v : NoDup (map fst d) -> In (k, v) d -> dget k d = Some v.
Proof.
  induction d as [|[k' v'] d IH]; cbn; [contradiction|].
  intros N H. inversion N; subst. destruct H as [H | H].
  - injection H as -> ->. now rewrite String.eqb_refl.
  - destruct (String.eqb k k') eqn:E; auto.
    apply String.eqb_eq in E. subst. exfalso. apply H2. change k' with (fst (k', v)). now apply in_map.
Qed.
Lemma dget_key {A} k (d : list (string * A)) : In k (map fst d) <-> exists v, dget k d = Some v.
Proof.
  induction d as [|[k' v'] d IH]; cbn; [split; [tauto | intros [? H]; discriminate]|].
  destruct (String.eqb k k') eqn:E.
  - apply String.eqb_eq in E. subst. split; eauto.
  - apply String.eqb_neq in E. rewrite <- IH. split; [intros [H|H]; [congruence|auto] | auto].
Qed.
Lemma dget_nokey {A} k (d : list (string * A)) : ~ In k (map fst d) <-> dget k d = None.
Proof.
  rewrite dget_key. destruct (dget k d); split; intros H; auto; try discriminate.
  - exfalso; eauto. - intros [? ?]; discriminate.
Qed.
Lemma dget_app {A} k (d e : list (string * A)) :
  dget k (d ++ e)%list = match dget k d with Some v => Some v | None => dget k e end.
Proof. induction d as [|[k' v'] d IH]; cbn; auto. destruct (String.eqb k k'); auto. Qed.

Lemma dset_keys {A} k (v : A) d : map fst (dset k v d) = if dmem k d then map fst d else (map fst d ++ [k])%list.
Proof.
  induction d as [|[k' v'] d IH]; cbn; auto. unfold dmem in *. cbn.
  destruct (String.eqb k k') eqn:E; cbn; auto. rewrite IH. destruct (dget k d); auto.
Qed.

(** String membership, decided. *)
Definition instr (k : string) (l : list string) : bool := existsb (String.eqb k) l.
Lemma instr_iff k l : instr k l = true <-> In k l.
Proof.
  unfold instr. rewrite existsb_exists. split.
  - intros (x & H & E). apply String.eqb_eq in E. now subst.
  - intros H. exists k. split; auto. apply String.eqb_refl.
Qed.
Fixpoint nodupb (l : list string) : bool :=
  match l with [] => true | a :: r => negb (instr a r) && nodupb r end.
Lemma nodupb_iff l : nodupb l = true -> NoDup l.
Proof.
  induction l; cbn; [constructor|]. intros H. apply andb_true_iff in H as [H1 H2].
  constructor; auto. rewrite <- instr_iff. apply negb_true_iff in H1. congruence.
Qed.

(** Folding [dset] over named entries. *)
Lemma foldR_ok_inv {A B} (P : A -> Prop) (f : A -> B -> res A) l a a' :
  P a -> (forall x b y, In b l -> P x -> f x b = Ok y -> P y) -> foldR f a l = Ok a' -> P a'.
Proof.
  revert a. induction l as [|b l IH]; cbn; intros a Ha Hs H; [injection H as ->; auto|].
  destruct (f a b) as [x|] eqn:E; cbn in H; [|discriminate].
  eapply IH; [eapply Hs; eauto | | exact H]. intros; eapply Hs; eauto.
Qed.
Lemma foldR_app {A B} (f : A -> B -> res A) l1 l2 a :
  foldR f a (l1 ++ l2)%list = bindR (foldR f a l1) (fun x => foldR f x l2).
Proof. revert a. induction l1; cbn; intros; auto. destruct (f a0 a); cbn; auto. Qed.

(** The loop "for b in l: acc[key(b)] = g(b)" with distinct keys. *)
Section SetAll.
  Context {B : Type} (key : B -> string) (g : B -> res pv).
  Definition set_all (l : list B) (acc : dict) : res dict :=
    foldR (fun acc b => do v <- g b; Ok (dset (key b) v acc)) acc l.
  Lemma set_all_ok l : NoDup (map key l) -> forall acc d, set_all l acc = Ok d ->
    (forall b, In b l -> exists v, g b = Ok v /\ dget (key b) d = Some v) /\
    (forall p, ~ In p (map key l) -> dget p d = dget p acc).
  Proof.
    induction l as [|n l IH]; intros N acc d H.
    - injection H as ->. split; [intros ? []|auto].
    - cbn in N. inversion N; subst. unfold set_all in H. cbn in H.
      destruct (g n) as [v|] eqn:Ev; cbn in H; [|discriminate].
      destruct (IH H3 _ _ H) as [H4 H5]. split; [intros b [<- | Hb]; eauto | intros p Hp].
      + exists v. split; auto. rewrite H5 by auto. apply dget_dset_same.
      + cbn in Hp. rewrite H5 by tauto. apply dget_dset_other. intros ->. apply Hp. now left.
  Qed.
  Lemma set_all_raise l : forall acc e, set_all l acc = Raise e ->
    exists b, In b l /\ g b = Raise e.
  Proof.
    unfold set_all. induction l as [|n l IH]; cbn; intros acc e H; [discriminate|].
    destruct (g n) as [v|] eqn:Ev; cbn in H; [|injection H as ->; exists n; auto].
    apply IH in H as (p & ? & ?). eauto.
  Qed.
End SetAll.

Lemma mem_complete t : forall cfg k, dget k
   (fold_left (fun c (kv : string * pv) => if dmem (fst kv) c then c else dset (fst kv) (VDict []) c) t cfg) =
   match dget k cfg with Some v => Some v
   | None => if instr k (map fst t) then Some (VDict []) else None end.
Proof.
  induction t as [|[k0 v0] t IH]; intros cfg k; cbn [fold_left map fst instr existsb].
  - destruct (dget k cfg); auto.
  - rewrite IH. destruct (dmem k0 cfg) eqn:E.
    + destruct (dget k cfg) eqn:Ek; auto. cbn. destruct (String.eqb k k0) eqn:E0; cbn; auto.
      apply String.eqb_eq in E0. subst. apply dmem_dget in E as [? E]. congruence.
    + rewrite dget_dset. destruct (String.eqb k k0) eqn:E0; cbn.
      * apply String.eqb_eq in E0. subst. apply dmem_false in E. now rewrite E.
      * destruct (dget k cfg); auto.
Qed.
