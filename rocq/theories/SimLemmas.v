(** Lemmas about SimModel: the statements that build the stored series act
    sample by sample.  [sexec] is the meaning of a statement on one sample; a
    boolean checker [check] decides (on the statement lists of the model) that
    every operand is available, and [exec_all_sound] shows that the array
    statements then succeed and compute [sexec] at every index. *)
From Coq Require Import String.
From Verif Require Import Base EventsModel SimModel.
Open Scope string_scope.

Section Sample.
Context {V : Type}.

Definition env := string -> option V.
Definition eupd (k : string) (v : option V) (E : env) : env :=
  fun k' => if String.eqb k k' then v else E k'.
Definition o1 (f : V -> V) (x : option V) : option V :=
  match x with Some a => Some (f a) | None => None end.
Definition o2 (f : V -> V -> V) (x y : option V) : option V :=
  match x, y with Some a, Some b => Some (f a b) | _, _ => None end.
Definition o3 (f : V -> V -> V -> V) (x y z : option V) : option V :=
  match x, y, z with Some a, Some b, Some c => Some (f a b c) | _, _, _ => None end.

(** One sample: [tj] the time, [rj] the row of the solution. *)
Definition sexec (o : ops V) (tj : option Q) (rj : option (list V)) (st : step V) (E : env) : env :=
  match st with
  | SCol k i => eupd k (match rj with Some r => nth_error r i | None => None end) E
  | SVdc k v _ => eupd k (Some v) E
  | SRot kR kI rot nR nI =>
      let x := o2 (o_cx o) (E nR) (E nI) in
      eupd kI (o1 (fun v => o_im o (rot v)) x) (eupd kR (o1 (fun v => o_re o (rot v)) x) E)
  | S1 k f x => eupd k (o1 f (E x)) E
  | S2 k f x y => eupd k (o2 f (E x) (E y)) E
  | S3 k f x y z => eupd k (o3 f (E x) (E y) (E z)) E
  | SPow3 k va ia vb ib vc ic =>
      eupd k (o2 (o_add o) (o2 (o_add o) (o2 (o_pw o) (E va) (E ia)) (o2 (o_pw o) (E vb) (E ib)))
                 (o2 (o_pw o) (E vc) (E ic))) E
  | SGrid k f => eupd k (match tj with Some t => Some (f t) | None => None end) E
  | SRep k v => eupd k (Some v) E
  | SPpv k x => eupd k (match tj with Some t => o1 (o_ppv o t) (E x) | None => None end) E
  | SLen _ => E
  end.

Fixpoint sexec_all (o : ops V) (tj : option Q) (rj : option (list V)) (l : list (step V)) (E : env)
  : env :=
  match l with [] => E | st :: l' => sexec_all o tj rj l' (sexec o tj rj st E) end.

Definition inb (k : string) (l : list string) : bool := existsb (String.eqb k) l.

Definition check (nrow : nat) (known : list string) (st : step V) : option (list string) :=
  match st with
  | SCol k i => if Nat.ltb i nrow then Some (k :: known) else None
  | SVdc k _ x => if inb x known then Some (k :: known) else None
  | SRot kR kI _ nR nI => if inb nR known && inb nI known then Some (kI :: kR :: known) else None
  | S1 k _ x => if inb x known then Some (k :: known) else None
  | S2 k _ x y => if inb x known && inb y known then Some (k :: known) else None
  | S3 k _ x y z => if inb x known && inb y known && inb z known then Some (k :: known) else None
  | SPow3 k va ia vb ib vc ic =>
      if inb va known && inb ia known && (inb vb known && inb ib known)
         && (inb vc known && inb ic known) then Some (k :: known) else None
  | SGrid k _ => Some (k :: known)
  | SRep k _ => Some (k :: known)
  | SPpv k x => if inb x known then Some (k :: known) else None
  | SLen ks => if forallb (fun k => inb k known) ks then Some known else None
  end.

Fixpoint check_all (nrow : nat) (known : list string) (l : list (step V)) : option (list string) :=
  match l with
  | [] => Some known
  | st :: l' => match check nrow known st with Some k' => check_all nrow k' l' | None => None end
  end.

(** Attributes written by a statement. *)
Definition writes (st : step V) : list string :=
  match st with
  | SCol k _ | SVdc k _ _ | S1 k _ _ | S2 k _ _ _ | S3 k _ _ _ _ | SPow3 k _ _ _ _ _ _
  | SGrid k _ | SRep k _ | SPpv k _ => [k]
  | SRot kR kI _ _ _ => [kR; kI]
  | SLen _ => []
  end.

(** [x] holds a series of [n] samples given by [E]. *)
Definition holds (n : nat) (a : attrs V) (E : nat -> env) (x : string) : Prop :=
  exists l, a x = Some (A1 l) /\ List.length l = n /\
            forall j, (j < n)%nat -> nth_error l j = E j x.

Lemma inb_In k l : inb k l = true <-> In k l.
Proof.
  unfold inb. rewrite existsb_exists. split.
  - intros (x & Hx & He). apply String.eqb_eq in He. now subst.
  - intros H. exists k. split; auto. apply String.eqb_refl.
Qed.

Lemma nth_error_map2 {A B C} (f : A -> B -> C) l : forall l' j,
  nth_error (map2 f l l') j =
  match nth_error l j, nth_error l' j with Some x, Some y => Some (f x y) | _, _ => None end.
Proof.
  induction l as [|a l IH]; intros [|b l'] [|j]; simpl; auto.
  all: try (destruct (nth_error l j); reflexivity).
Qed.
Lemma length_map2 {A B C} (f : A -> B -> C) l : forall l',
  List.length l = List.length l' -> List.length (map2 f l l') = List.length l.
Proof. induction l as [|a l IH]; intros [|b l']; simpl; intros H; try discriminate; auto. Qed.

Lemma mapM_spec {A B} (f : A -> res B) : forall l,
  (forall x, In x l -> exists y, f x = Ok y) ->
  exists r, mapM f l = Ok r /\ List.length r = List.length l /\
  forall j x, nth_error l j = Some x -> exists y, nth_error r j = Some y /\ f x = Ok y.
Proof.
  induction l as [|a l IH]; simpl; intros H.
  - exists []. repeat split; auto. intros [|j]; discriminate.
  - destruct (H a) as [b Hb]; auto. destruct IH as (r & Hr & Hlen & Hn); auto.
    rewrite Hb. simpl. rewrite Hr. simpl. exists (b :: r). repeat split; simpl; auto.
    intros [|j] x; simpl; auto. intros [= <-]. eauto.
Qed.

Definition set_ok (n : nat) (a : attrs V) (E : nat -> env) (known : list string) (k : string)
  (l : list V) (v : nat -> option V) : Prop :=
  List.length l = n -> (forall j, (j < n)%nat -> nth_error l j = v j) ->
  forall x, In x (k :: known) ->
  holds n (aset k (A1 l) a) (fun j => eupd k (v j) (E j)) x.

Lemma set_ok_intro n a E known k l v :
  (forall x, In x known -> holds n a E x) -> set_ok n a E known k l v.
Proof.
  intros H Hl Hv x Hx. unfold holds, aset, eupd. destruct (String.eqb k x) eqn:Ek.
  - exists l. auto.
  - destruct Hx as [->|Hx]; [rewrite String.eqb_refl in Ek; discriminate|].
    destruct (H x Hx) as (l0 & ? & ? & ?). exists l0. auto.
Qed.

Lemma b2_ok n (a : attrs V) (E : nat -> env) f x y lx ly :
  a x = Some (A1 lx) -> a y = Some (A1 ly) -> List.length lx = n -> List.length ly = n ->
  (forall j, (j < n)%nat -> nth_error lx j = E j x) ->
  (forall j, (j < n)%nat -> nth_error ly j = E j y) ->
  b2 f (A1 lx) (A1 ly) = Ok (A1 (map2 f lx ly)) /\ List.length (map2 f lx ly) = n /\
  forall j, (j < n)%nat -> nth_error (map2 f lx ly) j = o2 f (E j x) (E j y).
Proof.
  intros Hx Hy Lx Ly Nx Ny. simpl. rewrite Lx, Ly, Nat.eqb_refl. repeat split.
  - rewrite length_map2; congruence.
  - intros j Hj. rewrite nth_error_map2, Nx, Ny by auto. reflexivity.
Qed.

Lemma ppv_ok o : forall ts vs, List.length vs = List.length ts ->
  exists r, ppv_loop (V:=V) o ts vs = Ok r /\ List.length r = List.length ts /\
  forall j, nth_error r j =
    match nth_error ts j with Some t => o1 (o_ppv o t) (nth_error vs j) | None => None end.
Proof.
  induction ts as [|t ts IH]; intros [|v vs]; simpl; intros H; try discriminate.
  - exists []. repeat split; auto. intros [|j]; reflexivity.
  - destruct (IH vs) as (r & Hr & Hl & Hn); [congruence|]. rewrite Hr. simpl.
    exists (o_ppv o t v :: r). repeat split; simpl; auto. intros [|j]; simpl; auto.
Qed.

Lemma nth_error_repeat (v : V) n j : (j < n)%nat -> nth_error (repeat v n) j = Some v.
Proof. revert j. induction n as [|n IH]; intros [|j] H; simpl; try lia; auto. apply IH. lia. Qed.

Lemma nth_error_lt {A} (l : list A) j : (j < List.length l)%nat -> exists x, nth_error l j = Some x.
Proof. intros H. destruct (nth_error l j) eqn:E; eauto. apply nth_error_None in E. lia. Qed.

Ltac kn H :=
  match goal with
  | Hk : inb ?x ?kn = true |- _ =>
    let l := fresh "l" in let e := fresh "e" in let L := fresh "L" in let N := fresh "N" in
    apply inb_In in Hk; destruct (H x Hk) as (l & e & L & N); clear Hk; rewrite ?e
  end.

Theorem exec_sound o ts sol n nrow st a E known known' :
  List.length ts = n \/ (forall k f, st <> SGrid k f) /\ (forall k v, st <> SRep k v) /\ (forall k x, st <> SPpv k x) ->
  List.length sol = n -> (forall r, In r sol -> List.length r = nrow) ->
  (forall x, In x known -> holds n a E x) ->
  check nrow known st = Some known' ->
  exists a', exec o ts sol st a = Ok a' /\
    (forall x, In x known' ->
       holds n a' (fun j => sexec o (nth_error ts j) (nth_error sol j) st (E j)) x) /\
    (forall x, ~ In x (writes st) -> a' x = a x).
Proof.
  intros Hts Hsol Hrow H.
  assert (Fr : forall k (v : arr V) x, ~ In x [k] -> aset k v a x = a x).
  { intros k v x Hx. unfold aset. destruct (String.eqb k x) eqn:Ek; auto.
    apply String.eqb_eq in Ek. subst. exfalso. apply Hx. now left. }
  destruct st as [k i|k v x|kR kI rot nR nI|k f x|k f x y|k f x y z|k va ia vb ib vc ic|k f|k v|k x|ks];
    cbn [check exec sexec writes]; unfold aget.
  - (* SCol *)
    destruct (Nat.ltb i nrow) eqn:Ei; [|discriminate]. intros [= <-]. apply Nat.ltb_lt in Ei.
    destruct (mapM_spec (fun r => match nth_error r i with Some v => Ok v | None => Raise IndexError end) sol)
      as (c & Hc & Hl & Hn).
    { intros r Hr. destruct (nth_error_lt r i) as [v Hv]; [rewrite (Hrow r Hr); auto|]. rewrite Hv. eauto. }
    unfold col. rewrite Hc. simpl. eexists; split; [reflexivity|]. split.
    + apply (set_ok_intro n a E known k c (fun j => match nth_error sol j with Some r => nth_error r i | None => None end) H); [congruence|].
      intros j Hj. destruct (nth_error_lt sol j) as [r Hr]; [lia|]. rewrite Hr.
      destruct (Hn j r Hr) as (y & Hy & Hf). rewrite Hy.
      destruct (nth_error r i); [congruence|discriminate].
    + intros x Hx. now apply Fr.
  - (* SVdc *)
    destruct (inb x known) eqn:Ex; [|discriminate]. intros [= <-]. kn H. simpl.
    eexists; split; [reflexivity|]. split.
    + rewrite L. apply (set_ok_intro n a E known k (repeat v n) (fun _ => Some v) H).
      * apply repeat_length. * intros j Hj. now apply nth_error_repeat.
    + intros y Hy. now apply Fr.
  - (* SRot *)
    destruct (inb nR known) eqn:Er; [|discriminate]. destruct (inb nI known) eqn:Ei; [|discriminate].
    intros [= <-]. apply inb_In in Er. apply inb_In in Ei.
    destruct (H nR Er) as (lr & er & Lr & Nr). destruct (H nI Ei) as (li & ei & Li & Ni).
    rewrite er, ei. cbn [bindR].
    destruct (b2_ok n a E (o_cx o) nR nI lr li) as (B & BL & BN); auto. rewrite B. cbn [bindR b1].
    eexists; split; [reflexivity|]. split.
    + set (w := fun j => o2 (o_cx o) (E j nR) (E j nI)) in *.
      assert (H1 : forall x, In x (kR :: known) ->
        holds n (aset kR (A1 (List.map (fun v => o_re o (rot v)) (map2 (o_cx o) lr li))) a)
          (fun j => eupd kR (o1 (fun v => o_re o (rot v)) (w j)) (E j)) x).
      { apply (set_ok_intro n a E known kR _ (fun j => o1 (fun v => o_re o (rot v)) (w j)) H).
        - now rewrite map_length.
        - intros j Hj. rewrite nth_error_map, BN by auto. fold (w j). destruct (w j); reflexivity. }
      intros x Hx.
      apply (set_ok_intro n _ _ (kR :: known) kI
               (List.map (fun v => o_im o (rot v)) (map2 (o_cx o) lr li))
               (fun j => o1 (fun v => o_im o (rot v)) (w j)) H1).
      * now rewrite map_length.
      * intros j Hj. rewrite nth_error_map, BN by auto. fold (w j). destruct (w j); reflexivity.
      * exact Hx.
    + intros x Hx. unfold aset. destruct (String.eqb kI x) eqn:E1.
      { apply String.eqb_eq in E1. subst. exfalso. apply Hx. right. now left. }
      destruct (String.eqb kR x) eqn:E2; auto.
      apply String.eqb_eq in E2. subst. exfalso. apply Hx. now left.
  - (* S1 *)
    destruct (inb x known) eqn:Ex; [|discriminate]. intros [= <-]. kn H. simpl.
    eexists; split; [reflexivity|]. split.
    + apply (set_ok_intro n a E known k (List.map f l) (fun j => o1 f (E j x)) H).
      * now rewrite map_length.
      * intros j Hj. rewrite nth_error_map, N by auto. destruct (E j x); reflexivity.
    + intros y Hy. now apply Fr.
  - (* S2 *)
    destruct (inb x known) eqn:Ex; [|discriminate]. destruct (inb y known) eqn:Ey; [|discriminate].
    intros [= <-]. apply inb_In in Ex. apply inb_In in Ey.
    destruct (H x Ex) as (lx & ex & Lx & Nx). destruct (H y Ey) as (ly & ey & Ly & Ny).
    rewrite ex, ey. cbn [bindR].
    destruct (b2_ok n a E f x y lx ly) as (B & BL & BN); auto. rewrite B. cbn [bindR].
    eexists; split; [reflexivity|]. split.
    + apply (set_ok_intro n a E known k _ (fun j => o2 f (E j x) (E j y)) H); auto.
    + intros q Hq. now apply Fr.
  - (* S3 *)
    destruct (inb x known) eqn:Ex; [|discriminate]. destruct (inb y known) eqn:Ey; [|discriminate].
    destruct (inb z known) eqn:Ez; [|discriminate].
    intros [= <-]. apply inb_In in Ex. apply inb_In in Ey. apply inb_In in Ez.
    destruct (H x Ex) as (lx & ex & Lx & Nx). destruct (H y Ey) as (ly & ey & Ly & Ny).
    destruct (H z Ez) as (lz & ez & Lz & Nz).
    rewrite ex, ey, ez. cbn [bindR b3]. rewrite Lx, Ly, Lz, Nat.eqb_refl. cbn [andb bindR].
    eexists; split; [reflexivity|]. split.
    + apply (set_ok_intro n a E known k _ (fun j => o3 f (E j x) (E j y) (E j z)) H).
      * rewrite length_map2; rewrite length_map2; congruence.
      * intros j Hj. rewrite nth_error_map2, nth_error_map2, Nx, Ny, Nz by auto.
        destruct (E j x), (E j y), (E j z); reflexivity.
    + intros q Hq. now apply Fr.
  - (* SPow3 *)
    destruct (inb va known) eqn:E1; [|discriminate]. destruct (inb ia known) eqn:E2; [|discriminate].
    destruct (inb vb known) eqn:E3; [|discriminate]. destruct (inb ib known) eqn:E4; [|discriminate].
    destruct (inb vc known) eqn:E5; [|discriminate]. destruct (inb ic known) eqn:E6; [|discriminate].
    intros [= <-].
    apply inb_In in E1. apply inb_In in E2. apply inb_In in E3. apply inb_In in E4. apply inb_In in E5. apply inb_In in E6.
    destruct (H va E1) as (l1 & e1 & L1 & N1). destruct (H ia E2) as (l2 & e2 & L2 & N2).
    destruct (H vb E3) as (l3 & e3 & L3 & N3). destruct (H ib E4) as (l4 & e4 & L4 & N4).
    destruct (H vc E5) as (l5 & e5 & L5 & N5). destruct (H ic E6) as (l6 & e6 & L6 & N6).
    rewrite e1, e2, e3, e4, e5, e6. cbn [bindR].
    destruct (b2_ok n a E (o_pw o) va ia l1 l2) as (B1 & BL1 & BN1); auto. rewrite B1. cbn [bindR].
    destruct (b2_ok n a E (o_pw o) vb ib l3 l4) as (B2 & BL2 & BN2); auto. rewrite B2. cbn [bindR].
    cbn [b2]. rewrite BL1, BL2, Nat.eqb_refl. cbn [bindR].
    destruct (b2_ok n a E (o_pw o) vc ic l5 l6) as (B3 & BL3 & BN3); auto.
    cbn [b2] in B3. rewrite B3. cbn [bindR].
    assert (BL4 : List.length (map2 (o_add o) (map2 (o_pw o) l1 l2) (map2 (o_pw o) l3 l4)) = n)
      by (rewrite length_map2; congruence).
    cbn [b2]. rewrite BL4, BL3, Nat.eqb_refl. cbn [bindR].
    eexists; split; [reflexivity|]. split.
    + apply (set_ok_intro n a E known k _
        (fun j => o2 (o_add o) (o2 (o_add o) (o2 (o_pw o) (E j va) (E j ia)) (o2 (o_pw o) (E j vb) (E j ib)))
                 (o2 (o_pw o) (E j vc) (E j ic))) H).
      * rewrite length_map2; congruence.
      * intros j Hj. rewrite nth_error_map2, nth_error_map2, BN1, BN2, BN3 by auto. 
        destruct (o2 (o_pw o) (E j va) (E j ia)), (o2 (o_pw o) (E j vb) (E j ib)),
          (o2 (o_pw o) (E j vc) (E j ic)); reflexivity.
    + intros q Hq. now apply Fr.
  - (* SGrid *)
    intros [= <-]. destruct Hts as [Hts|[C _]]; [|exfalso; now apply (C k f)].
    eexists; split; [reflexivity|]. split.
    + apply (set_ok_intro n a E known k (List.map f ts)
        (fun j => match nth_error ts j with Some t => Some (f t) | None => None end) H).
      * now rewrite map_length.
      * intros j Hj. rewrite nth_error_map. destruct (nth_error ts j); reflexivity.
    + intros q Hq. now apply Fr.
  - (* SRep *)
    intros [= <-]. destruct Hts as [Hts|(_ & C & _)]; [|exfalso; now apply (C k v)].
    eexists; split; [reflexivity|]. split.
    + apply (set_ok_intro n a E known k (repeat v (List.length ts)) (fun _ => Some v) H).
      * rewrite repeat_length. auto.
      * intros j Hj. rewrite Hts. now apply nth_error_repeat.
    + intros q Hq. now apply Fr.
  - (* SPpv *)
    destruct (inb x known) eqn:Ex; [|discriminate]. intros [= <-].
    destruct Hts as [Hts|(_ & _ & C)]; [|exfalso; now apply (C k x)].
    kn H. cbn [bindR]. destruct (ppv_ok o ts l) as (r & Hr & Hl & Hn); [congruence|].
    rewrite Hr. cbn [bindR]. eexists; split; [reflexivity|]. split.
    + apply (set_ok_intro n a E known k r
        (fun j => match nth_error ts j with Some t => o1 (o_ppv o t) (E j x) | None => None end) H).
      * congruence.
      * intros j Hj. rewrite Hn, N by auto. reflexivity.
    + intros q Hq. now apply Fr.
  - (* SLen *)
    destruct (forallb (fun k => inb k known) ks) eqn:Ek; [|discriminate]. intros [= <-].
    rewrite forallb_forall in Ek.
    assert (M : mapM (fun k => bindR (match a k with Some x => Ok x | None => Raise AttributeError end) a_len) ks
                = Ok (List.map (fun _ => n) ks)).
    { clear Fr Hts. induction ks as [|k ks IH]; simpl; auto.
      assert (Hk : inb k known = true) by (apply Ek; now left). kn H. simpl. rewrite L.
      rewrite IH; [reflexivity|]. intros q Hq. apply Ek. now right. }
    rewrite M. cbn [bindR]. exists a. split; [|split; auto].
    destruct ks as [|k ks]; simpl; auto.
    assert (Ef : forallb (Nat.eqb n) (List.map (fun _ => n) ks) = true).
    { apply forallb_forall. intros q Hq. apply in_map_iff in Hq. destruct Hq as (? & <- & _). apply Nat.eqb_refl. }
    now rewrite Ef.
Qed.

Definition needs_t (st : step V) : bool :=
  match st with SGrid _ _ | SRep _ _ | SPpv _ _ => true | _ => false end.

Theorem exec_all_sound o ts sol n nrow : List.length sol = n ->
  (forall r, In r sol -> List.length r = nrow) ->
  forall l a E known known',
  List.length ts = n \/ existsb needs_t l = false ->
  (forall x, In x known -> holds n a E x) ->
  check_all nrow known l = Some known' ->
  exists a', exec_all o ts sol l a = Ok a' /\
    (forall x, In x known' ->
       holds n a' (fun j => sexec_all o (nth_error ts j) (nth_error sol j) l (E j)) x) /\
    (forall x, ~ In x (flat_map writes l) -> a' x = a x).
Proof.
  intros Hsol Hrow. induction l as [|st l IH]; intros a E known known' Hts H Hc.
  - simpl in *. injection Hc as <-. exists a. repeat split; auto.
  - cbn [check_all] in Hc. destruct (check nrow known st) as [k1|] eqn:E1; [|discriminate].
    destruct (exec_sound o ts sol n nrow st a E known k1) as (a1 & X1 & H1 & F1); auto.
    { destruct Hts as [Hts|Hts]; auto. right. cbn [existsb] in Hts. apply orb_false_iff in Hts.
      destruct Hts as [Hts _]. repeat split; intros; intros ->; discriminate. }
    assert (Hts' : List.length ts = n \/ existsb needs_t l = false).
    { destruct Hts as [h|h]; auto. right. cbn [existsb] in h. apply orb_false_iff in h. tauto. }
    destruct (IH a1 (fun j => sexec o (nth_error ts j) (nth_error sol j) st (E j)) k1 known' Hts' H1 Hc)
      as (a2 & X2 & H2 & F2).
    exists a2. cbn [exec_all]. rewrite X1. simpl. rewrite X2. split; auto. split.
    + exact H2.
    + intros x Hx. cbn [flat_map] in Hx. rewrite F2, F1; auto.
      * intros h. apply Hx. apply in_or_app. now left.
      * intros h. apply Hx. apply in_or_app. now right.
Qed.

(** When it succeeds, a statement list changes only what it writes. *)
Lemma exec_frame o ts sol st a a' x :
  exec (V:=V) o ts sol st a = Ok a' -> ~ In x (writes st) -> a' x = a x.
Proof.
  intros Hx Hn.
  assert (Fr : forall k (v : arr V) b, ~ In x [k] -> aset k v b x = b x).
  { intros k v b Hb. unfold aset. destruct (String.eqb k x) eqn:Ek; auto.
    apply String.eqb_eq in Ek. subst. exfalso. apply Hb. now left. }
  destruct st; cbn [exec writes] in *;
  repeat match type of Hx with
  | bindR ?r _ = Ok _ => destruct r eqn:?; cbn [bindR] in Hx; try discriminate
  | Ok _ = Ok _ => injection Hx as <-
  | match ?z with _ => _ end = Ok _ => destruct z eqn:?; try discriminate
  end; try (apply Fr; exact Hn); auto.
  rewrite !Fr; auto; intros [<-|[]]; apply Hn; simpl; auto.
Qed.
Lemma exec_all_frame o ts sol : forall l a a' x,
  exec_all (V:=V) o ts sol l a = Ok a' -> ~ In x (flat_map writes l) -> a' x = a x.
Proof.
  induction l as [|st l IH]; cbn [exec_all flat_map]; intros a a' x Hx Hn.
  - congruence.
  - destruct (exec o ts sol st a) as [a1|] eqn:E1; [|discriminate]. cbn [bindR] in Hx.
    rewrite (IH a1 a' x Hx), (exec_frame _ _ _ _ _ _ _ E1); auto; intros h; apply Hn;
    apply in_or_app; auto.
Qed.

End Sample.
