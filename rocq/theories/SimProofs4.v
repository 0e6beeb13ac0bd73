(** Loop-mode histories: the invariant lifted to whole histories; time grids. *)
From Coq Require Import String.
From Verif Require Import Base EventsModel EventsProofs2 SimModel SimLemmas SimSpec SimProofs SimProofs2 SimProofs3.
Open Scope string_scope.

Lemma run_ops_Inv {V} (o : ops V) m d0 : forall h ivs s,
  Inv o m d0 ivs s -> ivs <> [] -> Forall (wf_interval m) (ivs ++ runs h)%list ->
  exists s', run_ops o h s = Ok s' /\ Inv o m d0 (ivs ++ runs h)%list s'.
Proof.
  induction h as [|[iv|] h IH]; intros ivs s H Hne Hwf.
  - exists s. cbn [runs] in *. rewrite app_nil_r. auto.
  - cbn [runs] in *. assert (Hiv : wf_interval m iv).
    { rewrite Forall_forall in Hwf. apply Hwf. apply in_or_app. right. now left. }
    destruct (Inv_run o m d0 ivs iv s H Hiv) as (s1 & E & H1 & _).
    destruct (IH (ivs ++ [iv])%list s1) as (s2 & E2 & H2); auto.
    { destruct ivs; discriminate. } { now rewrite <- app_assoc. }
    exists s2. cbn [run_ops]. rewrite E. cbn [bindR]. split; auto. now rewrite <- app_assoc in H2.
  - cbn [runs] in *. assert (Hiv : Forall (wf_interval m) ivs).
    { apply Forall_forall. intros x Hx. rewrite Forall_forall in Hwf. apply Hwf. apply in_or_app. now left. }
    destruct (Inv_get o m d0 ivs s H Hne Hiv) as (s1 & trs & E & H1 & _).
    destruct (IH ivs s1 H1 Hne Hwf) as (s2 & E2 & H2).
    exists s2. cbn [run_ops]. rewrite E. cbn [bindR]. auto.
Qed.

(** restart information *)
Definition InvY {V} (o : ops V) m (d0 : der V) (init : list V) ivs (s : sim V) : Prop :=
  Inv o m d0 ivs s /\ states_last m (at_ s) (last_row ivs) /\
  (m = MThree -> exists v, nth_error init 23 = Some v /\ Last (at_ s) "Vrms_filter" v).
Definition two_points {V} (iv : interval V) : Prop := (2 <= List.length (i_t iv))%nat.

Lemma InvY_y0 {V} (o : ops V) m d0 init ivs (s : sim V) : List.length init = n_ODE m ->
  InvY o m d0 init ivs s -> sim_y0 m (at_ s) = Ok (restart m init (last_row ivs)).
Proof.
  intros Hi (_ & Hs & Hv).
  assert (D : m = MThree \/ m <> MThree) by (destruct m; auto; right; discriminate).
  destruct D as [D|D].
  - destruct (Hv D) as (v & A & B). now apply (states_last_y0 m (at_ s) _ init v).
  - destruct init as [|v0 ?]; [destruct m; discriminate|].
    apply (states_last_y0 m (at_ s) _ _ v0); auto. intros; contradiction.
Qed.

Lemma InvY_run {V} (o : ops V) m d0 init ivs iv s : Inv o m d0 ivs s ->
  (m = MThree -> exists v, nth_error init 23 = Some v /\ Last (at_ s) "Vrms_filter" v) -> wf_interval m iv ->
  exists s', finish_run o (i_d iv) (i_g iv) (i_sol iv) (i_t iv) s = Ok s' /\
    InvY o m d0 init (ivs ++ [iv])%list s'.
Proof.
  intros H Hv Hiv. destruct (Inv_run o m d0 ivs iv s H Hiv) as (s1 & E & H1 & H2 & H3).
  exists s1. split; auto. split; auto. rewrite last_row_snoc. split; auto.
  intros D. destruct (Hv D) as (v & A & B). exists v. split; auto. unfold Last, aget in *. now rewrite H3.
Qed.

Lemma last_samples {V} (o : ops V) m k ivs iv : wf_interval m iv -> two_points iv ->
  forall x, nth_error (x :: new_samples o m k (ivs ++ [iv])%list)
      (List.length (x :: new_samples o m k (ivs ++ [iv])%list) - 1)
   = Some (spec_sample o m (i_d iv) (i_g iv) (last (i_t iv) 0) (last (i_sol iv) []) k).
Proof.
  intros (Hne & Hlen & Hrow) H2 x. rewrite (nth_error_last _ x) by discriminate. f_equal.
  rewrite new_samples_app. unfold new_samples at 2. cbn [flat_map]. rewrite app_nil_r.
  unfold two_points in H2.
  set (f := fun p : Q * list V => spec_sample o m (i_d iv) (i_g iv) (fst p) (snd p) k).
  destruct (exists_last Hne) as (ts & t & Et).
  assert (Hs : i_sol iv <> []). { intros C. rewrite C in Hlen. destruct (i_t iv); [contradiction|discriminate]. }
  destruct (exists_last Hs) as (rs & r & Er). rewrite Et, Er in *. rewrite !app_length in Hlen. simpl in Hlen.
  assert (L : List.length ts = List.length rs) by lia.
  assert (Ec : combine (ts ++ [t])%list (rs ++ [r])%list = (combine ts rs ++ [(t, r)])%list).
  { clear -L. revert rs L. induction ts as [|a ts IH]; intros [|b rs] L; try discriminate; auto. simpl. f_equal. apply IH. now injection L. }
  rewrite Ec, !last_last.
  rewrite app_length in H2. simpl in H2.
  destruct ts as [|t0 ts]; [simpl in H2; lia|]. destruct rs as [|r0 rs]; [discriminate|].
  cbn [combine app map tl]. rewrite map_app. cbn [map].
  rewrite !app_comm_cons, app_assoc, last_last. reflexivity.
Qed.

Lemma vdc_state m i : nth_error (spec_states m) i = Some "Vdc" ->
  match m with MSingle | MBal => i = 6%nat | MSingleC | MThreeC => False | _ => i = 18%nat end.
Proof.
  destruct m; do 24 (destruct i as [|i]; [solve [discriminate | reflexivity]|]); destruct i; discriminate.
Qed.

Lemma InvY_get {V} (o : ops V) m d0 init ivs s : InvY o m d0 init ivs s -> ivs <> [] ->
  Forall (wf_interval m) ivs -> Forall two_points ivs ->
  exists s' trs, get_trajectories s = (s', Ok trs) /\ InvY o m d0 init ivs s'.
Proof.
  intros (H & Hs & Hv) Hne Hwf H2.
  destruct (Inv_get o m d0 ivs s H Hne Hwf) as (s1 & trs & E & H1 & _ & _ & _ & G1 & G2 & _).
  exists s1, trs. split; auto. split; auto. split.
  - destruct Hs as [Hl Hs]. split; auto. intros i x Hx Hk. destruct (Hs i x Hx Hk) as (v & Ev & HL).
    exists v. split; auto.
    destruct (string_dec x "Vdc") as [->|Hn].
    + change (state_attr "Vdc") with "Vdc_t".
      destruct H as [_ _ _ Iu _]. destruct (Iu "Vdc_t" (Vdc_in m)) as (u & Eu & E1 & E2).
      assert (E3 : In "Vdc_t" (traj_list m)) by (destruct m; simpl; auto). specialize (E2 E3).
      assert (E4 : at_ s1 "Vdc_t" = Some (A1 (flat u))).
      { rewrite G1 by (apply append_invert, Vdc_in). rewrite Eu. f_equal. auto. }
      apply (Last_intro _ _ (flat u) v E4). { intros C. rewrite C in E2. discriminate. }
      destruct (exists_last Hne) as (ivs' & iv & ->).
      rewrite Forall_app in Hwf, H2. destruct Hwf as [_ Hwf]. destruct H2 as [_ H2].
      inversion Hwf as [|? ? Wf _]; subst. inversion H2 as [|? ? W2 _]; subst.
      pose proof (last_samples o m "Vdc_t" ivs' iv Wf W2 (Some (spec_initial d0 "Vdc_t"))) as L.
      rewrite <- E2 in L. rewrite map_length, nth_error_map in L.
      destruct (nth_error (flat u) (List.length (flat u) - 1)) as [w|] eqn:Ew; [|discriminate L].
      cbn [option_map] in L. injection L as L. rewrite last_row_snoc in Ev. f_equal.
      pose proof (vdc_state m i Hx) as Hi. 
      assert (Q : spec_sample o m (i_d iv) (i_g iv) (last (i_t iv) 0) (last (i_sol iv) []) "Vdc_t" = nth_error (last (i_sol iv) []) i).
      { unfold spec_sample, spec_traj, lookup. cbn. unfold q_vdc. destruct m; try contradiction; subst i; reflexivity. }
      congruence.
    + unfold Last, aget in *. rewrite G2; auto. eapply invert_states; eauto.
  - intros D. destruct (Hv D) as (v & A & B). exists v. split; auto. unfold Last, aget in *. rewrite G2; auto.
    subst m. apply not_inb. reflexivity.
Qed.

Lemma run_ops_InvY {V} (o : ops V) m d0 init : forall h ivs s,
  InvY o m d0 init ivs s -> ivs <> [] -> Forall (wf_interval m) (ivs ++ runs h)%list ->
  Forall two_points (ivs ++ runs h)%list ->
  exists s', run_ops o h s = Ok s' /\ InvY o m d0 init (ivs ++ runs h)%list s'.
Proof.
  induction h as [|[iv|] h IH]; intros ivs s H Hne Hwf H2.
  - exists s. cbn [runs] in *. rewrite app_nil_r. auto.
  - cbn [runs] in *. assert (Hiv : wf_interval m iv).
    { rewrite Forall_forall in Hwf. apply Hwf. apply in_or_app. right. now left. }
    destruct H as (H & Hs & Hv).
    destruct (InvY_run o m d0 init ivs iv s H Hv Hiv) as (s1 & E & H1).
    destruct (IH (ivs ++ [iv])%list s1) as (s2 & E2 & H3); auto.
    { destruct ivs; discriminate. } { now rewrite <- app_assoc. } { now rewrite <- app_assoc. }
    exists s2. cbn [run_ops]. rewrite E. cbn [bindR]. split; auto. now rewrite <- app_assoc in H3.
  - cbn [runs] in *. rewrite !Forall_app in *.
    destruct (InvY_get o m d0 init ivs s H Hne) as (s1 & trs & E & H1); try tauto.
    destruct (IH ivs s1 H1 Hne) as (s2 & E2 & H3); try (rewrite Forall_app; tauto).
    exists s2. cbn [run_ops]. rewrite E. cbn [bindR]. auto.
Qed.

(** Without collecting trajectories, and without reads. *)
Definition all_runs {V} (h : list (op V)) : Prop := Forall (fun p => exists iv, p = ORun iv) h.
Definition St {V} (m : mtype) (init : list V) (r : list V) (s : sim V) : Prop :=
  typ s = m /\ collect_sol s = false /\ states_last m (at_ s) r /\
  (m = MThree -> exists v, nth_error init 23 = Some v /\ Last (at_ s) "Vrms_filter" v).
Lemma finish_nocollect {V} (o : ops V) m init iv (s : sim V) :
  typ s = m -> collect_sol s = false ->
  (m = MThree -> exists v, nth_error init 23 = Some v /\ Last (at_ s) "Vrms_filter" v) ->
  wf_interval m iv ->
  exists s', finish_run o (i_d iv) (i_g iv) (i_sol iv) (i_t iv) s = Ok s' /\ St m init (last (i_sol iv) []) s'.
Proof.
  intros Ht Hc Hv (Hne & Hlen & Hrow). unfold finish_run. rewrite Hc, Ht.
  destruct (cs_sound o m (d_vdc (i_d iv)) (i_t iv) (i_sol iv) (at_ s) Hrow) as (a2 & kn & _ & X & _ & F).
  rewrite X. cbn [bindR]. eexists; split; [reflexivity|]. unfold St, set_at. cbn [typ collect_sol at_].
  assert (Hs : i_sol iv <> []). { intros C. rewrite C in Hlen. destruct (i_t iv); [contradiction|discriminate]. }
  repeat split; auto.
  - apply Hrow. now apply nth_in_last.
  - eapply cs_states; eauto.
  - intros D. destruct (Hv D) as (v & A & B). exists v. split; auto. unfold Last, aget in *. rewrite F; auto.
    subst m. apply not_inb. rewrite D. reflexivity.
Qed.

Lemma run_nocollect {V} (o : ops V) m init : forall h r (s : sim V),
  all_runs h -> St m init r s -> Forall (wf_interval m) (runs h) ->
  exists s', run_ops o h s = Ok s' /\ St m init (match runs h with [] => r | _ => last_row (runs h) end) s'.
Proof.
  induction h as [|p h IH]; intros r s Ha Hs Hwf.
  - exists s. auto.
  - inversion Ha as [|? ? [iv ->] Ha']; subst. cbn [runs] in *. inversion Hwf as [|? ? Hiv Hwf']; subst.
    destruct Hs as (A & B & C & D).
    destruct (finish_nocollect o m init iv s A B D Hiv) as (s1 & E & S1).
    destruct (IH _ s1 Ha' S1 Hwf') as (s2 & E2 & S2). exists s2. cbn [run_ops]. rewrite E. cbn [bindR].
    split; auto. destruct (runs h) as [|iv2 l] eqn:Er; cbn [runs] in *.
    + exact S2.
    + replace (last_row (iv :: iv2 :: l)) with (last_row (iv2 :: l)); auto.
      unfold last_row. cbn [rev]. rewrite <- !app_assoc.
      destruct (rev l) as [|x y]; reflexivity.
Qed.

(** ** Time vector *)
Lemma last_in_tail {A} (a : A) l d : In (last (a :: l) d) (a :: l).
Proof. destruct (exists_last (l:=a :: l)) as (l' & x & E); [discriminate|]. rewrite E, last_last. apply in_or_app. right. now left. Qed.

Lemma sorted_app (l1 l2 : list Q) : StronglySorted Qlt l1 -> StronglySorted Qlt l2 ->
  (forall x y, In x l1 -> In y l2 -> x < y) -> StronglySorted Qlt (l1 ++ l2)%list.
Proof.
  induction l1 as [|a l1 IH]; intros H1 H2 H; auto. simpl. inversion H1 as [|? ? S1 F1]; subst. constructor.
  - apply IH; auto. intros; apply H; simpl; auto.
  - rewrite Forall_app. split; auto. apply Forall_forall. intros y Hy. apply H; simpl; auto.
Qed.
Lemma sorted_last (l : list Q) : l <> [] -> StronglySorted Qlt l -> forall x, In x l -> x <= last l 0.
Proof.
  intros Hne HS. destruct (exists_last Hne) as (l' & z & ->). rewrite last_last. clear Hne.
  induction l' as [|a l' IH]; intros x Hx.
  - destruct Hx as [<-|[]]. lra.
  - inversion HS as [|? ? S1 F1]; subst. destruct Hx as [<-|Hx]; [|apply IH; auto].
    rewrite Forall_forall in F1. assert (a < z) by (apply F1; apply in_or_app; right; now left). lra.
Qed.
Lemma last_default {A} (l : list A) d d' : l <> [] -> last l d = last l d'.
Proof. intros H. destruct (exists_last H) as (l' & x & ->). now rewrite !last_last. Qed.

Lemma joined_sorted {V} : forall (ivs : list (interval V)) t0, joined t0 ivs ->
  StronglySorted Qlt (t0 :: new_times ivs).
Proof.
  induction ivs as [|iv ivs IH]; intros t0 H.
  - simpl. constructor; constructor.
  - destruct H as (tl0 & Et & HS & Hj). unfold new_times. cbn [flat_map]. rewrite Et. cbn [tl].
    fold (new_times ivs). apply IH in Hj. rewrite app_comm_cons.
    remember (last (t0 :: tl0) t0) as z eqn:Ez. rewrite (last_default (t0 :: tl0) t0 0) in Ez by discriminate.
    apply StronglySorted_inv in Hj. destruct Hj as [S2 F2].
    apply sorted_app; auto. intros x y Hx Hy. rewrite Forall_forall in F2. specialize (F2 y Hy).
    assert (x <= last (t0 :: tl0) 0) by (apply sorted_last; auto; discriminate).
    rewrite <- Ez in H. lra.
Qed.
